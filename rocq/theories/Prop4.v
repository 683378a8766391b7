(** C17 - C21, C65, C66: spacegroup.rs *)
From Coq Require Import ZArith Reals String Ascii List Bool Lia Lra.
From Verif Require Import Num Mat DataCore DataSG SymmOp SpaceGroup Analyzer RInst FInst Spec RFacts PFloat PSymmOp PSpaceGroup PSpaceGroup2.
Import ListNotations.
Open Scope R_scope.

(** C17. *)
Theorem C17_from_generators_adds_new_products :
  forall (tols : vec R) (fuel : nat) (gens r : list (@symmop RNum)),
    0 < vx tols <= / 2 -> 0 < vy tols <= / 2 -> 0 < vz tols <= / 2 ->
    @from_generators RNum fuel gens tols = Ok r ->
    (exists added, r = gens ++ added) /\
    forall i op, (List.length gens <= i)%nat -> nth_error r i = Some op ->
      (exists j k a b, (j < i)%nat /\ (k < i)%nat /\ nth_error r j = Some a /\ nth_error r k = Some b /\
         (i8_range (ZMmul (rotation a) (rotation b)) -> rotation op = ZMmul (rotation a) (rotation b)) /\
         Vcongr (translation op) (Vadd (Mapp (MofZ (rotation b)) (translation a)) (translation b))) /\
      (forall c, - vnth tols c <= vnth (translation op) c <= 1 - vnth tols c) /\
      (forall j s, (j < i)%nat -> nth_error r j = Some s ->
         ~ (rotation s = rotation op /\ near3 tols (translation s) (translation op))).
Proof.
  intros tols fuel gens r H1 H2 H3 E. assert (T : tols_ok tols) by (repeat split; tauto).
  destruct (from_generators_spec tols T fuel gens r E) as [G _].
  destruct (grown_indexed tols gens r G) as [P Q]. split; [exact P|].
  intros i op Hi Eo. destruct (Q i op Hi Eo) as ((j & k & a & b & A1 & A2 & A3 & A4 & A5 & A6) & B & C).
  split; [|split; [|exact C]].
  - exists j, k, a, b. repeat (split; [assumption|]). split; [|exact A6].
    intro Hr. rewrite A5, op_mul_R by auto. reflexivity.
  - intro c. apply B. destruct c as [|[|c]]; cbn; lra.
Qed.
Print Assumptions C17_from_generators_adds_new_products.

(** C18. *)
Theorem C18_from_generators_closed :
  forall (tols : vec R) (fuel : nat) (gens r : list (@symmop RNum)),
    0 < vx tols <= / 2 -> 0 < vy tols <= / 2 -> 0 < vz tols <= / 2 ->
    @from_generators RNum fuel gens tols = Ok r ->
    forall g m, In g gens -> In m r ->
      exists s, In s r /\ rotation s = rotation (@op_mul RNum g m) /\
                near3 tols (translation s) (translation (@op_mul RNum g m)).
Proof.
  intros tols fuel gens r H1 H2 H3 E g m Hg Hm. assert (T : tols_ok tols) by (repeat split; tauto).
  destruct (from_generators_spec tols T fuel gens r E) as [_ C].
  destruct (C m Hm) as [[]|Q]. destruct (Q g Hg) as (s & Hs & Er & N). exists s. auto.
Qed.
Print Assumptions C18_from_generators_closed.

(** C65.  Over the reals the search always ends, with one answer for every sufficient number of rounds. *)
Theorem C65_from_generators_terminates :
  forall (tols : vec R) (gens : list (@symmop RNum)),
    0 < vx tols <= / 2 -> 0 < vy tols <= / 2 -> 0 < vz tols <= / 2 ->
    exists (rounds : nat) (r : list (@symmop RNum)),
      forall fuel, (rounds <= fuel)%nat -> @from_generators RNum fuel gens tols = Ok r.
Proof.
  intros tols gens H1 H2 H3. assert (T : tols_ok tols) by (repeat split; tauto).
  set (n := List.length (keys tols)).
  destruct (from_generators_terminates tols T gens (S n) (le_n _)) as [r Hr].
  exists (S n), r. intros fuel Hf. exact (sg_rounds_fuel_mono tols (S n) fuel gens gens r Hf Hr).
Qed.
Print Assumptions C65_from_generators_terminates.

(** a screw axis and a centring translation: the call returns, and a product of the two is represented *)
Example C17_C18_example :
  let tols := V (1/100) (1/100) (1/100) in
  let screw := SymmOp (N := RNum) (M (-1) 0 0 0 1 0 0 0 (-1))%Z (V 0 (1/2) 0) in
  let centring := SymmOp (N := RNum) ZMid (V (1/2) 0 (1/2)) in
  exists fuel r s, @from_generators RNum fuel [screw; centring] tols = Ok r /\ In s r /\
    rotation s = (M (-1) 0 0 0 1 0 0 0 (-1))%Z /\ near3 tols (translation s) (V (1/2) (1/2) (1/2)).
Proof.
  cbv zeta. set (tols := V (1/100) (1/100) (1/100)).
  set (a := SymmOp (N := RNum) (M (-1) 0 0 0 1 0 0 0 (-1))%Z (V 0 (1/2) 0)).
  set (b := SymmOp (N := RNum) ZMid (V (1/2) 0 (1/2))).
  assert (B : 0 < 1/100 <= / 2) by lra.
  destruct (C65_from_generators_terminates tols [a; b]) as (n & r & Hr); auto.
  specialize (Hr n (le_n _)). exists n, r.
  destruct (C17_from_generators_adds_new_products tols n [a; b] r) as ((ad & Er) & _); auto.
  destruct (C18_from_generators_closed tols n [a; b] r) with (g := a) (m := b) as (s & Hs & R1 & N1); auto;
    [now left|rewrite Er; cbn; auto|].
  exists s. split; [exact Hr|]. split; [exact Hs|]. split; [rewrite R1; reflexivity|].
  eapply near3_congr; [apply Vcongr_refl| |exact N1].
  exists (V 0 0 0)%Z. apply vec_ext; cbn; lra.
Qed.

(** C19.  [tabulated ls order n codes]: the entry of space group n in the nested table. *)
Definition tabulated (ls : lattice_system) (order n : Z) (codes : list Z) : Prop :=
  exists buckets groups, In (ls, buckets) SG_NUM_TO_FULL_MATRICES /\ In (order, groups) buckets /\ In (n, codes) groups.
(** the full claim holds for 209 groups ... (missing: the 21 groups of [not_closed], for which it is false) *)
Theorem C19_complete_list_unchanged_partial :
  forall ls order n codes, tabulated ls order n codes -> ~ In n not_closed ->
    exists symbol ops,
      am_get Z.eqb n SG_NUM_TO_SYMBOL = Some symbol /\
      map_res (@candidate_op RNum (has_char "A"%char symbol)) codes = Ok ops /\
      forall (tols : vec R) (fuel : nat),
        0 < vx tols <= / 2 -> 0 < vy tols <= / 2 -> 0 < vz tols <= / 2 -> (1 <= fuel)%nat ->
        @from_generators RNum fuel ops tols = Ok ops.
Proof.
  intros ls order n codes Ht Hn. apply sg_entries_In in Ht.
  destruct (table_entry ls order n codes Ht) as (sym & l & E1 & E2 & C).
  exists sym, (map sop_of l). split; [exact E1|]. split; [now apply zcands_R|].
  intros tols [|fuel] T1 T2 T3 Hf; [lia|]. apply zclosed_unchanged; [repeat split; tauto|]. now apply C.
Qed.
Print Assumptions C19_complete_list_unchanged_partial.
(** ... and fails for the 21 others: for every tolerance up to 1/12 the list is never returned, and whatever is
    returned is longer *)
Theorem C19_complete_list_unchanged_refuted :
  forall ls order n codes, tabulated ls order n codes -> In n not_closed ->
    exists symbol ops,
      am_get Z.eqb n SG_NUM_TO_SYMBOL = Some symbol /\
      map_res (@candidate_op RNum (has_char "A"%char symbol)) codes = Ok ops /\
      forall (tols : vec R) (fuel : nat),
        0 < vx tols <= 1 / 12 -> 0 < vy tols <= 1 / 12 -> 0 < vz tols <= 1 / 12 ->
        forall r, @from_generators RNum fuel ops tols = Ok r -> (List.length ops < List.length r)%nat.
Proof.
  intros ls order n codes Ht Hn. apply sg_entries_In in Ht.
  destruct (table_entry ls order n codes Ht) as (sym & l & E1 & E2 & C).
  exists sym, (map sop_of l). split; [exact E1|]. split; [now apply zcands_R|].
  intros tols fuel T1 T2 T3 r Er. assert (T : tols_ok tols) by (repeat split; lra).
  destruct (from_generators_spec tols T fuel _ r Er) as [G _].
  destruct (grown_indexed tols _ r G) as [[ad ->] _]. destruct ad as [|x ad].
  - exfalso. rewrite app_nil_r in Er. revert Er. apply zopen_changed; auto.
    apply not_true_is_false. intro Q. apply C in Q. tauto.
  - rewrite app_length. cbn. lia.
Qed.
Print Assumptions C19_complete_list_unchanged_refuted.
(** both cases occur: 225 is tabulated and fine, 92 (P4_12_12) is tabulated and not *)
Example C19_example :
  (exists ls order codes, tabulated ls order 225 codes /\ List.length codes = 48%nat /\ ~ In 225%Z not_closed) /\
  (exists ls order codes, tabulated ls order 92 codes /\ List.length codes = 8%nat /\ In 92%Z not_closed).
Proof.
  assert (F : forall n k, existsb (fun e => let '(_, _, m, c) := e in (m =? n)%Z && Nat.eqb (List.length c) k) sg_entries = true ->
     exists ls order codes, tabulated ls order n codes /\ List.length codes = k).
  { intros n k H. apply existsb_exists in H. destruct H as ([[[ls o] m] c] & Hi & E). apply andb_true_iff in E.
    destruct E as [E1 E2]. apply Z.eqb_eq in E1. apply Nat.eqb_eq in E2. subst.
    exists ls, o, c. split; [now apply sg_entries_In|reflexivity]. }
  split.
  - destruct (F 225%Z 48%nat) as (ls & o & c & H1 & H2); [vm_compute; reflexivity|]. exists ls, o, c.
    split; auto. split; auto. cbn. lia.
  - destruct (F 92%Z 8%nat) as (ls & o & c & H1 & H2); [vm_compute; reflexivity|]. exists ls, o, c.
    split; auto. split; auto. cbn. auto.
Qed.

(** C20.  T has the integer inverse Ti.  Exactly the operations whose conjugate has an entry 0 or +-1 survive. *)
Theorem C20_unimodular_transformation :
  forall (T Ti : mat Z) (tols : vec R) (ops : list (@symmop RNum)) (fuel : nat),
    ZMmul T Ti = ZMid -> ZMmul Ti T = ZMid ->
    0 < vx tols <= / 2 -> 0 < vy tols <= / 2 -> 0 < vz tols <= / 2 -> (1 <= fuel)%nat ->
    (forall op, In op ops -> i8_range (ZMmul (ZMmul Ti (rotation op)) T)) ->
    (forall i j a b, (i < j)%nat -> nth_error ops i = Some a -> nth_error ops j = Some b -> rotation a = rotation b ->
       ~ near3 tols (Mapp (MofZ Ti) (translation a)) (Mapp (MofZ Ti) (translation b))) ->
    exists ops',
      @sg_apply_transformation RNum fuel ops (MofZ T) tols = Ok ops' /\
      Forall2 (fun op op' =>
                 rotation op' = ZMmul (ZMmul Ti (rotation op)) T /\
                 (forall x, Vcongr (Mapp (MofZ Ti) (@op_apply RNum op x)) (@op_apply RNum op' (Mapp (MofZ Ti) x))) /\
                 (forall c, - vnth tols c <= vnth (translation op') c <= 1 - vnth tols c))
              (filter (fun op => has_unit_entry (ZMmul (ZMmul Ti (rotation op)) T)) ops) ops' /\
      (forall i j a b, (i < j)%nat -> nth_error ops' i = Some a -> nth_error ops' j = Some b ->
         ~ (rotation a = rotation b /\ near3 tols (translation a) (translation b))).
Proof.
  intros T Ti tols ops fuel HT HTi T1 T2 T3 Hf Hr Sep. destruct fuel as [|fuel]; [lia|].
  assert (Tk : tols_ok tols) by (repeat split; tauto).
  destruct (sg_apply_unimodular T Ti tols HT HTi Tk ops fuel Hr Sep) as (ops' & E & F & I).
  exists ops'. split; [exact E|]. split; [|exact I]. revert F. apply Forall2_weaken.
  intros op op' (R1 & R2 & R3). split; [exact R1|]. split; [|exact R3].
  intro x. rewrite !op_apply_R. unfold act. rewrite R1. unfold cj. rewrite Mapp_add, !MofZ_mul, !Mapp_Mmul.
  rewrite <- (Mapp_Mmul (MofZ T) (MofZ Ti) x), <- MofZ_mul, HT, MofZ_id, Mapp_id.
  apply Vcongr_add; [apply Vcongr_refl|]. now apply Vcongr_sym.
Qed.
Print Assumptions C20_unimodular_transformation.
(** the hypotheses hold for a shear and the group {1, 2_1 along b} *)
Example C20_example :
  let T := (M 1 0 1 0 1 0 0 0 1)%Z in let Ti := (M 1 0 (-1) 0 1 0 0 0 1)%Z in
  let ops := [SymmOp (N := RNum) ZMid (V 0 0 0);
              SymmOp (N := RNum) (M (-1) 0 0 0 1 0 0 0 (-1))%Z (V 0 (1/2) (1/2))] in
  ZMmul T Ti = ZMid /\ ZMmul Ti T = ZMid /\
  (forall op, In op ops -> i8_range (ZMmul (ZMmul Ti (rotation op)) T) /\ has_unit_entry (ZMmul (ZMmul Ti (rotation op)) T) = true) /\
  NoDup (map (@rotation RNum) ops).
Proof.
  cbv zeta. split; [reflexivity|]. split; [reflexivity|]. split.
  - intros op [<-|[<-|[]]]; split; try reflexivity; unfold i8_range, entries_within; cbn; lia.
  - cbn [map rotation]. constructor; [intros [Q|[]]; discriminate|]. constructor; [intros []|constructor].
Qed.

(** C66 is false: {1, 2} and a unimodular T for which the twofold axis disappears, in binary64. *)
Definition z3 : vec f64 := V (F_of_Z 0) (F_of_Z 0) (F_of_Z 0).
Definition tol3 : vec f64 := V (f64_of 1 (-7)) (f64_of 1 (-7)) (f64_of 1 (-7)).
Definition rots_of {L : Libm} (r : res (list (@symmop (@FNum L)))) : option (list (mat Z)) :=
  match r with Ok l => Some (map (@rotation (@FNum L)) l) | _ => None end.
Lemma rots_of_spec {L : Libm} (r : res (list (@symmop (@FNum L)))) l :
  rots_of r = Some l -> exists ops', r = Ok ops' /\ map (@rotation (@FNum L)) ops' = l.
Proof. destruct r as [o| |]; try discriminate. intro E. injection E as <-. exists o. auto. Qed.
Theorem C66_unimodular_keeps_operations_refuted :
  exists (T Ti r : mat Z), ZMmul T Ti = ZMid /\ ZMmul Ti T = ZMid /\ ZMmul r r = ZMid /\
    i8_range (ZMmul (ZMmul Ti r) T) /\
    forall (L : Libm), exists ops',
      @sg_apply_transformation (@FNum L) 1 (map (fun m => SymmOp (N := @FNum L) m z3) [ZMid; r])
         (@mcast (@FNum L) T) tol3 = Ok ops' /\ map (@rotation (@FNum L)) ops' = [ZMid].
Proof.
  exists (M 2 (-1) 0 3 0 (-1) 2 1 (-1))%Z, (M 1 (-1) 1 1 (-2) 2 3 (-4) 3)%Z, (M (-1) 0 0 0 (-1) 0 0 0 1)%Z.
  split; [reflexivity|]. split; [reflexivity|]. split; [reflexivity|].
  split; [unfold i8_range, entries_within; cbn; lia|].
  intro L. apply rots_of_spec. vm_compute. reflexivity.
Qed.
Print Assumptions C66_unimodular_keeps_operations_refuted.

(** C21 is false: for T = diag(2,1,1) the fourfold axis is kept although its conjugate is not an integer matrix;
    what is stored is not a conjugate of any operation (T R' = R T fails) and has determinant 2. *)
Theorem C21_non_integral_operations_dropped_refuted :
  exists (T : mat Z) (rots : list (mat Z)),
    forall (L : Libm), exists ops' op',
      @sg_apply_transformation (@FNum L) 1 (map (fun r => SymmOp (N := @FNum L) r z3) rots)
         (@mcast (@FNum L) T) tol3 = Ok ops' /\ In op' ops' /\
      (forall r, In r rots -> ZMmul T (rotation op') <> ZMmul r T) /\ ZMdet (rotation op') = 2%Z.
Proof.
  exists (M 2 0 0 0 1 0 0 0 1)%Z, [ZMid; (M 0 (-1) 0 1 0 0 0 0 1)%Z].
  intro L. destruct (rots_of_spec (@sg_apply_transformation (@FNum L) 1
    (map (fun r => SymmOp (N := @FNum L) r z3) [ZMid; (M 0 (-1) 0 1 0 0 0 0 1)%Z])
    (@mcast (@FNum L) (M 2 0 0 0 1 0 0 0 1)%Z) tol3)
    [ZMid; ZMid; (M 0 (-1) 0 2 0 0 0 0 1)%Z; (M 0 (-1) 0 2 0 0 0 0 1)%Z]) as (ops' & E & Er); [vm_compute; reflexivity|].
  assert (I : In (M 0 (-1) 0 2 0 0 0 0 1)%Z (map (@rotation (@FNum L)) ops')) by (rewrite Er; cbn; auto).
  apply in_map_iff in I. destruct I as (op' & Eo & I). exists ops', op'. split; [exact E|]. split; [exact I|].
  rewrite Eo. split; [|reflexivity]. intros r [<-|[<-|[]]]; discriminate.
Qed.
Print Assumptions C21_non_integral_operations_dropped_refuted.
