(** The space group table: every entry is a group, entries of a bucket differ *)
From Coq Require Import ZArith Reals String Ascii List Bool Lia Lra Permutation.
From Verif Require Import Num Mat DataCore DataSG Analyzer RInst Spec Spec2 RFacts PSymmOp PSpaceGroup2 PPointGroup2.
Import ListNotations.
Open Scope Z_scope.

Lemma congr12_eq12 s t : eq12 s t = true <-> congr12 s t.
Proof.
  unfold eq12. rewrite !andb_true_iff, !Z.eqb_eq. split.
  - intros [[H1 H2] H3]. apply Z_div_exact_2 in H1, H2, H3; try lia.
    exists (V ((vx s - vx t) / 12) ((vy s - vy t) / 12) ((vz s - vz t) / 12)). destruct s; cbn in *. f_equal; lia.
  - intros [n ->]. cbn [vx vy vz]. rewrite !Z.add_simpl_l, !(Z.mul_comm 12), !Z_mod_mult. auto.
Qed.
Lemma same_op_eq a b : zop_eq a b = true <-> same_op a b.
Proof. rewrite zop_eq_and, andb_true_iff, zmat_eqb_spec, congr12_eq12. reflexivity. Qed.

Fixpoint find_rot (r : mat Z) (l : list (mat Z * vec Z)) : option (vec Z) :=
  match l with [] => None | (r', t) :: l' => if zmat_eqb r r' then Some t else find_rot r l' end.
Lemma find_rot_some r l t : find_rot r l = Some t -> In (r, t) l.
Proof.
  induction l as [|[r' t'] l IH]; cbn; [discriminate|]. destruct (zmat_eqb r r') eqn:E; [|auto].
  apply zmat_eqb_spec in E. intros [= ->]. subst. now left.
Qed.
Definition closed_by (l : list (mat Z * vec Z)) (a b : mat Z * vec Z) : bool :=
  let c := compose a b in match find_rot (fst c) l with Some t => eq12 t (snd c) | None => false end.
Fixpoint distinct_rots (l : list (mat Z * vec Z)) : bool :=
  match l with [] => true | (r, _) :: t => match find_rot r t with None => distinct_rots t | Some _ => false end end.
Definition is_unit (a : mat Z * vec Z) : bool := zop_eq a (ZMid, V 0 0 0).
Definition group_check (l : list (mat Z * vec Z)) : bool :=
  distinct_rots l && forallb (fun a => Z.abs (ZMdet (fst a)) =? 1) l && ex_if is_unit l &&
  forallb (fun a => forallb (closed_by l a) l) l.
Definition entry_ops (n : Z) (codes : list Z) : option (list (mat Z * vec Z)) :=
  match am_get Z.eqb n SG_NUM_TO_SYMBOL with Some sym => Some (map (code_op (has_char "A"%char sym)) codes) | None => None end.
Definition entry_check (e : lattice_system * Z * Z * list Z) : bool :=
  let '(_, order, n, codes) := e in
  match entry_ops n codes with
  | Some l => group_check l && (order =? Z.of_nat (List.length codes)) && (order <? 49) && (1 <=? n) && (n <=? 230)
  | None => false
  end.
Lemma entries_checked : forallb entry_check sg_entries = true.
Proof. vm_compute. reflexivity. Qed.
Lemma numbers_once : map (fun e => snd (fst e)) sg_entries = nodup Z.eq_dec (map (fun e => snd (fst e)) sg_entries) /\
  forallb (fun k => existsb (fun e => snd (fst e) =? Z.of_nat k) sg_entries) (seq 1 230) = true.
Proof. split; vm_compute; reflexivity. Qed.
(** entries of the same lattice system and order: some operation of the first is not one of the second *)
Definition differ (l l' : list (mat Z * vec Z)) : bool := negb (forallb (fun a => ex_if (zop_eq a) l') l).
Definition bucket_differs (groups : list (Z * list Z)) : bool :=
  let ls := map (fun g => (fst g, match entry_ops (fst g) (snd g) with Some l => l | None => [] end)) groups in
  forallb (fun g => forallb (fun h => (fst g =? fst h) || differ (snd g) (snd h)) ls) ls.
Lemma buckets_differ : forallb (fun b => forallb (fun o => bucket_differs (snd o)) (snd b)) SG_NUM_TO_FULL_MATRICES = true.
Proof. vm_compute. reflexivity. Qed.

(** ** From the checks to the statements *)
Lemma find_rot_none r l : find_rot r l = None -> ~ In r (map fst l).
Proof.
  induction l as [|[r' t'] l IH]; cbn [find_rot map fst In]; [tauto|]. destruct (zmat_eqb r r') eqn:E; [discriminate|]. intros H [->|Q].
  - assert (zmat_eqb r r = true) by now apply zmat_eqb_spec. congruence.
  - now apply IH.
Qed.
Lemma distinct_rots_ok l : distinct_rots l = true -> NoDup (map fst l).
Proof.
  induction l as [|[r t] l IH]; cbn [distinct_rots map fst]; intro H; [constructor|].
  destruct (find_rot r l) eqn:E; [discriminate|]. constructor; [now apply find_rot_none|auto].
Qed.
Lemma congr12_sym s t : congr12 s t -> congr12 t s.
Proof. intros [n ->]. exists (V (- vx n) (- vy n) (- vz n)). destruct t as [x y z]; cbn [vx vy vz]. f_equal; lia. Qed.
Lemma congr12_trans s t u : congr12 s t -> congr12 t u -> congr12 s u.
Proof. intros [n ->] [m ->]. exists (V (vx n + vx m) (vy n + vy m) (vz n + vz m)). cbn [vx vy vz]. f_equal; lia. Qed.
Lemma same_op_refl a : same_op a a.
Proof. split; [reflexivity|]. exists (V 0 0 0). destruct (snd a) as [x y z]. cbn [vx vy vz]. f_equal; lia. Qed.
Lemma same_op_sym a b : same_op a b -> same_op b a. Proof. intros [E C]. split; [auto|now apply congr12_sym]. Qed.
Lemma same_op_trans a b c : same_op a b -> same_op b c -> same_op a c.
Proof. intros [E C] [E2 C2]. split; [congruence|eapply congr12_trans; eauto]. Qed.
Lemma compose_same a a' b b' : same_op a a' -> same_op b b' -> same_op (compose a b) (compose a' b').
Proof.
  intros [E1 [n C1]] [E2 [m C2]]. unfold compose. rewrite E1, E2, C1, C2. split; [reflexivity|]. cbn [snd fst].
  exists (ZVadd (ZMapp (fst a') m) n). unfold ZVadd, ZMapp. cbn [vx vy vz]. f_equal; ring.
Qed.
Lemma compose_assoc a b c : compose a (compose b c) = compose (compose a b) c.
Proof.
  unfold compose. cbn [fst snd]. f_equal; [unfold ZMmul; cbn [m11 m12 m13 m21 m22 m23 m31 m32 m33]; f_equal; ring|].
  unfold ZVadd, ZMapp, ZMmul. cbn [vx vy vz m11 m12 m13 m21 m22 m23 m31 m32 m33]. f_equal; ring.
Qed.
Lemma compose_unit_l a : compose (ZMid, V 0 0 0) a = a.
Proof.
  destruct a as [[a b c d e f g h i] [x y z]]. unfold compose, ZMmul, ZMid, ZVadd, ZMapp. cbn [fst snd vx vy vz m11 m12 m13 m21 m22 m23 m31 m32 m33].
  f_equal; f_equal; ring.
Qed.
Lemma compose_unit_r a : compose a (ZMid, V 0 0 0) = a.
Proof.
  destruct a as [[a b c d e f g h i] [x y z]]. unfold compose, ZMmul, ZMid, ZVadd, ZMapp. cbn [fst snd vx vy vz m11 m12 m13 m21 m22 m23 m31 m32 m33].
  f_equal; f_equal; ring.
Qed.
Lemma ZMmul_cancel r a b : ZMdet r = 1 \/ ZMdet r = -1 -> ZMmul r a = ZMmul r b -> a = b.
Proof.
  intros H E. assert (Q : forall x, ZMmul (zadj r) (ZMmul r x) = mmap (Z.mul (ZMdet r)) x).
  { intro x. unfold ZMmul, zadj, ZMdet, mmap. cbn [m11 m12 m13 m21 m22 m23 m31 m32 m33]. f_equal; ring. }
  pose proof (Q a) as Qa. rewrite E, Q in Qa.
  destruct a as [a1 a2 a3 a4 a5 a6 a7 a8 a9], b as [b1 b2 b3 b4 b5 b6 b7 b8 b9]. unfold mmap in Qa. cbn [m11 m12 m13 m21 m22 m23 m31 m32 m33] in Qa.
  injection Qa as E1 E2 E3 E4 E5 E6 E7 E8 E9. destruct H as [H|H]; rewrite H in *; f_equal; lia.
Qed.
(** closure of a finite set of distinct rotations gives inverses *)
Section Inverse.
  Variable l : list (mat Z * vec Z).
  Hypothesis HN : NoDup (map fst l).
  Hypothesis HD : forall a, In a l -> ZMdet (fst a) = 1 \/ ZMdet (fst a) = -1.
  Hypothesis HE : exists e, In e l /\ same_op e (ZMid, V 0 0 0).
  Hypothesis HC : forall a b, In a l -> In b l -> exists c, In c l /\ same_op c (compose a b).
  Lemma same_rot_same a b : In a l -> In b l -> fst a = fst b -> a = b.
  Proof.
    clear - HN. induction l as [|x t IH]; cbn [map] in HN; [intros []|]. inversion HN as [|? ? N1 N2]; subst. intros [->|Ha] [->|Hb] E; auto.
    - elim N1. rewrite E. now apply in_map.
    - elim N1. rewrite <- E. now apply in_map.
  Qed.
  Lemma right_inverse a : In a l -> exists b, In b l /\ same_op (compose a b) (ZMid, V 0 0 0).
  Proof.
    intro Ha. set (img := map (fun b => ZMmul (fst a) (fst b)) l).
    assert (N1 : NoDup img).
    { unfold img. rewrite <- (map_map fst (ZMmul (fst a))). apply FinFun.Injective_map_NoDup; [|exact HN].
      intros x y. apply ZMmul_cancel. now apply HD. }
    assert (I1 : incl img (map fst l)).
    { intros r Hr. apply in_map_iff in Hr. destruct Hr as (b & <- & Hb). destruct (HC a b Ha Hb) as (c & Hc & Ec & _).
      apply in_map_iff. exists c. split; [exact Ec|exact Hc]. }
    assert (I2 : incl (map fst l) img) by (apply NoDup_length_incl; [exact N1|unfold img; rewrite !map_length; lia|exact I1]).
    destruct HE as (e & He & Ee). assert (Q : In (fst e) img) by (apply I2, in_map, He).
    apply in_map_iff in Q. destruct Q as (b & Eb & Hb). exists b. split; [exact Hb|].
    destruct (HC a b Ha Hb) as (c & Hc & Ec). assert (c = e) by (apply same_rot_same; auto; destruct Ec as [-> _]; exact Eb). subst c.
    apply same_op_trans with e; [now apply same_op_sym|exact Ee].
  Qed.
  Lemma two_sided_inverse a : In a l -> exists b, In b l /\ same_op (compose a b) (ZMid, V 0 0 0) /\ same_op (compose b a) (ZMid, V 0 0 0).
  Proof.
    intro Ha. destruct (right_inverse a Ha) as (b & Hb & E). exists b. split; [exact Hb|]. split; [exact E|].
    destruct (right_inverse b Hb) as (c & Hc & Ec).
    (* b a = b a (b c) = b (a b) c = b c = 1 *)
    apply same_op_trans with (compose (compose b a) (compose b c)).
    - rewrite <- (compose_unit_r (compose b a)) at 1. apply compose_same; [apply same_op_refl|now apply same_op_sym].
    - rewrite <- compose_assoc, (compose_assoc a b c). apply same_op_trans with (compose b c); [|exact Ec].
      apply compose_same; [apply same_op_refl|].
      apply same_op_trans with (compose (ZMid, V 0 0 0) c); [|rewrite compose_unit_l; apply same_op_refl].
      apply compose_same; [exact E|apply same_op_refl].
  Qed.
End Inverse.
Lemma group_check_ok l : group_check l = true -> operation_group l.
Proof.
  unfold group_check. rewrite !andb_true_iff. intros [[[H1 H2] H3] H4]. apply distinct_rots_ok in H1.
  assert (D : forall a, In a l -> ZMdet (fst a) = 1 \/ ZMdet (fst a) = -1).
  { intros a Ha. pose proof (proj1 (forallb_forall _ _) H2 a Ha) as Q. cbn beta in Q. apply Z.eqb_eq in Q. lia. }
  assert (E : exists e, In e l /\ same_op e (ZMid, V 0 0 0)).
  { rewrite ex_if_existsb in H3. apply existsb_exists in H3. destruct H3 as (e & He & Q). exists e. split; [exact He|now apply same_op_eq]. }
  assert (C : forall a b, In a l -> In b l -> exists c, In c l /\ same_op c (compose a b)).
  { intros a b Ha Hb. pose proof (proj1 (forallb_forall _ _) H4 a Ha) as Q. cbn beta in Q.
    pose proof (proj1 (forallb_forall _ _) Q b Hb) as Q2. unfold closed_by in Q2.
    destruct (find_rot (fst (compose a b)) l) as [t|] eqn:F; [|discriminate]. apply find_rot_some in F. eexists. split; [exact F|].
    split; [reflexivity|]. now apply congr12_eq12. }
  constructor; auto. intros a Ha. apply (two_sided_inverse l H1 D E C a Ha).
Qed.
Lemma entry_facts ls order n codes : In (ls, order, n, codes) sg_entries ->
  exists sym, am_get Z.eqb n SG_NUM_TO_SYMBOL = Some sym /\ operation_group (map (code_op (has_char "A"%char sym)) codes) /\
    order = Z.of_nat (List.length codes) /\ order <= 48 /\ 1 <= n <= 230.
Proof.
  intro H. pose proof (proj1 (forallb_forall _ _) entries_checked _ H) as Q. unfold entry_check, entry_ops in Q.
  destruct (am_get Z.eqb n SG_NUM_TO_SYMBOL) as [sym|]; [|discriminate]. rewrite !andb_true_iff in Q.
  destruct Q as [[[[Q1 Q2] Q3] Q4] Q5]. exists sym. split; [reflexivity|]. split; [now apply group_check_ok|]. lia.
Qed.
Lemma numbers_nodup : NoDup (map (fun e => snd (fst e)) sg_entries).
Proof. rewrite (proj1 numbers_once). apply NoDup_nodup. Qed.
Lemma number_unique e e' : In e sg_entries -> In e' sg_entries -> snd (fst e) = snd (fst e') -> e = e'.
Proof.
  pose proof numbers_nodup as NN. revert NN. generalize sg_entries. induction l as [|x t IH]; [intros _ []|]. cbn [map].
  intros NN [X1|H1] [X2|H2] E.
  - congruence.
  - subst x. inversion NN as [|? ? Q _]; subst. elim Q. rewrite E. exact (in_map (fun e => snd (fst e)) _ _ H2).
  - subst x. inversion NN as [|? ? Q _]; subst. elim Q. rewrite <- E. exact (in_map (fun e => snd (fst e)) _ _ H1).
  - inversion NN; subst. auto.
Qed.
Lemma numbers_all n : 1 <= n <= 230 -> exists ls order codes, In (ls, order, n, codes) sg_entries.
Proof.
  intro H. pose proof (proj1 (forallb_forall _ _) (proj2 numbers_once) (Z.to_nat n)) as Q. cbn beta in Q.
  assert (S : In (Z.to_nat n) (seq 1 230)) by (apply in_seq; lia). apply Q in S. clear Q. apply existsb_exists in S.
  destruct S as ([[[ls o] m] c] & HI & E). cbn in E. apply Z.eqb_eq in E. rewrite Z2Nat.id in E by lia. subst m. eauto.
Qed.

(** ** Table keys are distinct *)
Lemma systems_nodup : NoDup (map fst SG_NUM_TO_FULL_MATRICES).
Proof.
  assert (E : map fst SG_NUM_TO_FULL_MATRICES = [Triclinic; Monoclinic; Orthorhombic; Tetragonal; Hexagonal; Rhombohedral; Cubic]) by (vm_compute; reflexivity).
  rewrite E. repeat (constructor; [cbn; intuition discriminate|]). constructor.
Qed.
Definition orders_ok (b : list (Z * list (Z * list Z))) : bool := if list_eq_dec Z.eq_dec (map fst b) (nodup Z.eq_dec (map fst b)) then true else false.
Lemma orders_checked : forallb (fun p => orders_ok (snd p)) SG_NUM_TO_FULL_MATRICES = true.
Proof. vm_compute. reflexivity. Qed.
Lemma orders_nodup ls b : In (ls, b) SG_NUM_TO_FULL_MATRICES -> NoDup (map fst b).
Proof.
  intro H. pose proof (proj1 (forallb_forall _ _) orders_checked _ H) as Q. unfold orders_ok in Q. cbn [snd] in Q.
  destruct (list_eq_dec Z.eq_dec (map fst b) (nodup Z.eq_dec (map fst b))) as [E|]; [|discriminate]. rewrite E. apply NoDup_nodup.
Qed.
Lemma am_get_nodup {K V} (keq : K -> K -> bool) (Hk : forall a b, keq a b = true <-> a = b) k (v : V) m :
  NoDup (map fst m) -> In (k, v) m -> am_get keq k m = Some v.
Proof.
  induction m as [|[k' v'] t IH]; [intros _ []|]. cbn [map fst am_get]. intros HN [E|H].
  - injection E as -> ->. now rewrite (proj2 (Hk k k) eq_refl).
  - inversion HN as [|? ? N1 N2]; subst. destruct (keq k k') eqn:E; [|auto]. apply Hk in E. subst k'. elim N1. exact (in_map fst t _ H).
Qed.
