(** C78-C80: from the symmetry search to the identified space group *)
From Coq Require Import ZArith Reals String Ascii List Bool Lia Lra Permutation.
From Verif Require Import Num Mat Utils DataCore DataPG DataSG SymmOp PointGroup SpaceGroup Structure Reduce Analyzer RInst
  Spec Spec2 Spec3 RFacts PUtils PSymmOp PPointGroup PPointGroup2 PSpaceGroup2 PStructure PIdentify PSearch PSearch2 PSearch3 PSearch4
  PSearch5 PSearch6 PSearch7 PAnalyzer2 PEnd Prop4 Prop5.
Import ListNotations.
Open Scope R_scope.

(** C78. *)
Theorem C78_search_exact :
  forall (H : HashOrd) (s : @structure RNum) (dtol : R) fuel path b,
    let sites := combine (frac_coords s) (species s) in
    (48 <= fuel)%nat -> List.length (frac_coords s) = List.length (species s) ->
    (0 < Z.of_nat (List.length (species s)) <= 65535)%Z -> grouped (species s) ->
    (forall k, (k < 3)%nat -> 2 / 1000000000 * Vnorm (Ccol (lattice s) k) <= dtol /\ 2 * dtol <= Vnorm (Ccol (lattice s) k) /\
                              0 < Vnorm (Ccol (lattice s) k)) ->
    sites_apart (4 * dtol) (lattice s) sites ->
    exists n c P Pi pg ops,
      am_get bravais_eqb b BRAVAIS_TO_HOLOHEDRY_NUM = Some n /\ bravais_centering b = Ok c /\
      @prim_trans_of RNum c = Some P /\ inverse_of P Pi /\ pg_from_number fuel (0%nat :: path) n = Ok pg /\
      @get_primitive_space_group_ops RNum H fuel path dtol s b = Ok ops /\
      let rots r := exists h, In h (pg_operations pg) /\ Mmul (Mmul Pi (MofZ h)) P = MofZ r in
      let close (u v : vec R) := exists k : vec Z, Rabs (vx u - vx v - IZR (vx k)) <= 1 / 1000000000 /\
        Rabs (vy u - vy v - IZR (vy k)) <= 1 / 1000000000 /\ Rabs (vz u - vz v - IZR (vz k)) <= 1 / 1000000000 in
      rigid (2 * dtol) (lattice s) sites rots ->
      NoDup ops /\
      (forall op, In op ops -> rots (rotation op) /\ exists t, exact_operation sites (rotation op) t /\ close (translation op) t) /\
      (forall r t, rots r -> exact_operation sites r t ->
         exists op, In op ops /\ rotation op = r /\ close (translation op) t /\
           forall op', In op' ops -> rotation op' = r -> close (translation op') t -> op' = op).
Proof.
  intros H s dtol fuel path b sites HF WF BIG GR FI SEP.
  destruct (search_exact s dtol fuel path b HF WF BIG GR (fun k Hk => proj1 (FI k Hk)) SEP (fun k Hk => proj1 (proj2 (FI k Hk)))
    (fun k Hk => proj2 (proj2 (FI k Hk)))) as (n & c & P & Pi & pg & ops & E1 & E2 & E3 & E4 & E5 & E6 & Q).
  exists n, c, P, Pi, pg, ops. repeat (split; [assumption|]). cbv zeta in Q |- *. intro RI. destruct (Q RI) as (Q1 & Q2 & Q3 & Q4).
  split; [exact Q1|]. split; [exact Q2|]. intros r t Hr EX. destruct (Q3 r t Hr EX) as (op & Hop & <- & Nop). exists op. split; [exact Hop|].
  split; [reflexivity|]. split; [exact Nop|]. intros op' Hop' Er N'. apply (Q4 op' op t); auto. rewrite Er. exact EX.
Qed.
Print Assumptions C78_search_exact.

(** C79.  The operations of the standard cell are those of entry [N] of the table, which is outside the 21 groups of [not_closed]. *)
Theorem C79_tabulated_group_identified :
  forall (H : HashOrd) (s : @structure RNum) (dtol : R) fuel path b n c P Pi pg ls order N codes sym,
    let sites := combine (frac_coords s) (species s) in
    let rots r := exists h, In h (pg_operations pg) /\ Mmul (Mmul Pi (MofZ h)) P = MofZ r in
    let entry code := code_op (has_char "A"%char sym) code in
    (48 <= fuel)%nat -> List.length (frac_coords s) = List.length (species s) ->
    (0 < Z.of_nat (List.length (species s)) <= 65535)%Z -> grouped (species s) ->
    (forall k, (k < 3)%nat -> 1 / 100000000 * Vnorm (Ccol (lattice s) k) <= dtol /\ 24 * dtol <= Vnorm (Ccol (lattice s) k) /\
                              0 < Vnorm (Ccol (lattice s) k)) ->
    sites_apart (4 * dtol) (lattice s) sites ->
    am_get bravais_eqb b BRAVAIS_TO_HOLOHEDRY_NUM = Some n -> bravais_centering b = Ok c ->
    @prim_trans_of RNum c = Some P -> inverse_of P Pi -> pg_from_number fuel (0%nat :: path) n = Ok pg ->
    rigid (2 * dtol) (lattice s) sites rots ->
    tabulated ls order N codes -> am_get Z.eqb N SG_NUM_TO_SYMBOL = Some sym -> ~ In N not_closed ->
    (forall r t, (rots r /\ exact_operation sites r t) <->
                 exists code, In code codes /\ r = fst (entry code) /\ Vcongr t (in_twelfths (snd (entry code)))) ->
    exists ops,
      @get_primitive_space_group_ops RNum H fuel path dtol s b = Ok ops /\
      @from_generators RNum fuel ops (@frac_tols_of RNum (lattice s) dtol) = Ok ops /\
      List.length ops = List.length codes /\
      forall path', @identify_space_group RNum H path' ops ls (@frac_tols_of RNum (lattice s) dtol) = Ok (Some (N, sym)).
Proof.
  intros H s dtol fuel path b n c P Pi pg ls order N codes sym sites rots entry HF WF BIG GR FI SEP E1 E2 E3 E4 E5 RI HT ES NC IFF.
  pose proof (holo_rots_spec fuel (0%nat :: path) b n c P Pi pg HF E1 E2 E3 E4 E5) as HR. apply sg_entries_In in HT.
  destruct (standard_identified s dtol fuel path b HF WF BIG GR FI SEP) with (ls := ls) (order := order) (N := N) (codes := codes) (sym := sym)
    as (ops & Q1 & Q2 & Q3 & _ & Q5 & _); auto.
  - intros r t Hr. apply RI. apply HR. exact Hr.
  - intros o Ho. unfold group_ops in Ho. apply in_map_iff in Ho. destruct Ho as (code & <- & Hc).
    destruct (proj2 (IFF (fst (entry code)) (in_twelfths (snd (entry code))))) as [A B].
    { exists code. split; [exact Hc|]. split; [reflexivity|apply Vcongr_refl]. }
    split; [apply HR; exact A|exact B].
  - intros r t Hr EX. apply HR in Hr. destruct (proj1 (IFF r t) (conj Hr EX)) as (code & Hc & Er & Vt).
    exists (entry code). split; [now apply in_map|]. split; [exact Er|exact Vt].
  - exists ops. auto.
Qed.
Print Assumptions C79_tabulated_group_identified.

(** C80. *)
Theorem C80_one_atom :
  forall (H : HashOrd) (s : @structure RNum) (dtol : R) fuel path b e m,
    (48 <= fuel)%nat -> species s = [e] -> frac_coords s = [VofZ m] ->
    (forall k, (k < 3)%nat -> 1 / 100000000 * Vnorm (Ccol (lattice s) k) <= dtol /\ 24 * dtol <= Vnorm (Ccol (lattice s) k) /\
                              0 < Vnorm (Ccol (lattice s) k)) ->
    exists ls ops,
      bravais_lattice_system b = Ok ls /\
      @get_primitive_space_group_ops RNum H fuel path dtol s b = Ok ops /\
      @from_generators RNum fuel ops (@frac_tols_of RNum (lattice s) dtol) = Ok ops /\
      match lattice_group (bravais_to_string b) with
      | Some g => forall path', @identify_space_group RNum H path' ops ls (@frac_tols_of RNum (lattice s) dtol) = Ok (Some g)
      | None => forall path' g, @identify_space_group RNum H path' ops ls (@frac_tols_of RNum (lattice s) dtol) <> Ok (Some g)
      end.
Proof.
  intros H s dtol fuel path b e m HF ES EX FI. destruct (lattice_facts_hold b) as (ls & F). exists ls.
  destruct (lattice_group (bravais_to_string b)) as [[N sym]|] eqn:EG.
  - destruct (one_identified s dtol fuel path b e m HF ES EX FI ls N sym F EG) as (ops & Q1 & Q2 & _ & Q3). exists ops.
    split; [exact (lf_system _ _ F)|]. auto.
  - destruct (one_unidentified s dtol fuel path b e m HF ES EX FI ls F EG) as (ops & Q1 & Q2 & Q3). exists ops.
    split; [exact (lf_system _ _ F)|]. repeat (split; [assumption|]). intros path' [N sym]. apply Q3.
Qed.
Print Assumptions C80_one_atom.

(** A crystal of group 11: C at (1/8,1/4,1/8), O at the origin, and their images, in a 5 x 6 x 7 cell. *)
Definition screw : @structure RNum :=
  Structure (N := RNum) (M 5 0 0 0 6 0 0 0 7) ["C"; "C"; "O"; "O"]%string []
    [V (1 / 8) (1 / 4) (1 / 8); V (7 / 8) (3 / 4) (7 / 8); V 0 0 0; V 0 (1 / 2) 0].
Definition screw_sites : list (vec R * string) := combine (frac_coords screw) (species screw).
Lemma screw_box w : Vnorm (Mapp (lattice screw) w) <= 1 / 5 -> Rabs (vx w) < 1 / 20 /\ Rabs (vy w) < 1 / 20 /\ Rabs (vz w) < 1 / 20.
Proof.
  intro B. destruct w as [x y z]. cbn [vx vy vz].
  assert (G : forall k u, 5 <= k -> 1 / 20 <= Rabs u -> 1 / 4 <= Rabs (k * u)) by (intros k u K U; rewrite Rabs_mult, (Rabs_pos_eq k) by lra; nra).
  assert (E : Mapp (lattice screw) (V x y z) = V (5 * x) (6 * y) (7 * z)) by (apply vec_ext; cbn; ring). rewrite E in B.
  assert (K : forall P : Prop, ~ P -> ~ P) by auto.
  assert (NB : ~ 1 / 4 <= Vnorm (V (5 * x) (6 * y) (7 * z))) by lra.
  repeat split; apply Rnot_le_lt; intro Q; apply NB; apply int_norm_big; try lra; cbn [vx vy vz];
    [left|right; left|right; right]; apply G; auto; lra.
Qed.
Ltac box B := apply screw_box in B; destruct B as (?B & ?B & ?B);
  repeat match goal with X : Rabs _ < _ |- _ => apply Rabs_def2 in X; destruct X end.
Ltac int_gap z := let Q := fresh in assert (Q : (0 < z < 1)%Z \/ (-1 < z < 0)%Z); [|lia].
Lemma no_int (z : Z) (lo hi : Z) : (hi <= lo + 1)%Z -> IZR lo < IZR z < IZR hi -> False.
Proof. intros H [A B]. apply lt_IZR in A, B. lia. Qed.
Lemma screw_within r t : In r (map fst (group_ops "P12_1/m1" [633216; 646178; 16484; 3198]%Z)) -> operation_within (1 / 10) (lattice screw) screw_sites r t ->
  exists o n, In o (group_ops "P12_1/m1" [633216; 646178; 16484; 3198]%Z) /\ r = fst o /\ In (in_twelfths (snd o), "O"%string) screw_sites /\
    Vnorm (Mapp (lattice screw) (Vadd (Vsub t (in_twelfths (snd o))) (VofZ n))) <= 1 / 10.
Proof.
  replace (group_ops "P12_1/m1" [633216; 646178; 16484; 3198]%Z) with
    [(M (-1) 0 0 0 1 0 0 0 (-1), V 0 6 0); (M 1 0 0 0 (-1) 0 0 0 1, V 0 6 0); (ZMid, V 0 0 0); (M (-1) 0 0 0 (-1) 0 0 0 (-1), V 0 0 0)]%Z
    by (vm_compute; reflexivity).
  intros Hr W. destruct t as [tx ty tz].
  assert (I0 : in_twelfths (V 0 0 0)%Z = V 0 0 0) by (unfold in_twelfths; cbn; f_equal; lra).
  assert (I6 : in_twelfths (V 0 6 0)%Z = V 0 (1 / 2) 0) by (unfold in_twelfths; cbn; f_equal; lra).
  destruct (W (V 0 0 0) "O"%string) as (y & n & Hy & By); [cbn; tauto|].
  destruct (W (V (1 / 8) (1 / 4) (1 / 8)) "C"%string) as (y' & n' & Hy' & By'); [cbn; tauto|].
  cbn in Hy, Hy'. destruct Hy as [Q|[Q|[Q|[Q|[]]]]]; try discriminate Q; injection Q as <-.
  - (* the O atom stays *)
    assert (B1 := By). apply (Rle_trans _ _ (1 / 5)) in B1; [|lra]. apply (Rle_trans _ _ (1 / 5)) in By'; [|lra]. destruct n as [n1 n2 n3], n' as [k1 k2 k3].
    box B1. box By'.
    cbn [map fst In] in Hr. destruct Hr as [<-|[<-|[<-|[<-|[]]]]].
    + exfalso. unfold act, Mapp, MofZ, Vadd, Vsub, VofZ in *. cbn in *. destruct Hy' as [Q|[Q|[Q|[Q|[]]]]]; try discriminate Q; injection Q as <-; cbn in *.
      * apply (no_int (k1 - n1) 0 1); [lia|]. rewrite minus_IZR. lra.
      * apply (no_int (k2 - n2) 0 1); [lia|]. rewrite minus_IZR. lra.
    + exfalso. unfold act, Mapp, MofZ, Vadd, Vsub, VofZ in *. cbn in *. destruct Hy' as [Q|[Q|[Q|[Q|[]]]]]; try discriminate Q; injection Q as <-; cbn in *.
      * apply (no_int (k2 - n2) 0 1); [lia|]. rewrite minus_IZR. lra.
      * apply (no_int (k1 - n1) 0 1); [lia|]. rewrite minus_IZR. lra.
    + exists (ZMid, V 0 0 0)%Z, (V n1 n2 n3). split; [cbn; tauto|]. split; [reflexivity|]. cbn [snd]. rewrite I0. split; [cbn; tauto|].
      match type of By with Vnorm ?v <= _ => match goal with |- Vnorm ?w <= _ => replace w with v; [exact By|] end end.
      unfold act, Mapp, MofZ, Vadd, Vsub, VofZ. cbn. f_equal; ring.
    + exists (M (-1) 0 0 0 (-1) 0 0 0 (-1), V 0 0 0)%Z, (V n1 n2 n3). split; [cbn; tauto|]. split; [reflexivity|]. cbn [snd]. rewrite I0. split; [cbn; tauto|].
      match type of By with Vnorm ?v <= _ => match goal with |- Vnorm ?w <= _ => replace w with v; [exact By|] end end.
      unfold act, Mapp, MofZ, Vadd, Vsub, VofZ. cbn. f_equal; ring.
  - assert (B1 := By). apply (Rle_trans _ _ (1 / 5)) in B1; [|lra]. apply (Rle_trans _ _ (1 / 5)) in By'; [|lra]. destruct n as [n1 n2 n3], n' as [k1 k2 k3].
    box B1. box By'.
    cbn [map fst In] in Hr. destruct Hr as [<-|[<-|[<-|[<-|[]]]]].
    + exists (M (-1) 0 0 0 1 0 0 0 (-1), V 0 6 0)%Z, (V n1 n2 n3). split; [cbn; tauto|]. split; [reflexivity|]. cbn [snd]. rewrite I6. split; [cbn; tauto|].
      match type of By with Vnorm ?v <= _ => match goal with |- Vnorm ?w <= _ => replace w with v; [exact By|] end end.
      unfold act, Mapp, MofZ, Vadd, Vsub, VofZ. cbn. f_equal; ring.
    + exists (M 1 0 0 0 (-1) 0 0 0 1, V 0 6 0)%Z, (V n1 n2 n3). split; [cbn; tauto|]. split; [reflexivity|]. cbn [snd]. rewrite I6. split; [cbn; tauto|].
      match type of By with Vnorm ?v <= _ => match goal with |- Vnorm ?w <= _ => replace w with v; [exact By|] end end.
      unfold act, Mapp, MofZ, Vadd, Vsub, VofZ. cbn. f_equal; ring.
    + exfalso. unfold act, Mapp, MofZ, Vadd, Vsub, VofZ in *. cbn in *. destruct Hy' as [Q|[Q|[Q|[Q|[]]]]]; try discriminate Q; injection Q as <-; cbn in *.
      * apply (no_int (k2 - n2) (-1) 0); [lia|]. rewrite minus_IZR. lra.
      * apply (no_int (k1 - n1) 0 1); [lia|]. rewrite minus_IZR. lra.
    + exfalso. unfold act, Mapp, MofZ, Vadd, Vsub, VofZ in *. cbn in *. destruct Hy' as [Q|[Q|[Q|[Q|[]]]]]; try discriminate Q; injection Q as <-; cbn in *.
      * apply (no_int (k1 - n1) 0 1); [lia|]. rewrite minus_IZR. lra.
      * apply (no_int (k2 - n2) 0 1); [lia|]. rewrite minus_IZR. lra.
Qed.
Lemma Vcongr_coord (u v : vec R) : (exists n, vx u = vx v + IZR n) -> (exists n, vy u = vy v + IZR n) -> (exists n, vz u = vz v + IZR n) -> Vcongr u v.
Proof. destruct u as [u1 u2 u3], v as [v1 v2 v3]. cbn [vx vy vz]. intros (a & ->) (b & ->) (c & ->). exists (V a b c). reflexivity. Qed.
Ltac coord := cbn; first [exists 0%Z; lra | exists 1%Z; lra | exists (-1)%Z; lra | exists (-2)%Z; lra].
Ltac to y := exists y; split; [cbn; tauto|solve [apply Vcongr_coord; coord]].
Lemma screw_has o : In o (group_ops "P12_1/m1" [633216; 646178; 16484; 3198]%Z) -> exact_operation screw_sites (fst o) (in_twelfths (snd o)).
Proof.
  replace (group_ops "P12_1/m1" [633216; 646178; 16484; 3198]%Z) with
    [(M (-1) 0 0 0 1 0 0 0 (-1), V 0 6 0); (M 1 0 0 0 (-1) 0 0 0 1, V 0 6 0); (ZMid, V 0 0 0); (M (-1) 0 0 0 (-1) 0 0 0 (-1), V 0 0 0)]%Z
    by (vm_compute; reflexivity).
  intro Ho. cbn [In] in Ho.
  intros x e Hx. change screw_sites with [(V (1 / 8) (1 / 4) (1 / 8), "C"%string); (V (7 / 8) (3 / 4) (7 / 8), "C"%string); (V 0 0 0, "O"%string); (V 0 (1 / 2) 0, "O"%string)] in *.
  destruct Hx as [Q|[Q|[Q|[Q|[]]]]]; injection Q as <- <-; destruct Ho as [<-|[<-|[<-|[<-|[]]]]]; unfold act, in_twelfths; cbn [fst snd];
    first [to (V (1 / 8) (1 / 4) (1 / 8)) | to (V (7 / 8) (3 / 4) (7 / 8)) | to (V 0 0 0) | to (V 0 (1 / 2) 0)].
Qed.
Lemma exact_moved sites r t t' : exact_operation sites r t -> Vcongr t' t -> exact_operation sites r t'.
Proof.
  intros E (k & ->) x e Hx. destruct (E x e Hx) as (y & Hy & n & A). exists y. split; [exact Hy|]. exists (ZVadd n k).
  unfold act in *. rewrite VofZ_add, <- !Vadd_assoc, A. now rewrite Vadd_assoc.
Qed.
Lemma exact_is_within tol L sites r t : 0 <= tol -> exact_operation sites r t -> operation_within tol L sites r t.
Proof.
  intros T E x e Hx. destruct (E x e Hx) as (y & Hy & n & A). exists y, (zneg n). split; [exact Hy|]. rewrite A.
  replace (Vadd (Vsub (Vadd y (VofZ n)) y) (VofZ (zneg n))) with V0.
  - rewrite Mapp_V0. unfold Vnorm, Vdot, V0. cbn. rewrite !Rmult_0_l, !Rplus_0_l, sqrt_0. exact T.
  - destruct y as [y1 y2 y3], n as [n1 n2 n3]. unfold Vadd, Vsub, VofZ, zneg, V0. cbn. rewrite !opp_IZR. f_equal; ring.
Qed.
Lemma screw_rots (r : mat Z) : In r (holo_rots mP) <-> In r (map fst (group_ops "P12_1/m1" [633216; 646178; 16484; 3198]%Z)).
Proof.
  replace (map fst (group_ops "P12_1/m1" [633216; 646178; 16484; 3198]%Z)) with
    [M (-1) 0 0 0 1 0 0 0 (-1); M 1 0 0 0 (-1) 0 0 0 1; ZMid; M (-1) 0 0 0 (-1) 0 0 0 (-1)]%Z by (vm_compute; reflexivity).
  replace (holo_rots mP) with [ZMid; M (-1) 0 0 0 1 0 0 0 (-1); M (-1) 0 0 0 (-1) 0 0 0 (-1); M 1 0 0 0 (-1) 0 0 0 1]%Z by (vm_compute; reflexivity).
  cbn [In]. tauto.
Qed.
Lemma screw_tabulated : tabulated Monoclinic 4 11 [633216; 646178; 16484; 3198]%Z.
Proof.
  apply sg_entries_In. assert (X : existsb (fun e => let '(ls, o, n, c) := e in lattice_system_eqb ls Monoclinic && (o =? 4)%Z && (n =? 11)%Z &&
    if list_eq_dec Z.eq_dec c [633216; 646178; 16484; 3198]%Z then true else false) sg_entries = true) by (vm_compute; reflexivity).
  apply existsb_exists in X. destruct X as ([[[ls o] n] c] & HI & X). rewrite !andb_true_iff, !Z.eqb_eq, lattice_system_eqb_spec in X.
  destruct X as (((-> & ->) & ->) & X). destruct (list_eq_dec Z.eq_dec c [633216; 646178; 16484; 3198]%Z) as [->|]; [exact HI|discriminate].
Qed.
Example C78_C79_example : forall (H : HashOrd) path,
  exists ops,
    @get_primitive_space_group_ops RNum H 48 path (1 / 20) screw mP = Ok ops /\
    @from_generators RNum 48 ops (@frac_tols_of RNum (lattice screw) (1 / 20)) = Ok ops /\ List.length ops = 4%nat /\
    forall path', @identify_space_group RNum H path' ops Monoclinic (@frac_tols_of RNum (lattice screw) (1 / 20)) = Ok (Some (11%Z, "P12_1/m1"%string)).
Proof.
  intros H path.
  assert (FI : forall k, (k < 3)%nat -> 5 <= Vnorm (Ccol (lattice screw) k) <= 7).
  { assert (G : forall v a, 0 <= a -> Vdot v v = a * a -> Vnorm v = a) by (intros v a A E; unfold Vnorm; rewrite E; now apply R_sqrt.sqrt_square).
    intros k Hk. destruct k as [|[|[|k]]]; [rewrite (G _ 5)|rewrite (G _ 6)|rewrite (G _ 7)|lia]; try lra; unfold Vdot; cbn; ring. }
  assert (SP : sites_apart (4 * (1 / 20)) (lattice screw) (combine (frac_coords screw) (species screw))).
  { intros i j x y e n N Hi Hj. apply Rnot_le_lt. intro B. replace (4 * (1 / 20)) with (1 / 5) in B by lra. box B. destruct n as [n1 n2 n3].
    unfold Vadd, Vsub, VofZ in *. cbn in *.
    destruct i as [|[|[|[|i]]]]; cbn in Hi; try (destruct i; discriminate); injection Hi as <- <-;
      destruct j as [|[|[|[|j]]]]; cbn in Hj; try (destruct j; discriminate); try lia; try discriminate Hj; injection Hj as <-; cbn in *.
    - apply (no_int n1 0 1); [lia|]. lra.
    - apply (no_int n1 (-1) 0); [lia|]. lra.
    - apply (no_int n2 0 1); [lia|]. lra.
    - apply (no_int n2 (-1) 0); [lia|]. lra. }
  destruct (pg_from_number_spec 48 (0%nat :: path) 11 (le_n _) ltac:(lia)) as (sy & g & o & od & Q1 & _).
  assert (EN : am_get bravais_eqb mP BRAVAIS_TO_HOLOHEDRY_NUM = Some 11%Z) by (vm_compute; reflexivity).
  assert (EC : bravais_centering mP = Ok CP) by reflexivity.
  assert (EP : @prim_trans_of RNum CP = Some Mid) by (cbn; f_equal; apply mat_ext; cbn; field).
  pose proof (holo_rots_spec 48 (0%nat :: path) mP 11 CP Mid Mid _ (le_n _) EN EC EP (conj (Mmul_id_l Mid) (Mmul_id_l Mid)) Q1) as HR.
  destruct (C79_tabulated_group_identified H screw (1 / 20) 48 path mP 11 CP Mid Mid (PointGroup sy o g) Monoclinic 4 11 [633216; 646178; 16484; 3198]%Z "P12_1/m1")
    as (ops & A1 & A2 & A3 & A4); try eassumption; try reflexivity.
  - cbn; lia.
  - intros i j k e Hij. cbn [screw species]. destruct i as [|[|[|[|i]]]]; [| | | |destruct i; discriminate];
      destruct k as [|[|[|[|k]]]]; try (intros _; cbn; destruct k; discriminate); destruct j as [|[|[|[|j]]]]; try lia; cbn; congruence.
  - intros k Hk. specialize (FI k Hk). lra.
  - split; apply Mmul_id_l.
  - intros r t Hr W. pose proof (proj1 (screw_rots r) (proj1 (HR r) Hr)) as Hr'. replace (2 * (1 / 20)) with (1 / 10) in * by lra.
    destruct (screw_within r t Hr' W) as (z & n & Hz & -> & _ & B). exists (in_twelfths (snd z)), n. split; [now apply screw_has|exact B].
  - exact screw_tabulated.
  - vm_compute. intuition discriminate.
  - intros r t. pose proof (iff_trans (HR r) (screw_rots r)) as HRr. split.
    + intros [Hr EX]. apply (proj1 HRr) in Hr. destruct (screw_within r t Hr (exact_is_within (1 / 10) _ _ r t ltac:(lra) EX)) as (z & n & Hz & -> & Hy' & B).
      assert (Q : exists code, In code [633216; 646178; 16484; 3198]%Z /\ z = code_op (has_char "A"%char "P12_1/m1") code).
      { unfold group_ops in Hz. apply in_map_iff in Hz. destruct Hz as (code & <- & Hc). eauto. }
      destruct Q as (code & Hc & ->). exists code. split; [exact Hc|]. split; [reflexivity|].
      revert Hy' B. generalize (in_twelfths (snd (code_op (has_char "A" "P12_1/m1") code))). intros u Hy' B.
      destruct (EX (V 0 0 0) "O"%string) as (y & Hy & k & E); [cbn; tauto|].
      assert (Et : t = Vadd y (VofZ k)). { rewrite <- E. destruct t as [t1 t2 t3]. unfold act, Mapp, MofZ, Vadd. destruct (fst (code_op (has_char "A" "P12_1/m1") code)). cbn. f_equal; ring. }
      exists k. replace u with y; [exact Et|]. rewrite Et in B. apply (Rle_trans _ _ (1 / 5)) in B; [|lra]. box B. destruct k as [k1 k2 k3], n as [n1 n2 n3].
      cbn in Hy, Hy'. destruct Hy as [Q|[Q|[Q|[Q|[]]]]]; try discriminate Q; injection Q as <-; destruct Hy' as [Q|[Q|[Q|[Q|[]]]]]; try discriminate Q; injection Q as <-; auto;
        unfold Vadd, Vsub, VofZ in *; cbn in *; exfalso.
      * apply (no_int (k2 + n2) 0 1); [lia|]. rewrite plus_IZR. lra.
      * apply (no_int (k2 + n2) (-1) 0); [lia|]. rewrite plus_IZR. lra.
    + intros (code & Hc & -> & Vt). split; [apply (proj2 HRr); unfold group_ops; rewrite map_map; now apply (in_map (fun x => fst (code_op (has_char "A" "P12_1/m1") x)))|].
      eapply exact_moved; [apply screw_has|exact Vt]. unfold group_ops. now apply in_map.
  - exists ops. auto.
Qed.
(** one atom in a rhombohedral, and in a face-centred, primitive cell *)
Example C80_example : forall (H : HashOrd) path,
  let s := Structure (N := RNum) (M 0 3 3 3 0 3 3 3 0) ["Cu"%string] [] [V 0 0 0] in
  exists ops ops',
    @get_primitive_space_group_ops RNum H 48 path (1 / 10) s cF = Ok ops /\
    (forall path', @identify_space_group RNum H path' ops Cubic (@frac_tols_of RNum (lattice s) (1 / 10)) = Ok (Some (225%Z, "Fm-3m"%string))) /\
    @get_primitive_space_group_ops RNum H 48 path (1 / 10) s hR = Ok ops' /\
    (forall path' g, @identify_space_group RNum H path' ops' Hexagonal (@frac_tols_of RNum (lattice s) (1 / 10)) <> Ok (Some g)).
Proof.
  intros H path s.
  assert (FI : forall k, (k < 3)%nat -> 3 <= Vnorm (Ccol (lattice s) k) <= 6).
  { intros k Hk. pose proof (Vnorm_nonneg (Ccol (lattice s) k)) as N. pose proof (Vnorm_sq (Ccol (lattice s) k)) as Q.
    replace (Vdot (Ccol (lattice s) k) (Ccol (lattice s) k)) with 18 in Q by (destruct k as [|[|[|k]]]; [..|lia]; unfold Vdot; cbn; ring). nra. }
  assert (FN : forall k, (k < 3)%nat -> 1 / 100000000 * Vnorm (Ccol (lattice s) k) <= 1 / 10 /\ 24 * (1 / 10) <= Vnorm (Ccol (lattice s) k) /\
                                        0 < Vnorm (Ccol (lattice s) k)) by (intros k Hk; specialize (FI k Hk); lra).
  destruct (C80_one_atom H s (1 / 10) 48 path cF "Cu" (V 0 0 0)%Z (le_n _) eq_refl eq_refl FN) as (ls & ops & L1 & A1 & _ & A3).
  destruct (C80_one_atom H s (1 / 10) 48 path hR "Cu" (V 0 0 0)%Z (le_n _) eq_refl eq_refl FN) as (ls' & ops' & L2 & B1 & _ & B3).
  change (Ok Cubic = Ok ls) in L1. injection L1 as <-. change (bravais_lattice_system hR) with (Ok Hexagonal) in L2. injection L2 as <-.
  exists ops, ops'. split; [exact A1|]. split; [exact A3|]. split; [exact B1|exact B3].
Qed.
