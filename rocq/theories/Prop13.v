(** C60-C61, C81-C84: the whole run of get_space_group_info, mostly for crystals with one atom *)
From Coq Require Import ZArith Reals String Ascii List Bool Lia Lra Permutation.
From Verif Require Import Num Mat Utils DataCore DataSG SymmOp PointGroup SpaceGroup Structure Reduce Analyzer RInst Spec Spec2 Spec3 RFacts
  PUtils PSymmOp PSpaceGroup PStructure PStructure2 PNiggli PLattice PPrim PPrim2 PDelaunay PAnalyzer PAnalyzer2 PPointGroup2 PSearch7
  PEnd PEnd2 PEnd3 PEnd4 PEnd5 PEnd6 Prop5.
Import ListNotations.
Open Scope R_scope.

(** C81. *)
Theorem C81_primitive_axes_shortest :
  forall (P : @Pinv RNum) (HO : HashOrd) (path : list nat) (dtol : R) (s : @structure RNum),
    pinv_inverts P -> well_conditioned (lattice s) -> List.length (species s) = List.length (frac_coords s) ->
    species s <> [] -> (Z.of_nat (List.length (species s)) <= 65535)%Z -> 0 <= dtol ->
    (forall k, (k < 3)%nat -> dtol <= Vnorm (Ccol (lattice s) k) /\ dtol * Vnorm (Ccol (lattice s) k) < Rabs (Mdet (lattice s))) ->
    dtol < Rabs (Mdet (lattice s)) ->
    (forall i j x y e, i <> j -> nth_error (frac_coords s) i = Some x -> nth_error (frac_coords s) j = Some y ->
      nth_error (species s) i = Some e -> nth_error (species s) j = Some e ->
      ~ translation_within (2 * dtol) (lattice s) (combine (frac_coords s) (species s)) (Vsub x y)) ->
    exists s', @find_primitive_cell RNum P HO path dtol s = Ok s' /\
      let a := Ccol (lattice s') 0 in let b := Ccol (lattice s') 1 in let c := Ccol (lattice s') 2 in
      forall z : vec Z, z <> V 0%Z 0%Z 0%Z -> (-1 <= vx z <= 1)%Z -> (-1 <= vy z <= 1)%Z -> (-1 <= vz z <= 1)%Z ->
        let t := Mapp (lattice s) (VofZ z) in
        Vnorm a <= Vnorm t /\ (Vcross a t <> V0 -> Vnorm b <= Vnorm t) /\ (Vdot (Vcross a b) t <> 0 -> Vnorm c <= Vnorm t).
Proof.
  intros P HO path dtol s HP HW WF HN HM H0 HC HD NI.
  assert (HC' : forall k, (k < 3)%nat -> 0 < Vnorm (Ccol (lattice s) k) /\ dtol <= Vnorm (Ccol (lattice s) k) /\ dtol * Vnorm (Ccol (lattice s) k) < Rabs (Mdet (lattice s))).
  { intros k Hk. split; [|now apply HC]. apply well_conditioned_col; assumption. }
  destruct (prim_keeps_shortest P HO path dtol s WF H0 HN HM HC' HD (HP _ HW) NI) as (y1 & y2 & y3 & E & _ & _ & _ & _ & _ & (S1 & S2 & S3)).
  eexists. split; [exact E|]. rewrite (proj1 (normalize_coords_spec _ dtol)). cbn [lattice].
  destruct (col_from_columns (lattice s) y1 y2 y3) as (-> & -> & ->). cbv zeta. intros z Nz X Y Z. pose proof (dirs26_In z Nz X Y Z) as Hz.
  change (Mapp (lattice s) (VofZ z)) with (col (lattice s) z). split; [apply nrm_le; auto|]. split.
  - intro C. apply nrm_le. apply S2; [exact Hz|]. intro Q. apply C. now apply cross_Z0.
  - intro C. apply nrm_le. apply S3; [exact Hz|]. intro Q. apply C. unfold col. rewrite triple_Z, Q. ring.
Qed.
Print Assumptions C81_primitive_axes_shortest.

(** C82. *)
Theorem C82_one_atom_answer :
  forall (P : @Pinv RNum) (HO : HashOrd) (dtol : R) fuel path (s : @structure RNum) e m n sym ops,
    pinv_inverts P -> (48 <= fuel)%nat -> species s = [e] -> frac_coords s = [VofZ m] -> 0 < dtol ->
    well_conditioned (lattice s) ->
    (forall k, (k < 3)%nat -> dtol * Vnorm (Ccol (lattice s) k) < Rabs (Mdet (lattice s))) -> dtol < Rabs (Mdet (lattice s)) ->
    (forall z : vec Z, z <> V 0%Z 0%Z 0%Z -> 24 * dtol <= Vnorm (Mapp (lattice s) (VofZ z))) ->
    1 / 100000 * Rpower (Rabs (Mdet (lattice s))) (1 / 3) < 1 ->
    (forall p, @find_primitive_cell RNum P HO (0%nat :: path) dtol s = Ok p -> well_conditioned (lattice p) /\
       forall q, @niggli_reduce RNum P dtol p (1 / 100000) = Ok q -> well_conditioned (lattice q)) ->
    (forall std, @get_standard_primitive_structure RNum P HO fuel (0%nat :: path) dtol s = Ok std ->
       forall k, (k < 3)%nat -> Vnorm (Ccol (lattice std) k) <= 100000000 * dtol) ->
    @get_space_group_info RNum P HO fuel path dtol s = Ok (n, sym, ops) ->
    exists p q ch b, @find_primitive_cell RNum P HO (0%nat :: path) dtol s = Ok p /\ @niggli_reduce RNum P dtol p (1 / 100000) = Ok q /\
      @get_lattice_character RNum q (1 / 100000) = Ok ch /\ am_get Z.eqb ch LATTICE_CHAR_TO_BRAVAIS = Some b /\
      lattice_group (bravais_to_string b) = Some (n, sym).
Proof.
  intros P HO dtol fuel path s e m n sym ops HP HF ES EX H0 Ws HC HD RM HE HW HS EI.
  destruct (info_calls _ _ _ _ _ _ _ _ _ EI) as (p & q & std & ch & E1 & E2 & E4 & E3). destruct (HW p E1) as (Wp & Wq). specialize (Wq q E2).
  destruct (one_run P HO dtol fuel path s p q e m ch HP HF ES EX H0 Ws Wp Wq HC HD RM HE E1 E2 E3) as (b & std' & T & Ti & K1 & K2 & _ & _ & _ & _ & _ & K8).
  specialize (K8 (HS _ K2)). exists p, q, ch, b. repeat (split; [assumption|]).
  destruct (lattice_group (bravais_to_string b)) as [[N sy]|]; [|now apply K8 in EI]. destruct (proj1 K8 _ _ _ EI) as [-> ->]. reflexivity.
Qed.
Print Assumptions C82_one_atom_answer.

(** C83. *)
Theorem C83_orthogonal_box :
  forall (P : @Pinv RNum) (HO : HashOrd) (dtol a b c : R) fuel path (s : @structure RNum) e m,
    pinv_inverts P -> (48 <= fuel)%nat -> species s = [e] -> frac_coords s = [VofZ m] -> lattice s = M a 0 0 0 b 0 0 0 c ->
    1 <= a <= 1000 -> 1 <= b <= 1000 -> 1 <= c <= 1000 -> 1 / 100000 <= dtol <= 1 / 24 ->
    exists x y z n sym ops,
      Permutation [x; y; z] [a; b; c] /\ x <= y <= z /\
      @get_space_group_info RNum P HO fuel path dtol s = Ok (n, sym, ops) /\
      (let eps := 1 / 100000 * Rpower (a * b * c) (1 / 3) in
       (n = 221%Z /\ sym = "Pm-3m"%string /\ List.length ops = 48%nat /\ z * z - x * x <= eps) \/
       (n = 123%Z /\ sym = "P4/mmm"%string /\ List.length ops = 16%nat /\ eps < z * z - x * x /\ (y * y - x * x <= eps \/ z * z - y * y <= eps)) \/
       (n = 47%Z /\ sym = "Pmmm"%string /\ List.length ops = 8%nat /\ eps < y * y - x * x /\ eps < z * z - y * y)) /\
      NoDup (map (@rotation RNum) ops) /\
      (forall op, In op ops -> ZMmul (transpose (rotation op)) (rotation op) = ZMid).
Proof.
  intros P HO dtol a b c fuel path s e m HP HF ES EX EL Ba Bb Bc Hd. assert (EX' : frac_coords s = [Vadd V0 (VofZ m)]) by (now rewrite Vadd_0).
  destruct (box_run P HO dtol a b c fuel path s e V0 m HP HF ES EX' EL Ba Bb Bc Hd eq_refl) as (A & B & C & ops & PM & OR & Q).
  destruct (sorted_squares a b c A B C) as (x & y & z & PX & OX & -> & -> & ->); try lra; auto.
  assert (Hx : 0 < x). { assert (I : In x [a; b; c]) by (apply (Permutation_in _ PX); now left). destruct I as [<-|[<-|[<-|[]]]]; lra. }
  pose proof (box_cases (1 / 100000 * Rpower (a * b * c) (1 / 3)) x y z OX Hx) as CS.
  destruct (box_answer _ _ _ _) as [[N sym] cnt]. destruct Q as (Q1 & <- & Q3 & Q4). exists x, y, z, N, sym, ops. repeat (split; [assumption|]).
  intros op Hop. exact (proj1 (signed_facts _ (Q4 op Hop))).
Qed.
Print Assumptions C83_orthogonal_box.

(** C84. *)
Theorem C84_off_origin_unidentified :
  forall (P : @Pinv RNum) (HO : HashOrd) (dtol : R) fuel path (s : @structure RNum) e w,
    pinv_inverts P -> (48 <= fuel)%nat -> species s = [e] -> frac_coords s = [w] -> 0 < dtol ->
    well_conditioned (lattice s) ->
    (forall k, (k < 3)%nat -> dtol * Vnorm (Ccol (lattice s) k) < Rabs (Mdet (lattice s))) -> dtol < Rabs (Mdet (lattice s)) ->
    (forall z : vec Z, z <> V 0%Z 0%Z 0%Z -> 24 * dtol <= Vnorm (Mapp (lattice s) (VofZ z))) ->
    1 / 100000 * Rpower (Rabs (Mdet (lattice s))) (1 / 3) < 1 ->
    (forall p, @find_primitive_cell RNum P HO (0%nat :: path) dtol s = Ok p -> well_conditioned (lattice p) /\
       forall q, @niggli_reduce RNum P dtol p (1 / 100000) = Ok q -> well_conditioned (lattice q)) ->
    (forall std, @get_standard_primitive_structure RNum P HO fuel (0%nat :: path) dtol s = Ok std ->
       forall k, (k < 3)%nat -> Vnorm (Ccol (lattice std) k) <= 100000000 * dtol) ->
    (forall z : vec Z, 54 * dtol < Vnorm (Mapp (lattice s) (Vsub (Vscal 24 w) (VofZ z)))) ->
    forall r, @get_space_group_info RNum P HO fuel path dtol s <> Ok r.
Proof.
  intros P HO dtol fuel path s e w HP HF ES EX H0 Ws HC HD RM HE HW HS FAR [[n sym] ops] EI.
  destruct (info_calls _ _ _ _ _ _ _ _ _ EI) as (p & q & std & ch & E1 & E2 & E4 & E3). destruct (HW p E1) as (Wp & Wq). specialize (Wq q E2).
  assert (EX' : frac_coords s = [Vadd w (VofZ (V 0%Z 0%Z 0%Z))]) by (rewrite EX; f_equal; apply (@vec_ext R); unfold Vadd, VofZ; cbn; ring).
  exact (shifted_run P HO dtol fuel path s p q e w _ ch HP HF ES EX' H0 Ws Wp Wq HC HD RM HE E1 E2 E3 std E4 (HS std E4) FAR _ EI).
Qed.
Print Assumptions C84_off_origin_unidentified.

(** C60: one atom at the origin of a 2 x 3 x 4 box, and the same crystal with the origin moved by (1/16, 1/16, 1/16). *)
Definition po (w : vec R) : @structure RNum := Structure (N := RNum) (M 2 0 0 0 3 0 0 0 4) ["Po"%string] [] [w].
Lemma sixteenth_far z : 54 * (1 / 1000) < Vnorm (Mapp (lattice (po V0)) (Vsub (Vscal 24 (V (1 / 16) (1 / 16) (1 / 16))) (VofZ z))).
Proof.
  destruct z as [z1 z2 z3].
  replace (Mapp (lattice (po V0)) (Vsub (Vscal 24 (V (1 / 16) (1 / 16) (1 / 16))) (VofZ (V z1 z2 z3)))) with (V (3 - 2 * IZR z1) (9 / 2 - 3 * IZR z2) (6 - 4 * IZR z3))
    by (apply (@vec_ext R); unfold Mapp, po, Vsub, Vscal, VofZ; cbn; field).
  apply Rlt_le_trans with (1 / 4); [lra|]. apply int_norm_big; [lra|]. cbn [vx vy vz]. left.
  destruct (Z_le_gt_dec z1 1) as [G|G].
  - apply IZR_le in G. rewrite Rabs_pos_eq; lra.
  - assert (G' : (2 <= z1)%Z) by lia. apply IZR_le in G'. rewrite Rabs_left; lra.
Qed.
Theorem C60_origin_refuted :
  exists (P : @Pinv RNum) (dtol : R) (s s' : @structure RNum) (w : vec R),
    pinv_inverts P /\ lattice s' = lattice s /\ species s' = species s /\ frac_coords s' = map (Vadd w) (frac_coords s) /\
    forall (HO : HashOrd) fuel path, (48 <= fuel)%nat ->
      (exists ops, @get_space_group_info RNum P HO fuel path dtol s = Ok (47%Z, "Pmmm"%string, ops)) /\
      (forall r, @get_space_group_info RNum P HO fuel path dtol s' <> Ok r).
Proof.
  exists cofactor_pinv, (1 / 1000), (po V0), (po (V (1 / 16) (1 / 16) (1 / 16))), (V (1 / 16) (1 / 16) (1 / 16)).
  split; [exact cofactor_pinv_ok|]. split; [reflexivity|]. split; [reflexivity|]. split.
  { cbn [po frac_coords map]. f_equal. apply (@vec_ext R); unfold Vadd, V0; cbn; ring. }
  intros HO fuel path HF. split.
  - destruct (C83_orthogonal_box cofactor_pinv HO (1 / 1000) 2 3 4 fuel path (po V0) "Po" (V 0 0 0)%Z cofactor_pinv_ok HF eq_refl eq_refl eq_refl)
      as (x & y & z & n & sym & ops & PM & OR & E & C & _); try lra.
    assert (BE : 1 / 100000 * Rpower (2 * 3 * 4) (1 / 3) < 1) by (apply (box_eps 2 3 4); lra).
    assert (X : x = 2 /\ y = 3 /\ z = 4).
    { destruct (perm3 _ _ _ _ _ _ PM) as [(-> & -> & ->)|[(-> & -> & ->)|[(-> & -> & ->)|[(-> & -> & ->)|[(-> & -> & ->)|(-> & -> & ->)]]]]]; repeat split; lra. }
    destruct X as (-> & -> & ->). cbv zeta in C. destruct C as [(_ & _ & _ & C)|[(_ & _ & _ & _ & [C|C])|(-> & -> & _)]]; [lra..|]. eauto.
  - apply (box_shifted cofactor_pinv HO (1 / 1000) 2 3 4 fuel path (po (V (1 / 16) (1 / 16) (1 / 16))) "Po" (V (1 / 16) (1 / 16) (1 / 16)) (V 0 0 0)%Z); try lra; auto.
    + exact cofactor_pinv_ok.
    + cbn [po frac_coords]. f_equal. apply (@vec_ext R); unfold Vadd, VofZ; cbn; ring.
    + exact sixteenth_far.
Qed.
Print Assumptions C60_origin_refuted.
(** What holds: moving atoms by whole periods changes nothing.  Missing: every other shift. *)
Theorem C60_origin_partial :
  forall (P : @Pinv RNum) (HO : HashOrd) (dtol : R) fuel path (s s' : @structure RNum),
    lattice s' = lattice s -> species s' = species s -> Forall2 Vcongr (frac_coords s) (frac_coords s') ->
    (forall k, (k < 3)%nat -> 0 <= dtol < Vnorm (Ccol (lattice s) k)) ->
    (forall x k z, In x (frac_coords s) -> (k < 3)%nat -> vnth x k <> IZR z - dtol / Vnorm (Ccol (lattice s) k)) ->
    @get_space_group_info RNum P HO fuel path dtol s' = @get_space_group_info RNum P HO fuel path dtol s.
Proof.
  intros P HO dtol fuel path [L sp c fc] [L' sp' c' fc'] EL ES F HT HN. cbn [lattice species frac_coords] in *. subst L' sp'. symmetry. apply info_normalized; [reflexivity|].
  apply normalize_period; auto. intros x k Hx Hk (z & E). apply (HN x k z Hx Hk). cbn [num RNum] in *. rewrite <- E. ring.
Qed.
Print Assumptions C60_origin_partial.

(** C61. *)
Theorem C61_reported_basis :
  forall (P : @Pinv RNum) (HO : HashOrd) (dtol : R) fuel path (s : @structure RNum) n sym ops,
    pinv_inverts P -> @get_space_group_info RNum P HO fuel path dtol s = Ok (n, sym, ops) ->
    exists p q std sg (T : mat R),
      @find_primitive_cell RNum P HO (0%nat :: path) dtol s = Ok p /\ @niggli_reduce RNum P dtol p (1 / 100000) = Ok q /\
      @get_standard_primitive_structure RNum P HO fuel (0%nat :: path) dtol s = Ok std /\
      @sg_apply_transformation RNum fuel sg T (@frac_tols_of RNum (lattice std) dtol) = Ok ops /\
      (well_conditioned (lattice p) -> well_conditioned (lattice q) ->
       Mmul (lattice std) T = lattice s /\ (forall i, inverse_of (lattice std) i -> T = Mmul i (lattice s))).
Proof.
  intros P HO dtol fuel path s n sym ops HP E. apply info_stages in E.
  destruct E as (p & q & std & Tm & Pm & ch & b & gens & sg & ls & m1 & m2 & i1 & i2 & S & E & _ & _ & _ & _ & G1 & G2 & I1 & I2 & EA).
  exists p, q, std, sg, (Mmul (Mmul (Mmul i1 i2) m2) m1). split; [exact (st_prim _ _ _ _ _ _ _ _ _ _ _ S)|]. split; [exact (st_niggli _ _ _ _ _ _ _ _ _ _ _ S)|].
  split; [exact E|]. split; [exact EA|]. intros W1 W2. pose proof (total_transformation P HO fuel path dtol s p q std Tm Pm ch b m1 m2 i1 i2 S HP W1 W2 G1 G2 I1 I2) as Q.
  split; [exact Q|]. intros i HI. rewrite <- Q, <- Mmul_assoc, (proj2 HI), Mmul_id_l. reflexivity.
Qed.
Print Assumptions C61_reported_basis.

(** ** Examples *)
Lemma zr_setting (HO : HashOrd) path fuel (w : vec R) : (48 <= fuel)%nat ->
  well_conditioned (lattice (po w)) /\
  (forall k, (k < 3)%nat -> 1 / 1000 * Vnorm (Ccol (lattice (po w)) k) < Rabs (Mdet (lattice (po w)))) /\ 1 / 1000 < Rabs (Mdet (lattice (po w))) /\
  (forall z : vec Z, z <> V 0%Z 0%Z 0%Z -> 24 * (1 / 1000) <= Vnorm (Mapp (lattice (po w)) (VofZ z))) /\
  1 / 100000 * Rpower (Rabs (Mdet (lattice (po w)))) (1 / 3) < 1 /\
  (forall p, @find_primitive_cell RNum cofactor_pinv HO (0%nat :: path) (1 / 1000) (po w) = Ok p -> well_conditioned (lattice p) /\
     forall q, @niggli_reduce RNum cofactor_pinv (1 / 1000) p (1 / 100000) = Ok q -> well_conditioned (lattice q)) /\
  (forall std, @get_standard_primitive_structure RNum cofactor_pinv HO fuel (0%nat :: path) (1 / 1000) (po w) = Ok std ->
     forall k, (k < 3)%nat -> Vnorm (Ccol (lattice std) k) <= 100000000 * (1 / 1000)).
Proof.
  intro HF. apply (box_setting cofactor_pinv HO (1 / 1000) 2 3 4 fuel path (po w) "Po" w (V 0 0 0)%Z cofactor_pinv_ok HF eq_refl); try lra; [|reflexivity].
  cbn [po frac_coords]. f_equal. apply (@vec_ext R); unfold Vadd, VofZ; cbn; ring.
Qed.
(** C81: the axes of the 2 x 3 x 4 box are no longer than 2, 3 and 4 *)
Example C81_example : forall (HO : HashOrd) path, exists s',
  @find_primitive_cell RNum cofactor_pinv HO path (1 / 1000) (po V0) = Ok s' /\ Vnorm (Ccol (lattice s') 0) <= 2.
Proof.
  intros HO path. destruct (zr_setting HO path 48 V0 (le_n _)) as (W & C & D & RM & _).
  destruct (C81_primitive_axes_shortest cofactor_pinv HO path (1 / 1000) (po V0) cofactor_pinv_ok W eq_refl) as (s' & E & Q); try lra; auto.
  - discriminate.
  - cbn. lia.
  - intros k Hk. split; [|now apply C]. pose proof (roomy_col (1 / 1000) (lattice (po V0)) k RM). lra.
  - intros i j x y e Hij Hi Hj. exfalso. apply Hij. destruct i as [|[|i]], j as [|[|j]]; cbn in Hi, Hj; congruence.
  - exists s'. split; [exact E|]. destruct (Q (V 1 0 0)%Z) as (Q1 & _); [discriminate|cbn; lia..|].
    replace (Vnorm (Mapp (lattice (po V0)) (VofZ (V 1 0 0)%Z))) with 2 in Q1; [exact Q1|].
    unfold Vnorm, Vdot, Mapp, po, VofZ. cbn. match goal with |- _ = sqrt ?x => replace x with (2 * 2) by ring end. symmetry. apply sqrt_square. lra.
Qed.
(** C82 and C61: the run on the 2 x 3 x 4 box ends, with group 47, through the character 32 *)
Example C82_example : forall (HO : HashOrd) path, exists ops p q ch,
  @get_space_group_info RNum cofactor_pinv HO 48 path (1 / 1000) (po V0) = Ok (47%Z, "Pmmm"%string, ops) /\
  @find_primitive_cell RNum cofactor_pinv HO (0%nat :: path) (1 / 1000) (po V0) = Ok p /\ @niggli_reduce RNum cofactor_pinv (1 / 1000) p (1 / 100000) = Ok q /\
  @get_lattice_character RNum q (1 / 100000) = Ok ch /\ am_get Z.eqb ch LATTICE_CHAR_TO_BRAVAIS = Some oP.
Proof.
  intros HO path. destruct (zr_setting HO path 48 V0 (le_n _)) as (W & C & D & RM & HE & HW & HS).
  destruct (C83_orthogonal_box cofactor_pinv HO (1 / 1000) 2 3 4 48 path (po V0) "Po" (V 0 0 0)%Z cofactor_pinv_ok (le_n _) eq_refl eq_refl eq_refl)
    as (x & y & z & n & sym & ops & PM & OR & E & CS & _); try lra.
  assert (BE : 1 / 100000 * Rpower (2 * 3 * 4) (1 / 3) < 1) by (apply (box_eps 2 3 4); lra).
  assert (X : x = 2 /\ y = 3 /\ z = 4).
  { destruct (perm3 _ _ _ _ _ _ PM) as [(-> & -> & ->)|[(-> & -> & ->)|[(-> & -> & ->)|[(-> & -> & ->)|[(-> & -> & ->)|(-> & -> & ->)]]]]]; repeat split; lra. }
  destruct X as (-> & -> & ->). cbv zeta in CS. destruct CS as [(_ & _ & _ & CS)|[(_ & _ & _ & _ & [CS|CS])|(-> & -> & _)]]; [lra..|].
  destruct (C82_one_atom_answer cofactor_pinv HO (1 / 1000) 48 path (po V0) "Po" (V 0 0 0)%Z _ _ _ cofactor_pinv_ok (le_n _) eq_refl eq_refl ltac:(lra) W C D RM HE HW HS E)
    as (p & q & ch & b & E1 & E2 & E3 & E4 & E5).
  exists ops, p, q, ch. repeat (split; [assumption|]). rewrite E4. f_equal. destruct b; vm_compute in E5; congruence.
Qed.
(** C83: a cubic box *)
Example C83_example : forall (HO : HashOrd) path, exists ops,
  @get_space_group_info RNum cofactor_pinv HO 48 path (1 / 100) (Structure (N := RNum) (M 3 0 0 0 3 0 0 0 3) ["Po"%string] [] [V 1 0 2]) = Ok (221%Z, "Pm-3m"%string, ops) /\
  List.length ops = 48%nat.
Proof.
  intros HO path. set (s := Structure _ _ _ _).
  destruct (C83_orthogonal_box cofactor_pinv HO (1 / 100) 3 3 3 48 path s "Po" (V 1 0 2)%Z cofactor_pinv_ok (le_n _) eq_refl eq_refl eq_refl)
    as (x & y & z & n & sym & ops & PM & OR & E & CS & _); try lra.
  assert (BE : 0 < 1 / 100000 * Rpower (3 * 3 * 3) (1 / 3)) by (apply Rmult_lt_0_compat; [lra|apply exp_pos]).
  assert (X : x = 3 /\ y = 3 /\ z = 3).
  { destruct (perm3 _ _ _ _ _ _ PM) as [(-> & -> & ->)|[(-> & -> & ->)|[(-> & -> & ->)|[(-> & -> & ->)|[(-> & -> & ->)|(-> & -> & ->)]]]]]; repeat split; lra. }
  destruct X as (-> & -> & ->). cbv zeta in CS. destruct CS as [(-> & -> & L & _)|[(_ & _ & _ & CS & _)|(_ & _ & _ & CS & _)]]; [eauto|lra..].
Qed.
(** C84: the atom at (1/16, 1/16, 1/16) *)
Example C84_example : forall (HO : HashOrd) path r,
  @get_space_group_info RNum cofactor_pinv HO 48 path (1 / 1000) (po (V (1 / 16) (1 / 16) (1 / 16))) <> Ok r.
Proof.
  intros HO path. destruct (zr_setting HO path 48 (V (1 / 16) (1 / 16) (1 / 16)) (le_n _)) as (W & C & D & RM & HE & HW & HS).
  apply (C84_off_origin_unidentified cofactor_pinv HO (1 / 1000) 48 path (po (V (1 / 16) (1 / 16) (1 / 16))) "Po" (V (1 / 16) (1 / 16) (1 / 16)) cofactor_pinv_ok (le_n _) eq_refl eq_refl ltac:(lra) W C D RM HE HW HS).
  exact sixteenth_far.
Qed.
(** C61: for the 2 x 3 x 4 box the transformation applied to the operations leads from the standard cell back to the box *)
Example C61_example : forall (HO : HashOrd) path, exists std sg T ops,
  @get_standard_primitive_structure RNum cofactor_pinv HO 48 (0%nat :: path) (1 / 1000) (po V0) = Ok std /\
  @sg_apply_transformation RNum 48 sg T (@frac_tols_of RNum (lattice std) (1 / 1000)) = Ok ops /\ Mmul (lattice std) T = M 2 0 0 0 3 0 0 0 4.
Proof.
  intros HO path. destruct (C82_example HO path) as (ops & _ & _ & _ & E & _). destruct (zr_setting HO path 48 V0 (le_n _)) as (_ & _ & _ & _ & _ & HW & _).
  destruct (C61_reported_basis cofactor_pinv HO (1 / 1000) 48 path (po V0) _ _ _ cofactor_pinv_ok E) as (p & q & std & sg & T & E1 & E2 & E3 & E4 & Q).
  destruct (HW p E1) as (Wp & Wq). exists std, sg, T, ops. split; [exact E3|]. split; [exact E4|]. exact (proj1 (Q Wp (Wq q E2))).
Qed.
(** C60: the atom at (1, -2, 5) gives the same answer as the atom at the origin *)
Example C60_example : forall (HO : HashOrd) path,
  @get_space_group_info RNum cofactor_pinv HO 48 path (1 / 1000) (po (V 1 (-2) 5)) = @get_space_group_info RNum cofactor_pinv HO 48 path (1 / 1000) (po V0).
Proof.
  intros HO path. destruct (zr_setting HO path 48 V0 (le_n _)) as (_ & _ & _ & RM & _).
  assert (CN : forall k, (k < 3)%nat -> 2 <= Vnorm (Ccol (lattice (po V0)) k)).
  { intros k Hk. pose proof (Vnorm_nonneg (Ccol (lattice (po V0)) k)) as N. pose proof (Vnorm_sq (Ccol (lattice (po V0)) k)) as Q.
    assert (4 <= Vdot (Ccol (lattice (po V0)) k) (Ccol (lattice (po V0)) k)) by (destruct k as [|[|[|k]]]; [..|lia]; unfold Vdot, Ccol, po; cbn; lra). nra. }
  apply C60_origin_partial; [reflexivity|reflexivity| | |].
  - constructor; [|constructor]. exists (V (-1) 2 (-5))%Z. apply (@vec_ext R); unfold Vadd, VofZ, V0; cbn; ring.
  - intros k Hk. specialize (CN k Hk). lra.
  - intros x k z [<-|[]] Hk. specialize (CN k Hk). assert (V0k : vnth V0 k = 0) by (destruct k as [|[|k]]; reflexivity). cbn [num RNum] in *. rewrite V0k. intro E.
    assert (B : 0 < 1 / 1000 / Vnorm (Ccol (lattice (po V0)) k) < 1).
    { split; [apply Rdiv_lt_0_compat; lra|]. apply (Rmult_lt_reg_r (Vnorm (Ccol (lattice (po V0)) k))); [lra|]. unfold Rdiv at 1. rewrite Rmult_assoc, Rinv_l by lra. lra. }
    assert (Z1 : IZR 0 < IZR z < IZR 1) by lra. destruct Z1 as [Z1 Z2]. apply lt_IZR in Z1, Z2. lia.
Qed.
