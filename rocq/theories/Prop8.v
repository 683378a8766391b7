(** C44 - C47, C74, C75: Reducer::find_primitive_cell *)
From Coq Require Import ZArith Reals String List Bool Lia Lra Psatz Permutation Sorting.Sorted.
From Flocq Require Import Core IEEE754.BinarySingleNaN.
From Verif Require Import Num Mat Structure RInst FInst Spec RFacts PStructure PNiggli PDelaunay PDelaunayF PPrim PPrim2 PPrimF Prop5 Reduce.
Import ListNotations.
Open Scope R_scope.

(** C44. *)
Theorem C44_shortest_vectors :
  forall (dtol : R) (cart_vecs : list (vec R)), 0 <= dtol -> (3 <= List.length cart_vecs)%nat ->
    exists a b c, @get_shortest_translation_vecs RNum dtol cart_vecs = Ok (a, b, c) /\
      In a cart_vecs /\ In b cart_vecs /\ In c cart_vecs /\
      (forall v, In v cart_vecs -> Vnorm a <= Vnorm v) /\
      ((exists v, In v cart_vecs /\ dtol < Vnorm (Vcross a v)) ->
        dtol < Vnorm (Vcross a b) /\ forall v, In v cart_vecs -> dtol < Vnorm (Vcross a v) -> Vnorm b <= Vnorm v) /\
      ((exists v, In v cart_vecs /\ dtol < Vnorm (Vcross a v) /\ dtol < Mdet (from_columns a b v)) ->
        dtol < Mdet (from_columns a b c) /\ Vnorm b <= Vnorm c /\
        forall v, In v cart_vecs -> dtol < Vnorm (Vcross a v) -> dtol < Mdet (from_columns a b v) -> Vnorm c <= Vnorm v).
Proof.
  intros dtol cv H0 HL. destruct (shortest_total dtol cv HL) as ([[a b] c] & E). exists a, b, c. split; [exact E|].
  destruct (shortest_spec dtol cv a b c H0 E) as ((I1 & M1) & I2 & I3 & S2 & S3). do 5 (split; [assumption|]).
  rewrite det_triple. intros (v & Hv & H1 & H2). rewrite det_triple in H2. destruct S3 as (A & B & C); [now exists v|]. split; [exact A|]. split; [exact B|].
  intros w Hw H3 H4. rewrite det_triple in H4. now apply C.
Qed.
Print Assumptions C44_shortest_vectors.

(** the selection on a concrete list: the left-handed (0, 0, -3) is passed over *)
Lemma norm_le_sq a b : Vnorm a <= Vnorm b -> Vdot a a <= Vdot b b.
Proof. intro H. rewrite <- !Vnorm_sq. pose proof (Vnorm_nonneg a). apply Rmult_le_compat; assumption. Qed.
Lemma norm_lt_sq k a : 0 <= k -> k * k < Vdot a a -> k < Vnorm a.
Proof. intros Hk H. rewrite <- Vnorm_sq in H. pose proof (Vnorm_nonneg a). destruct (Rlt_or_le k (Vnorm a)) as [|C]; [assumption|]. nra. Qed.
Lemma norm_lt_sq' k a : k < Vnorm a -> 0 <= k -> k * k < Vdot a a.
Proof. intros H Hk. rewrite <- Vnorm_sq. nra. Qed.
Example C44_example :
  @get_shortest_translation_vecs RNum (1 / 20) [V 2 0 0; V 0 0 (-3); V 0 2 0; V 0 0 3; V 1 0 0] = Ok (V 1 0 0, V 0 2 0, V 0 0 3).
Proof.
  destruct (C44_shortest_vectors (1 / 20) [V 2 0 0; V 0 0 (-3); V 0 2 0; V 0 0 3; V 1 0 0]) as (a & b & c & -> & Ia & Ib & Ic & Ma & S2 & S3); [lra|cbn; lia|].
  assert (Ea : a = V 1 0 0).
  { pose proof (norm_le_sq _ _ (Ma (V 1 0 0) ltac:(cbn; tauto))) as Q. cbn in Ia. repeat destruct Ia as [<-|Ia]; try tauto; unfold Vdot in Q; cbn in Q; lra. }
  subst a. destruct S2 as [B1 B2]; [exists (V 0 2 0); split; [cbn; tauto|apply norm_lt_sq; [lra|unfold Vdot, Vcross; cbn; lra]]|].
  assert (Eb : b = V 0 2 0).
  { pose proof (norm_le_sq _ _ (B2 (V 0 2 0) ltac:(cbn; tauto) ltac:(apply norm_lt_sq; [lra|unfold Vdot, Vcross; cbn; lra]))) as Q.
    apply norm_lt_sq' in B1; [|lra]. cbn in Ib. repeat destruct Ib as [<-|Ib]; try tauto; unfold Vdot, Vcross in Q, B1; cbn in Q, B1; lra. }
  subst b. destruct S3 as [C1 _]; [exists (V 0 0 3); split; [cbn; tauto|]; split; [apply norm_lt_sq; [lra|unfold Vdot, Vcross; cbn; lra]|unfold Mdet, from_columns; cbn; lra]|].
  cbn in Ic. repeat destruct Ic as [<-|Ic]; try tauto; unfold Mdet, from_columns in C1; cbn in C1; try lra.
Qed.

(** C45. *)
Theorem C45_primitive_lattice_from_translations :
  forall (P : @Pinv RNum) (HO : HashOrd) (path : list nat) (dtol : R) (s s' : @structure RNum),
    pinv_inverts P -> well_conditioned (lattice s) -> List.length (species s) = List.length (frac_coords s) -> 0 <= dtol ->
    @find_primitive_cell RNum P HO path dtol s = Ok s' ->
    exists t1 t2 t3 T,
      (forall t, In t [t1; t2; t3] -> translation_within (2 * dtol) (lattice s) (combine (frac_coords s) (species s)) t) /\
      entries_within (-1) 1 T /\
      lattice s' = Mmul (lattice s) (Mmul (from_columns t1 t2 t3) (MofZ T)).
Proof.
  intros P HO path dtol s s' HP HW WF H0 E.
  destruct (prim_lattice P HO path dtol s WF s' H0 (HP _ HW) E) as (t1 & t2 & t3 & z1 & z2 & z3 & T1 & T2 & T3 & Z1 & Z2 & Z3 & EL).
  exists t1, t2, t3, (zcols z1 z2 z3). split; [|split; [|exact EL]].
  - intros t [<-|[<-|[<-|[]]]]; assumption.
  - now apply dirs26_entries.
Qed.
Print Assumptions C45_primitive_lattice_from_translations.

(** C46. *)
Theorem C46_primitive_sites :
  forall (P : @Pinv RNum) (HO : HashOrd) (path : list nat) (dtol : R) (s s' : @structure RNum),
    List.length (species s) = List.length (frac_coords s) ->
    @find_primitive_cell RNum P HO path dtol s = Ok s' -> inverse_of (lattice s') (@pinv RNum P (lattice s')) ->
    coords s' = map (Mapp (lattice s')) (frac_coords s') /\ List.length (species s') = List.length (frac_coords s') /\
    forall k x e, nth_error (coords s') k = Some x -> nth_error (species s') k = Some e ->
      exists y n m, In (y, e) (combine (frac_coords s) (species s)) /\
        x = Vadd (Mapp (lattice s) (Vadd y (VofZ n))) (Mapp (lattice s') (VofZ m)).
Proof.
  intros P HO path dtol s s' WF E HI. destruct (prim_sites P HO path dtol s WF s' E HI) as (Ec & El & HS). split; [exact Ec|]. split; [exact El|].
  intros k x e Hx He. rewrite Ec in Hx. destruct (nth_error_map_inv _ _ _ _ Hx) as (u & Eu & ->). exact (HS k u e Eu He).
Qed.
Print Assumptions C46_primitive_sites.

(** C74. *)
Theorem C74_primitive_cell_kept :
  forall (P : @Pinv RNum) (HO : HashOrd) (path : list nat) (dtol : R) (s : @structure RNum),
    pinv_inverts P -> well_conditioned (lattice s) -> List.length (species s) = List.length (frac_coords s) ->
    species s <> [] -> (Z.of_nat (List.length (species s)) <= 65535)%Z -> 0 <= dtol ->
    (forall k, (k < 3)%nat -> dtol <= Vnorm (Ccol (lattice s) k) /\ dtol * Vnorm (Ccol (lattice s) k) < Rabs (Mdet (lattice s))) ->
    dtol < Rabs (Mdet (lattice s)) ->
    (forall i j x y e, i <> j -> nth_error (frac_coords s) i = Some x -> nth_error (frac_coords s) j = Some y ->
      nth_error (species s) i = Some e -> nth_error (species s) j = Some e ->
      ~ translation_within (2 * dtol) (lattice s) (combine (frac_coords s) (species s)) (Vsub x y)) ->
    exists s' T, @find_primitive_cell RNum P HO path dtol s = Ok s' /\
      lattice s' = Mmul (lattice s) (MofZ T) /\ (ZMdet T = 1 \/ ZMdet T = -1)%Z /\
      same_lattice (lattice s) (lattice s') /\ 0 < Mdet (lattice s').
Proof.
  intros P HO path dtol s HP HW WF HN HM H0 HC HD NI.
  assert (HC' : forall k, (k < 3)%nat -> 0 < Vnorm (Ccol (lattice s) k) /\ dtol <= Vnorm (Ccol (lattice s) k) /\ dtol * Vnorm (Ccol (lattice s) k) < Rabs (Mdet (lattice s))).
  { intros k Hk. split; [|now apply HC]. apply well_conditioned_col; assumption. }
  destruct (prim_keeps P HO path dtol s WF H0 HN HM HC' HD (HP _ HW) NI) as (s' & T & E & EL & DT & DP).
  exists s', T. split; [exact E|]. split; [exact EL|]. split; [exact DT|]. split; [|lra]. rewrite EL.
  destruct (unimodular_inverse _ DT) as (Ti & HI). exact (unimodular_same_lattice _ _ _ HI).
Qed.
Print Assumptions C74_primitive_cell_kept.

(** two Po and one O in a left-handed cubic cell; (1/2, 1/2, 0) would move the O atom *)
Definition left_cell : @structure RNum :=
  Structure (N := RNum) (M 4 0 0 0 4 0 0 0 (-4)) ["Po"; "O"; "Po"]%string [] [V 0 0 0; V 0 0 (1 / 4); V (1 / 2) (1 / 2) 0].
Lemma left_norm v : Vnorm (Mapp (lattice left_cell) v) = 4 * Vnorm v.
Proof.
  unfold Vnorm. replace (Vdot (Mapp (lattice left_cell) v) (Mapp (lattice left_cell) v)) with (4 * 4 * Vdot v v)
    by (unfold Vdot, Mapp, left_cell; cbn; ring).
  rewrite sqrt_mult_alt by lra. rewrite sqrt_square by lra. reflexivity.
Qed.
Lemma left_cell_well_conditioned : well_conditioned (lattice left_cell).
Proof.
  intros v Hv. rewrite left_norm. assert (0 < Vnorm v); [|lra].
  destruct (Rle_lt_or_eq_dec _ _ (Vnorm_nonneg v)) as [|E]; [assumption|]. exfalso. apply Hv.
  assert (Q : Vdot v v = 0) by (rewrite <- Vnorm_sq, <- E; ring). unfold Vdot in Q. destruct v as [x y z]. cbn in Q. unfold V0.
  assert (x = 0) by nra. assert (y = 0) by nra. assert (z = 0) by nra. congruence.
Qed.
Lemma half_not_small (n : Z) : / 4 <= (IZR n + / 2) * (IZR n + / 2).
Proof.
  assert (Q : IZR n <= -1 \/ 0 <= IZR n) by (destruct (Z_le_gt_dec 0 n) as [H|H]; [right; now apply IZR_le|left; apply IZR_le; lia]).
  destruct Q; nra.
Qed.
Lemma left_cell_no_translation x : (vx x = / 2 \/ vx x = - / 2) ->
  ~ translation_within (2 * (1 / 20)) (lattice left_cell) (combine (frac_coords left_cell) (species left_cell)) x.
Proof.
  intros Hx H. destruct (H (V 0 0 (1 / 4)) "O"%string) as (y & n & Hy & HN); [cbn; tauto|].
  assert (Ey : y = V 0 0 (1 / 4)) by (cbn in Hy; destruct Hy as [E|[E|[E|[]]]]; congruence). subst y.
  rewrite left_norm in HN. set (w := Vadd _ _) in HN.
  assert (Q : (Vnorm w) * (Vnorm w) <= 1 / 40 * (1 / 40)) by (pose proof (Vnorm_nonneg w); nra).
  rewrite Vnorm_sq in Q. assert (Q2 : vx w * vx w <= 1 / 1600).
  { unfold Vdot in Q. pose proof (Rle_0_sqr (vy w)). pose proof (Rle_0_sqr (vz w)). unfold Rsqr in *. lra. }
  assert (Ew : vx w = IZR (vx n) + vx x) by (unfold w, Vadd, Vsub, VofZ; cbn; ring). rewrite Ew in Q2.
  destruct Hx as [Hx|Hx]; rewrite Hx in Q2.
  - pose proof (half_not_small (vx n)). lra.
  - pose proof (half_not_small (- vx n)) as Q3. rewrite opp_IZR in Q3. nra.
Qed.
Example C74_example : forall (HO : HashOrd) path, exists s' T,
  @find_primitive_cell RNum cofactor_pinv HO path (1 / 20) left_cell = Ok s' /\
  lattice s' = Mmul (lattice left_cell) (MofZ T) /\ (ZMdet T = 1 \/ ZMdet T = -1)%Z /\
  same_lattice (lattice left_cell) (lattice s') /\ 0 < Mdet (lattice s').
Proof.
  intros HO path. assert (N4 : forall k, (k < 3)%nat -> Vnorm (Ccol (lattice left_cell) k) = 4).
  { intros k Hk. assert (Q : Vdot (Ccol (lattice left_cell) k) (Ccol (lattice left_cell) k) = 4 * 4) by (destruct k as [|[|[|k]]]; [..|lia]; unfold Vdot, Ccol; cbn; ring).
    unfold Vnorm. rewrite Q. apply sqrt_square. lra. }
  assert (D4 : Rabs (Mdet (lattice left_cell)) = 64).
  { replace (Mdet (lattice left_cell)) with (- 64) by (unfold Mdet; cbn; ring). rewrite Rabs_left by lra. lra. }
  apply C74_primitive_cell_kept.
  - exact cofactor_pinv_ok.
  - exact left_cell_well_conditioned.
  - reflexivity.
  - discriminate.
  - cbn. lia.
  - lra.
  - intros k Hk. rewrite N4, D4 by exact Hk. lra.
  - rewrite D4. lra.
  - intros i j x y e Hij Hx Hy Hi Hj. apply left_cell_no_translation.
    destruct i as [|[|[|i]]]; destruct j as [|[|[|j]]]; cbn in Hx, Hy, Hi, Hj; try congruence; try (destruct i; discriminate); try (destruct j; discriminate);
      injection Hx as <-; injection Hy as <-; cbn; lra.
Qed.
(** C45 and C46 apply to the same cell *)
Example C45_46_example : forall (HO : HashOrd) path, exists s',
  @find_primitive_cell RNum cofactor_pinv HO path (1 / 20) left_cell = Ok s' /\
  pinv_inverts cofactor_pinv /\ well_conditioned (lattice left_cell) /\
  inverse_of (lattice s') (@pinv RNum cofactor_pinv (lattice s')).
Proof.
  intros HO path. destruct (C74_example HO path) as (s' & T & E & _ & _ & _ & HD). exists s'. split; [exact E|].
  split; [exact cofactor_pinv_ok|]. split; [exact left_cell_well_conditioned|]. apply Madj_inverse. lra.
Qed.

(** C47.  Refuted in binary64: four atoms on a tetragonal cell.  The two shortest translations span a left-handed pair, no
    third vector is found and the code falls back on index 2, which lies in the same plane. *)
Definition flat_cell (Lm : Libm) : @structure (@FNum Lm) :=
  let h := @flit (@FNum Lm) 1 2 in let o := @f0 (@FNum Lm) in
  Structure (N := @FNum Lm) (@mcast (@FNum Lm) (M 4 0 0 0 4 0 0 0 8)%Z) ["Po"; "Po"; "Po"; "Po"]%string
    [] [V o o o; V o h o; V h o o; V h h o].
Definition flat_inverse (Lm : Libm) : mat f64 :=
  let q := @flit (@FNum Lm) 1 4 in let e := @flit (@FNum Lm) 1 8 in let o := @f0 (@FNum Lm) in M q o o o q o o o e.
Definition flat_result : mat Z := (M 0 0 0 0 0 2 0 0 0)%Z.
Lemma flat_run (Lm : Libm) :
  option_map mshow (fp_lat (flat_inverse Lm) (@flit (@FNum Lm) 5 100) (flat_cell Lm) "Po" 0) = Some (mshow (@mcast (@FNum Lm) flat_result)).
Proof. vm_compute. reflexivity. Qed.
Lemma flat_inverse_R (Lm : Libm) : Mmul (MofZ (M 4 0 0 0 4 0 0 0 8)%Z) (mR (flat_inverse Lm)) = Mid.
Proof.
  assert (E4 : B2R (@flit (@FNum Lm) 1 4) = / 4) by (rewrite (B2R_show _ 4503599627370496 (-54)) by (vm_compute; reflexivity); cbn; lra).
  assert (E8 : B2R (@flit (@FNum Lm) 1 8) = / 8) by (rewrite (B2R_show _ 4503599627370496 (-55)) by (vm_compute; reflexivity); cbn; lra).
  unfold mR, mmap, flat_inverse. cbn [m11 m12 m13 m21 m22 m23 m31 m32 m33]. rewrite E4, E8.
  replace (B2R (@f0 (@FNum Lm))) with 0 by reflexivity. unfold Mmul, MofZ, Mid. cbn. apply (@mat_ext R); cbn; lra.
Qed.
Theorem C47_primitive_cell_nonsingular_refuted :
  exists (cell : forall Lm : Libm, @structure (@FNum Lm)) (inv : Libm -> mat f64),
  forall (Lm : Libm) (P : @Pinv (@FNum Lm)) (HO : HashOrd) (path : list nat),
    let s := cell Lm in
    @pinv (@FNum Lm) P (lattice s) = inv Lm ->
    Mdet (mR (lattice s)) = 128 /\ Mmul (mR (lattice s)) (mR (inv Lm)) = Mid /\
    exists s', @find_primitive_cell (@FNum Lm) P HO path (@flit (@FNum Lm) 5 100) s = Ok s' /\ mR (lattice s') = MofZ flat_result /\
      Mdet (mR (lattice s')) = 0.
Proof.
  exists flat_cell, flat_inverse. intros Lm P HO path s HP.
  assert (EL : mR (lattice s) = MofZ (M 4 0 0 0 4 0 0 0 8)%Z) by (apply mR_mcast; reflexivity).
  split; [rewrite EL; unfold Mdet; cbn; ring|]. split; [rewrite EL; apply flat_inverse_R|].
  assert (GM : @get_min_element HO path (species (@normalize_coords (@FNum Lm) s (@flit (@FNum Lm) 5 100))) = Ok ("Po"%string, [("Po"%string, 0%Z)], [("Po"%string, 4%Z)])).
  { replace (species _) with (["Po"; "Po"; "Po"; "Po"]%string) by (vm_compute; reflexivity). apply min_one; reflexivity. }
  destruct (some_mshow _ _ (flat_run Lm)) as (lat & E1 & ER). rewrite mR_mcast in ER by reflexivity.
  destruct (fp_run P HO path (@flit (@FNum Lm) 5 100) s _ _ _ 0%Z lat GM) as (s' & E & El & _); [reflexivity|rewrite HP; exact E1|].
  exists s'. split; [exact E|]. rewrite El, ER. split; [reflexivity|]. unfold Mdet, flat_result. cbn. ring.
Qed.
Print Assumptions C47_primitive_cell_nonsingular_refuted.

(** C75.  What holds: each input site has a kept site within 2 dtol, but fractional differences in the new basis are
    measured with the old lattice. *)
Theorem C75_sites_represented :
  forall (P : @Pinv RNum) (HO : HashOrd) (path : list nat) (dtol : R) (s s' : @structure RNum), 0 <= dtol ->
    List.length (species s) = List.length (frac_coords s) -> @find_primitive_cell RNum P HO path dtol s = Ok s' ->
    forall x e, In (x, e) (combine (frac_coords s) (species s)) ->
      exists y n m, In y (frac_coords s') /\
        Vnorm (Mapp (lattice s) (Vadd (Vsub (Mapp (@pinv RNum P (lattice s')) (Mapp (lattice s) (Vadd x (VofZ n)))) y) (VofZ m))) <= 2 * dtol.
Proof. exact prim_covers. Qed.
Print Assumptions C75_sites_represented.

(** Refuted: a hydrogen molecule (0.75 apart) along the long first axis of a 32 x 4 x 4 box loses an atom. *)
Definition slab_cell (Lm : Libm) : @structure (@FNum Lm) :=
  let o := @f0 (@FNum Lm) in
  Structure (N := @FNum Lm) (@mcast (@FNum Lm) (M 32 0 0 0 4 0 0 0 4)%Z) ["H"; "H"]%string [] [V o o o; V (@flit (@FNum Lm) 3 128) o o].
Definition slab_inverse (Lm : Libm) : mat f64 :=
  let q := @flit (@FNum Lm) 1 4 in let e := @flit (@FNum Lm) 1 32 in let o := @f0 (@FNum Lm) in M e o o o q o o o q.
Definition slab_result : mat Z := (M 0 0 32 4 0 0 0 4 0)%Z.
Definition slab_result_inverse (Lm : Libm) : mat f64 :=
  let q := @flit (@FNum Lm) 1 4 in let e := @flit (@FNum Lm) 1 32 in let o := @f0 (@FNum Lm) in M o q o o o q e o o.
Lemma slab_run (Lm : Libm) :
  option_map mSF (fp_lat (slab_inverse Lm) (@flit (@FNum Lm) 5 100) (slab_cell Lm) "H" 0) = Some (mSF (@mcast (@FNum Lm) slab_result)).
Proof. vm_compute. reflexivity. Qed.
Lemma slab_fold1 (Lm : Libm) : List.length (snd (fp_fold (slab_result_inverse Lm) (@flit (@FNum Lm) 5 100) (slab_cell Lm))) = 1%nat.
Proof. vm_compute. reflexivity. Qed.
Lemma slab_fold2 (Lm : Libm) : List.length (fst (fp_fold (slab_result_inverse Lm) (@flit (@FNum Lm) 5 100) (slab_cell Lm))) = 1%nat.
Proof. vm_compute. reflexivity. Qed.
Lemma q4_R (Lm : Libm) : B2R (@flit (@FNum Lm) 1 4) = / 4.
Proof. rewrite (B2R_show _ 4503599627370496 (-54)) by (vm_compute; reflexivity). cbn. lra. Qed.
Lemma q32_R (Lm : Libm) : B2R (@flit (@FNum Lm) 1 32) = / 32.
Proof. rewrite (B2R_show _ 4503599627370496 (-57)) by (vm_compute; reflexivity). cbn. lra. Qed.
Lemma q128_R (Lm : Libm) : B2R (@flit (@FNum Lm) 3 128) = 3 / 128.
Proof. rewrite (B2R_show _ 6755399441055744 (-58)) by (vm_compute; reflexivity). cbn. lra. Qed.
Theorem C75_close_sites_only_refuted :
  exists (cell : forall Lm : Libm, @structure (@FNum Lm)) (L' : mat Z) (inv inv' : Libm -> mat f64),
  forall (Lm : Libm) (P : @Pinv (@FNum Lm)) (HO : HashOrd) (path : list nat),
    let s := cell Lm in
    @pinv (@FNum Lm) P (lattice s) = inv Lm -> @pinv (@FNum Lm) P (@mcast (@FNum Lm) L') = inv' Lm ->
    Mmul (mR (lattice s)) (mR (inv Lm)) = Mid /\ Mmul (MofZ L') (mR (inv' Lm)) = Mid /\
    (exists x y, frac_coords s = [x; y] /\
       forall n, 3 / 4 <= Vnorm (Mapp (mR (lattice s)) (Vadd (Vsub (vR y) (vR x)) (VofZ n)))) /\
    exists s', @find_primitive_cell (@FNum Lm) P HO path (@flit (@FNum Lm) 5 100) s = Ok s' /\
      mR (lattice s') = MofZ L' /\ Mdet (mR (lattice s')) = Mdet (mR (lattice s)) /\ List.length (species s') = 1%nat.
Proof.
  exists slab_cell, slab_result, slab_inverse, slab_result_inverse. intros Lm P HO path s HP1 HP2.
  assert (EL : mR (lattice s) = MofZ (M 32 0 0 0 4 0 0 0 4)%Z) by (apply mR_mcast; reflexivity).
  assert (ER : mR (@mcast (@FNum Lm) slab_result) = MofZ slab_result) by (apply mR_mcast; reflexivity).
  assert (E0 : B2R (@f0 (@FNum Lm)) = 0) by reflexivity.
  split; [|split; [|split]].
  - rewrite EL. unfold mR, mmap, slab_inverse. cbn [m11 m12 m13 m21 m22 m23 m31 m32 m33]. rewrite q4_R, q32_R, E0.
    unfold Mmul, MofZ, Mid. cbn. apply (@mat_ext R); cbn; lra.
  - unfold mR, mmap, slab_result_inverse. cbn [m11 m12 m13 m21 m22 m23 m31 m32 m33]. rewrite q4_R, q32_R, E0.
    unfold Mmul, MofZ, Mid. cbn. apply (@mat_ext R); cbn; lra.
  - do 2 eexists. split; [reflexivity|]. intro n. rewrite EL. unfold vR. cbn [vx vy vz]. rewrite q128_R, E0.
    assert (Q : forall w : vec R, 3 / 4 <= Rabs (vx w) -> 3 / 4 <= Vnorm w).
    { intros w Hw. apply Rsqr_incr_0_var; [|apply Vnorm_nonneg]. unfold Rsqr at 2. rewrite Vnorm_sq.
      assert (Q : Rsqr (3 / 4) <= Rsqr (vx w)) by (rewrite (Rsqr_abs (vx w)); apply Rsqr_incr_1; [exact Hw|lra|apply Rabs_pos]).
      unfold Vdot. pose proof (Rle_0_sqr (vy w)). pose proof (Rle_0_sqr (vz w)). unfold Rsqr in *. lra. }
    apply Q. replace (vx _) with (3 / 4 + 32 * IZR (vx n)) by (unfold Mapp, MofZ, Vadd, Vsub, VofZ; cbn; field).
    destruct (Z_le_gt_dec 0 (vx n)) as [H|H].
    + apply IZR_le in H. rewrite Rabs_pos_eq; lra.
    + assert (H' : (vx n <= -1)%Z) by lia. apply IZR_le in H'. rewrite Rabs_left; lra.
  - assert (GM : @get_min_element HO path (species (@normalize_coords (@FNum Lm) s (@flit (@FNum Lm) 5 100))) = Ok ("H"%string, [("H"%string, 0%Z)], [("H"%string, 2%Z)])).
    { replace (species _) with (["H"; "H"]%string) by (vm_compute; reflexivity). apply min_one; reflexivity. }
    pose proof (some_mSF _ _ (slab_run Lm)) as E1.
    destruct (fp_run P HO path (@flit (@FNum Lm) 5 100) s _ _ _ 0%Z (@mcast (@FNum Lm) slab_result) GM) as (s' & E & El & En); [reflexivity|rewrite HP1; exact E1|].
    exists s'. split; [exact E|]. rewrite El, ER, EL. split; [reflexivity|]. split; [unfold Mdet, slab_result; cbn; ring|].
    rewrite En, HP2. unfold s. rewrite slab_fold1, slab_fold2. reflexivity.
Qed.
Print Assumptions C75_close_sites_only_refuted.
