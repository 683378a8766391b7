(** C22 - C34, C67, C68: structure.rs *)
From Coq Require Import ZArith Reals String Ascii DecimalString List Bool Lia Lra Permutation Sorting.Sorted.
From Flocq Require Import Core IEEE754.BinarySingleNaN.
From Verif Require Import Num Mat Structure RInst FInst Spec RFacts PSymmOp PPointGroup PCoset PStructure PStructure2 PStructure3 PStructure4 PFormula.
Import ListNotations.
Open Scope R_scope.

(** What is assumed of nalgebra's SVD based pseudo inverse: it inverts matrices whose singular values exceed 1e-6. *)
Definition pinv_inverts (P : @Pinv RNum) : Prop :=
  forall m, well_conditioned m -> inverse_of m (@pinv RNum P m).
Example pinv_inverts_example : pinv_inverts cofactor_pinv.
Proof. exact cofactor_pinv_ok. Qed.
Lemma cubic2_well_conditioned : well_conditioned (cubic 2).
Proof.
  intros v Hv. assert (N : Vnorm (Mapp (cubic 2) v) = 2 * Vnorm v).
  { unfold Vnorm. replace (Vdot (Mapp (cubic 2) v) (Mapp (cubic 2) v)) with (2 * 2 * Vdot v v)
      by (unfold Vdot, Mapp, cubic; cbn; ring).
    rewrite sqrt_mult_alt by lra. rewrite sqrt_square by lra. reflexivity. }
  rewrite N. assert (0 < Vnorm v); [|lra].
  destruct (Rle_lt_or_eq_dec _ _ (Vnorm_nonneg v)) as [|E]; auto. exfalso. apply Hv.
  pose proof (Vnorm_sq v) as Q. rewrite <- E in Q. destruct v as [a b c]. unfold Vdot in Q. cbn in Q.
  unfold V0. f_equal; nra.
Qed.

(** C22. *)
Theorem C22_new_consistent :
  forall (P : @Pinv RNum) (L : mat R) (names : list string) (cs : list (vec R)) (cart : bool),
    pinv_inverts P -> well_conditioned L ->
    exists s, @structure_new RNum P L names cs cart = Ok s /\
      lattice s = L /\ species s = names /\
      (if cart then coords s = cs else frac_coords s = cs) /\
      List.length (frac_coords s) = List.length cs /\
      coords s = map (Mapp L) (frac_coords s).
Proof.
  intros P L names cs cart HP HL. specialize (HP L HL). unfold structure_new, get_frac_coords. destruct cart.
  - rewrite pseudo_inverse_R. cbn [of_opt bind]. eexists. split; [reflexivity|]. cbn [lattice species coords frac_coords].
    repeat (split; [reflexivity|]). split; [now rewrite map_length|].
    rewrite map_map. symmetry. apply map_id_in. intros x _. now apply inv_app.
  - eexists. split; [reflexivity|]. cbn. auto.
Qed.
Print Assumptions C22_new_consistent.
Example C22_example : exists s, @structure_new RNum cofactor_pinv (cubic 2) ["Po"%string] [V 1 0 3] true = Ok s /\
  coords s = map (Mapp (cubic 2)) (frac_coords s).
Proof.
  destruct (C22_new_consistent cofactor_pinv (cubic 2) ["Po"%string] [V 1 0 3] true) as (s & E & _ & _ & _ & _ & H).
  - exact cofactor_pinv_ok.
  - exact cubic2_well_conditioned.
  - exists s. auto.
Qed.

(** C23.  Refuted: no lattice whatever is rejected, whatever the pseudo inverse returns, in both instances. *)
Theorem C23_singular_lattice_rejected_refuted :
  (exists L : mat R, Mdet L = 0 /\
     forall (P : @Pinv RNum) names cs cart, exists s, @structure_new RNum P L names cs cart = Ok s) /\
  (forall (Lm : Libm) (P : @Pinv (@FNum Lm)) (L : mat f64) names cs cart,
     exists s, @structure_new (@FNum Lm) P L names cs cart = Ok s).
Proof.
  split.
  - exists (M 1 0 0 0 1 0 0 0 0). split; [unfold Mdet; cbn; ring|]. intros P names cs cart.
    unfold structure_new, get_frac_coords. destruct cart; [rewrite pseudo_inverse_R|]; eexists; reflexivity.
  - intros Lm P L names cs cart. unfold structure_new, get_frac_coords, pseudo_inverse. destruct cart; eexists; reflexivity.
Qed.
Print Assumptions C23_singular_lattice_rejected_refuted.

(** C24. *)
Theorem C24_normalize_coords_keeps_crystal :
  forall (s : @structure RNum) (pos_tol : R),
    let s' := @normalize_coords RNum s pos_tol in
    lattice s' = lattice s /\
    List.length (species s') = List.length (frac_coords s') /\
    List.length (species s') = Nat.min (List.length (species s)) (List.length (frac_coords s)) /\
    StronglySorted (fun a b => String.leb a b = true) (species s') /\
    coords s' = map (Mapp (lattice s)) (frac_coords s') /\
    (forall e, Forall2 (fun x y => exists n, y = Vadd x (VofZ n))
                 (sites_named e (species s) (frac_coords s)) (sites_named e (species s') (frac_coords s'))) /\
    (0 <= pos_tol -> (forall k, pos_tol <= Vnorm (Ccol (lattice s) k)) -> (forall k, 0 < Vnorm (Ccol (lattice s) k)) ->
     forall x k, In x (frac_coords s') ->
       - (pos_tol / Vnorm (Ccol (lattice s) k)) <= vnth x k <= 1 - pos_tol / Vnorm (Ccol (lattice s) k)).
Proof. exact normalize_coords_spec. Qed.
Print Assumptions C24_normalize_coords_keeps_crystal.
(** two species out of order, one site outside the cell *)
Example C24_example :
  let s := Structure (N := RNum) (cubic 2) ["Na"; "Cl"; "Cl"]%string [] [V (1/2) (1/2) (1/2); V 0 3 0; V 0 0 (1/4)] in
  species (@normalize_coords RNum s (1/10)) = ["Cl"; "Cl"; "Na"]%string /\
  exists n, sites_named "Cl" (species (@normalize_coords RNum s (1/10))) (frac_coords (@normalize_coords RNum s (1/10)))
    = map (fun p => Vadd (fst p) (VofZ (snd p))) (combine [V 0 3 0; V 0 0 (1/4)] n).
Proof.
  intro s. split; [reflexivity|].
  destruct (C24_normalize_coords_keeps_crystal s (1/10)) as (_ & _ & _ & _ & _ & H & _).
  specialize (H "Cl"%string). change (sites_named "Cl" (species s) (frac_coords s)) with [V 0 3 0; V 0 0 (1/4)] in H.
  revert H. generalize (sites_named "Cl" (species (@normalize_coords RNum s (1/10))) (frac_coords (@normalize_coords RNum s (1/10)))).
  intros ys H. inversion H as [|? y1 ? l1 [n1 E1] H1]; subst. inversion H1 as [|? y2 ? l2 [n2 E2] H2]; subst. inversion H2; subst.
  exists [n1; n2]. reflexivity.
Qed.

(** C25. *)
Theorem C25_apply_transformation_genuine_sites :
  forall (s s' : @structure RNum) (T : mat R) (pos_tol : R) (fuel : nat),
    @apply_transformation RNum fuel s T pos_tol = Ok s' ->
    Mdet T <> 0 /\ lattice s' = Mmul (lattice s) T /\
    List.length (species s') = List.length (frac_coords s') /\
    coords s' = map (Mapp (lattice s')) (frac_coords s') /\
    (forall k e y, nth_error (species s') k = Some e -> nth_error (frac_coords s') k = Some y ->
       exists j x m n, nth_error (species s) j = Some e /\ nth_error (frac_coords s) j = Some x /\
         Mapp T y = Vadd (Vadd x (VofZ m)) (Mapp T (VofZ n))) /\
    exists c : Z, Rabs (100 * Rabs (Mdet T) - IZR c) <= / 2 /\
      IZR c / 100 * INR (List.length (coords s)) <= INR (List.length (species s')).
Proof. exact apply_transformation_sound. Qed.
Print Assumptions C25_apply_transformation_genuine_sites.

(** The distinct sites of the transformed crystal, measured as the function measures them (difference of the new
    fractional coordinates times the OLD lattice), are more than twice the tolerance apart. *)
Definition sites_separated (s : @structure RNum) (T : mat Z) (Ti : mat R) (pos_tol : R) : Prop :=
  forall i j x y m,
    nth_error (frac_coords s) i = Some x -> nth_error (frac_coords s) j = Some y ->
    i <> j \/ ~ (exists n, m = ZMapp T n) ->
    2 * pos_tol < Vnorm (Mapp (lattice s) (Mapp Ti (Vadd (Vsub x y) (VofZ m)))).

(** C68.  Supercells with separated sites: the call returns after at most det T passes and finds every translate of every
    site exactly once: there are det T * N sites, and each old site moved by each old lattice vector is there. *)
Theorem C68_supercell_complete :
  forall (s : @structure RNum) (T : mat Z) (Ti : mat R) (pos_tol : R) (fuel : nat),
    ZMdet T <> 0%Z -> inverse_of (MofZ T) Ti ->
    0 <= pos_tol -> (forall k, 0 < Vnorm (Ccol (lattice s) k)) -> (forall k, pos_tol <= Vnorm (Ccol (lattice s) k)) ->
    List.length (frac_coords s) = List.length (species s) -> List.length (coords s) = List.length (species s) ->
    sites_separated s T Ti pos_tol ->
    (Z.to_nat (Z.abs (ZMdet T)) <= fuel)%nat ->
    exists s', @apply_transformation RNum fuel s (MofZ T) pos_tol = Ok s' /\
      lattice s' = Mmul (lattice s) (MofZ T) /\
      List.length (species s') = (List.length (species s) * Z.to_nat (Z.abs (ZMdet T)))%nat /\
      List.length (frac_coords s') = (List.length (species s) * Z.to_nat (Z.abs (ZMdet T)))%nat /\
      coords s' = map (Mapp (lattice s')) (frac_coords s') /\
      forall i e x m, nth_error (species s) i = Some e -> nth_error (frac_coords s) i = Some x ->
        exists k y n, nth_error (species s') k = Some e /\ nth_error (frac_coords s') k = Some y /\
          Mapp (MofZ T) y = Vadd (Vadd x (VofZ m)) (Mapp (MofZ T) (VofZ n)).
Proof.
  intros s T Ti pt fuel HD HI H0 Hc Ht Hl1 Hl2 Hs Hf.
  assert (E : Ti = Madj_inv (MofZ T)).
  { apply (inverse_unique (MofZ T)); auto. apply Madj_inverse. eapply inverse_det; eauto. }
  subst Ti. destruct (cosets T HD) as (reps & rp & R1 & R2 & R3 & _ & R4 & R5 & R6).
  apply (apply_complete T s pt HD H0) with (reps := reps) (rp := rp); auto.
  intro k. assert (Q : vnth (@frac_tols_of RNum (lattice s) pt) k = pt / Vnorm (Ccol (lattice s) k)) by (destruct k as [|[|k]]; reflexivity).
  cbn [num RNum] in *. rewrite Q. specialize (Hc k). specialize (Ht k). split.
  - apply Rmult_le_pos; [auto|]. left. now apply Rinv_0_lt_compat.
  - apply (Rmult_le_reg_r (Vnorm (Ccol (lattice s) k))); [auto|]. field_simplify; lra.
Qed.
Print Assumptions C68_supercell_complete.

(** C26.  The special case of a change of primitive basis. *)
Theorem C26_basis_change_keeps_sites :
  forall (s : @structure RNum) (T : mat Z) (Ti : mat R) (pos_tol : R) (fuel : nat),
    ZMdet T = 1%Z \/ ZMdet T = (-1)%Z -> inverse_of (MofZ T) Ti ->
    0 <= pos_tol -> (forall k, 0 < Vnorm (Ccol (lattice s) k)) -> (forall k, pos_tol <= Vnorm (Ccol (lattice s) k)) ->
    List.length (frac_coords s) = List.length (species s) -> List.length (coords s) = List.length (species s) ->
    sites_separated s T Ti pos_tol ->
    exists s', @apply_transformation RNum (S fuel) s (MofZ T) pos_tol = Ok s' /\
      List.length (species s') = List.length (species s) /\
      List.length (frac_coords s') = List.length (species s) /\
      forall i e x, nth_error (species s) i = Some e -> nth_error (frac_coords s) i = Some x ->
        exists k y n, nth_error (species s') k = Some e /\ nth_error (frac_coords s') k = Some y /\
          Mapp (MofZ T) y = Vadd x (Mapp (MofZ T) (VofZ n)).
Proof.
  intros s T Ti pt fuel HD HI H0 Hc Ht Hl1 Hl2 Hs.
  assert (A : Z.abs (ZMdet T) = 1%Z) by lia.
  destruct (C68_supercell_complete s T Ti pt (S fuel)) as (s' & E & _ & N1 & N2 & _ & H); auto; try lia.
  rewrite A in N1, N2. change (Z.to_nat 1) with 1%nat in *. rewrite Nat.mul_1_r in *.
  exists s'. split; [auto|]. split; [auto|]. split; [auto|]. intros i e x He Hx.
  destruct (H i e x (V 0 0 0)%Z He Hx) as (k & y & n & Hk & Hy & Ey). exists k, y, n. split; [auto|]. split; [auto|].
  rewrite Ey, VofZ_0, Vadd_0_r. reflexivity.
Qed.
Print Assumptions C26_basis_change_keeps_sites.

(** a concrete case for C25, C26 and C68: the 2x1x1 supercell (and a sheared basis) of a cubic cell with one atom *)
Lemma int_norm_big (a : R) (m : vec R) : 0 < a -> a <= Rabs (vx m) \/ a <= Rabs (vy m) \/ a <= Rabs (vz m) -> a <= Vnorm m.
Proof.
  intros Ha H. apply Rsqr_incr_0_var; [|apply Vnorm_nonneg]. unfold Rsqr at 2. rewrite Vnorm_sq. unfold Vdot.
  assert (K : forall u : R, a <= Rabs u -> a * a <= u * u).
  { intros u Hu. rewrite <- (Rabs_mult_self u) || idtac. pose proof (Rsqr_abs u) as Q. unfold Rsqr in Q. rewrite Q. nra. }
  unfold Rsqr. destruct H as [H|[H|H]]; apply K in H; nra.
Qed.
Lemma IZR_abs_ge1 z : z <> 0%Z -> 1 <= Rabs (IZR z).
Proof. intro H. rewrite <- abs_IZR. apply IZR_le. lia. Qed.
Definition po (x : vec R) : @structure RNum := Structure (N := RNum) (cubic 4) ["Po"%string] [Mapp (cubic 4) x] [x].
Lemma po_columns x k : Vnorm (Ccol (lattice (po x)) k) = 4.
Proof.
  unfold Vnorm. replace (Vdot _ _) with (4 * 4).
  - apply sqrt_square. lra.
  - destruct k as [|[|k]]; unfold Vdot, po, cubic; cbn; ring.
Qed.
Lemma po_separated x : sites_separated (po x) (row_supercell 2) (M (/ 2) 0 0 0 1 0 0 0 1) (1 / 20).
Proof.
  intros i j u v m Hi Hj H. cbn in Hi, Hj.
  destruct i as [|[|i]]; try discriminate. destruct j as [|[|j]]; try discriminate.
  injection Hi as <-. injection Hj as <-. destruct H as [H|H]; [congruence|].
  apply Rlt_le_trans with 2; [lra|]. apply int_norm_big; [lra|].
  unfold po, cubic, Mapp, Vadd, Vsub, VofZ; cbn.
  destruct (Z.eq_dec (vx m) 0) as [E1|E1]; [destruct (Z.eq_dec (vy m) 0) as [E2|E2]; [destruct (Z.eq_dec (vz m) 0) as [E3|E3]|]|].
  - exfalso. apply H. exists (V 0 0 0)%Z. destruct m; cbn in *; subst; reflexivity.
  - right; right. apply IZR_abs_ge1 in E3. replace (_ + _ + _) with (4 * IZR (vz m)) by field.
    rewrite Rabs_mult, (Rabs_pos_eq 4) by lra. lra.
  - right; left. apply IZR_abs_ge1 in E2. replace (_ + _ + _) with (4 * IZR (vy m)) by field.
    rewrite Rabs_mult, (Rabs_pos_eq 4) by lra. lra.
  - left. apply IZR_abs_ge1 in E1. replace (_ + _ + _) with (2 * IZR (vx m)) by field.
    rewrite Rabs_mult, (Rabs_pos_eq 2) by lra. lra.
Qed.
Example C68_example x : exists s', @apply_transformation RNum 2 (po x) (MofZ (row_supercell 2)) (1 / 20) = Ok s' /\
  List.length (species s') = 2%nat.
Proof.
  destruct (C68_supercell_complete (po x) (row_supercell 2) (M (/ 2) 0 0 0 1 0 0 0 1) (1 / 20) 2) as (s' & E & _ & N & _).
  - cbn. lia.
  - split; unfold MofZ, row_supercell, Mmul, Mid; cbn; apply mat_ext; cbn; field.
  - lra.
  - intro k. rewrite po_columns. lra.
  - intro k. rewrite po_columns. lra.
  - reflexivity.
  - reflexivity.
  - apply po_separated.
  - cbn. lia.
  - exists s'. auto.
Qed.
Example C25_example x : exists s', @apply_transformation RNum 2 (po x) (MofZ (row_supercell 2)) (1 / 20) = Ok s' /\
  lattice s' = Mmul (cubic 4) (MofZ (row_supercell 2)).
Proof.
  destruct (C68_example x) as (s' & E & _). exists s'. split; auto.
  destruct (C25_apply_transformation_genuine_sites _ _ _ _ _ E) as (_ & H & _). exact H.
Qed.
Example C26_example x : exists s', @apply_transformation RNum 1 (po x) (MofZ (M 1 1 0 0 1 0 0 0 1)%Z) (1 / 20) = Ok s' /\
  List.length (species s') = 1%nat.
Proof.
  destruct (C26_basis_change_keeps_sites (po x) (M 1 1 0 0 1 0 0 0 1)%Z (M 1 (-1) 0 0 1 0 0 0 1) (1 / 20) 0) as (s' & E & N & _).
  - left. reflexivity.
  - split; unfold MofZ, Mmul, Mid; cbn; apply mat_ext; cbn; field.
  - lra.
  - intro k. rewrite po_columns. lra.
  - intro k. rewrite po_columns. lra.
  - reflexivity.
  - reflexivity.
  - intros i j u v m Hi Hj H. cbn in Hi, Hj.
    destruct i as [|[|i]]; try discriminate. destruct j as [|[|j]]; try discriminate.
    destruct H as [H|H]; [congruence|]. exfalso. apply H.
    exists (V (vx m - vy m) (vy m) (vz m))%Z. apply vec_ext; cbn [ZMapp vx vy vz m11 m12 m13 m21 m22 m23 m31 m32 m33]; ring.
  - exists s'. auto.
Qed.

(** C27.  Refuted: one atom, cubic cell edge 3, T = diag(40,1,1), tolerance 0.05: no number of passes is enough. *)
Theorem C27_supercell_terminates_refuted :
  exists (s : @structure RNum) (T : mat Z) (pos_tol : R),
    (0 < ZMdet T)%Z /\ 0 < pos_tol /\ Mdet (lattice s) <> 0 /\ List.length (species s) = 1%nat /\
    List.length (frac_coords s) = 1%nat /\
    forall fuel, @apply_transformation RNum fuel s (MofZ T) pos_tol = OutOfFuel.
Proof.
  exists (Structure (N := RNum) (cubic 3) ["Po"%string] [Mapp (cubic 3) V0] [V0]), (row_supercell 40), (1 / 20).
  split; [reflexivity|]. split; [lra|]. split; [unfold Mdet; cbn; lra|]. split; [reflexivity|]. split; [reflexivity|].
  apply (never_returns 3 (1 / 20) 40 V0 "Po"%string); try lra. lia.
Qed.
Print Assumptions C27_supercell_terminates_refuted.
(** The whole family: every cubic cell of edge a with one atom anywhere and every row of n cells with a/n <= 2*tol < a. *)
Theorem C27_row_supercells_diverge :
  forall (a pos_tol : R) (n : Z) (x : vec R) (e : string) (fuel : nat),
    0 < a -> (2 <= n)%Z -> pos_tol < a / 2 -> a / IZR n <= 2 * pos_tol ->
    @apply_transformation RNum fuel
      (Structure (N := RNum) (M a 0 0 0 a 0 0 0 a) [e] [Mapp (M a 0 0 0 a 0 0 0 a) x] [x])
      (MofZ (M n 0 0 0 1 0 0 0 1)%Z) pos_tol = OutOfFuel.
Proof. intros. now apply (never_returns a pos_tol n x e). Qed.
Print Assumptions C27_row_supercells_diverge.
Example C27_row_example : forall fuel, @apply_transformation RNum fuel
   (Structure (N := RNum) (M 1 0 0 0 1 0 0 0 1) ["Po"%string] [Mapp (M 1 0 0 0 1 0 0 0 1) V0] [V0])
   (MofZ (M 10 0 0 0 1 0 0 0 1)%Z) (1 / 20) = OutOfFuel.
Proof. intro. apply C27_row_supercells_diverge; try lra. lia. Qed.

(** C28. *)
Theorem C28_transformation_matrix_recovered :
  forall (P : @Pinv RNum) (s s' : @structure RNum) (T : mat R),
    pinv_inverts P -> well_conditioned (lattice s) ->
    (lattice s' = Mmul (lattice s) T \/
     exists fuel pos_tol, @apply_transformation RNum fuel s T pos_tol = Ok s') ->
    @get_transformation_matrix RNum P s s' = Ok T.
Proof.
  intros P s s' T HP HW H. assert (E : lattice s' = Mmul (lattice s) T).
  { destruct H as [H|(fuel & pt & H)]; auto. now destruct (apply_transformation_sound _ _ _ _ _ H) as (_ & E & _). }
  specialize (HP _ HW). unfold get_transformation_matrix. rewrite pseudo_inverse_R. cbn [of_opt bind].
  rewrite mmul_R. cbn [num RNum] in *. rewrite E, <- Mmul_assoc. destruct HP as [_ HP]. rewrite HP, Mmul_id_l. reflexivity.
Qed.
Print Assumptions C28_transformation_matrix_recovered.
Example C28_example : @get_transformation_matrix RNum cofactor_pinv
   (Structure (N := RNum) (cubic 2) [] [] []) (Structure (N := RNum) (M 2 2 0 0 2 0 0 0 4) [] [] []) = Ok (M 1 1 0 0 1 0 0 0 2).
Proof.
  apply C28_transformation_matrix_recovered.
  - exact cofactor_pinv_ok.
  - exact cubic2_well_conditioned.
  - left. unfold Mmul, cubic; cbn. apply mat_ext; cbn; ring.
Qed.

(** C29. *)
Theorem C29_reciprocal_lattice_dual :
  forall s : @structure RNum,
    (Mdet (lattice s) = 0 -> @reciprocal_lattice RNum s = Panic PLatticeNotInvertible) /\
    (Mdet (lattice s) <> 0 -> exists G, @reciprocal_lattice RNum s = Ok G /\
       forall i j, (i < 3)%nat -> (j < 3)%nat ->
         Vdot (Ccol (lattice s) i) (Ccol G j) = if Nat.eqb i j then 2 * PI else 0).
Proof.
  intro s. split; intro D; unfold reciprocal_lattice.
  - apply try_inverse_none in D. cbn [num RNum] in *. rewrite D. reflexivity.
  - rewrite try_inverse_R by exact D. eexists. split; [reflexivity|].
    pose proof (Madj_inv_l (lattice s) D) as I. set (B := Madj_inv (lattice s)) in *. intros i j Hi Hj.
    assert (Q : Vdot (Ccol (lattice s) i) (Ccol (@mscale_r RNum (@mscale_r RNum (transpose B) (@f2 RNum)) (@fpi RNum)) j)
                = 2 * PI * vnth (Ccol (Mmul B (lattice s)) i) j).
    { destruct i as [|[|[|i]]]; [| | |lia]; (destruct j as [|[|[|j]]]; [| | |lia]); unfold Vdot; cbn; ring. }
    etransitivity; [exact Q|]. rewrite I. destruct i as [|[|[|i]]]; [| | |lia]; (destruct j as [|[|[|j]]]; [| | |lia]); cbn; ring.
Qed.
Print Assumptions C29_reciprocal_lattice_dual.
Example C29_example : exists G, @reciprocal_lattice RNum (Structure (N := RNum) (M 1 1 0 0 2 0 0 0 3) [] [] []) = Ok G /\
  Vdot (V 1 2 0) (Ccol G 1) = 2 * PI.
Proof.
  destruct (C29_reciprocal_lattice_dual (Structure (N := RNum) (M 1 1 0 0 2 0 0 0 3) [] [] [])) as [_ H].
  destruct H as (G & E & H); [unfold Mdet; cbn; lra|]. exists G. split; [auto|]. exact (H 1%nat 1%nat ltac:(lia) ltac:(lia)).
Qed.

(** C30. *)
Theorem C30_cell_scalars :
  forall s : @structure RNum, Mdet (lattice s) <> 0 ->
    let L := lattice s in let g := @metric_tensor RNum s in
    (forall i j, (i < 3)%nat -> (j < 3)%nat -> vnth (Ccol g j) i = Vdot (Ccol L i) (Ccol L j)) /\
    @volume RNum s * @volume RNum s = Mdet g /\
    (forall k, @volume RNum (Structure (N := RNum) (Mmul L (M 1 k 0 0 1 0 0 0 1)) (species s) (coords s) (frac_coords s)) = @volume RNum s) /\
    @len_a RNum s * @len_a RNum s = m11 g /\ @len_b RNum s * @len_b RNum s = m22 g /\ @len_c RNum s * @len_c RNum s = m33 g /\
    (0 <= @alpha RNum s <= 180 /\ cos (@alpha RNum s * PI / 180) * @len_b RNum s * @len_c RNum s = m23 g) /\
    (0 <= @beta RNum s <= 180 /\ cos (@beta RNum s * PI / 180) * @len_a RNum s * @len_c RNum s = m13 g) /\
    (0 <= @gamma RNum s <= 180 /\ cos (@gamma RNum s * PI / 180) * @len_a RNum s * @len_b RNum s = m12 g).
Proof.
  intros s D L g. pose proof (det_nonzero_columns L D) as C.
  assert (G : forall i j, (i < 3)%nat -> (j < 3)%nat -> vnth (Ccol g j) i = Vdot (Ccol L i) (Ccol L j)).
  { intros i j Hi Hj. destruct i as [|[|[|i]]]; [| | |lia]; (destruct j as [|[|[|j]]]; [| | |lia]); reflexivity. }
  split; [exact G|]. unfold volume. rewrite !det_R.
  assert (Eg : g = Mmul (Mtr L) L) by reflexivity.
  split; [rewrite Eg, Mdet_mul, Mdet_tr; reflexivity|].
  split. { intro k. transitivity (Mdet (Mmul L (M 1 k 0 0 1 0 0 0 1))); [apply det_R|].
           rewrite Mdet_mul. transitivity (Mdet L * 1); [|apply Rmult_1_r]. f_equal. unfold Mdet; cbn; ring. }
  split; [exact (Vnorm_sq (Ccol L 0))|]. split; [exact (Vnorm_sq (Ccol L 1))|]. split; [exact (Vnorm_sq (Ccol L 2))|].
  split; [exact (angle_spec (Ccol L 1) (Ccol L 2) (C 1%nat) (C 2%nat))|].
  split; [exact (angle_spec (Ccol L 0) (Ccol L 2) (C 0%nat) (C 2%nat))|].
  exact (angle_spec (Ccol L 0) (Ccol L 1) (C 0%nat) (C 1%nat)).
Qed.
Print Assumptions C30_cell_scalars.
Example C30_example : 0 <= @gamma RNum (Structure (N := RNum) (M 1 1 0 0 2 0 0 0 3) [] [] []) <= 180 /\
  cos (@gamma RNum (Structure (N := RNum) (M 1 1 0 0 2 0 0 0 3) [] [] []) * PI / 180)
    * @len_a RNum (Structure (N := RNum) (M 1 1 0 0 2 0 0 0 3) [] [] [])
    * @len_b RNum (Structure (N := RNum) (M 1 1 0 0 2 0 0 0 3) [] [] []) = 1.
Proof.
  destruct (C30_cell_scalars (Structure (N := RNum) (M 1 1 0 0 2 0 0 0 3) [] [] [])) as (_ & _ & _ & _ & _ & _ & _ & _ & B & E).
  - unfold Mdet; cbn; lra.
  - split; [exact B|]. rewrite E. cbn. ring.
Qed.

(** C31. *)
Theorem C31_min_element :
  forall (H : HashOrd) (path : list nat) (names : list string),
    let n k := count_occ string_dec names k in
    (names = [] -> @get_min_element H path names = Panic PUnwrapNone) /\
    ((0 < Z.of_nat (List.length names) <= 65535)%Z ->
     exists e inds counts, @get_min_element H path names = Ok (e, inds, counts) /\
       In e names /\
       (forall k, In k names -> (n e < n k)%nat \/ (n e = n k /\ String.leb e k = true)) /\
       (NoDup (map fst counts) /\ forall k c, In (k, c) counts <-> In k names /\ c = Z.of_nat (n k)) /\
       (NoDup (map fst inds) /\ forall k i, In (k, i) inds <->
          exists j, i = Z.of_nat j /\ nth_error names j = Some k /\ forall j', (j' < j)%nat -> nth_error names j' <> Some k)).
Proof.
  intros H path names n. split.
  - intros ->. unfold get_min_element. cbn [fold_left combine seq List.length].
    assert (E : hord path (@nil (string * Z)) = []) by (apply Permutation_nil, Permutation_sym, hord_perm).
    rewrite E. reflexivity.
  - intro L. destruct (@get_min_element_spec H path names L) as (e & inds & counts & E & He & Hm & Hi & Ht).
    exists e, inds, counts. split; [exact E|]. split; [exact He|]. split; [|split; [exact Ht|exact Hi]].
    intros k Hk. unfold n. destruct (Hm k Hk) as [Q|[Q Q']]; [left; lia|right; split; [lia|exact Q']].
Qed.
Print Assumptions C31_min_element.
Example C31_example : exists inds counts,
  @get_min_element hid [] ["O"; "Ti"; "O"; "Ba"; "O"]%string = Ok ("Ba"%string, inds, counts).
Proof. eexists. eexists. vm_compute. reflexivity. Qed.

(** C67.  Refuted: 65536 sites of A and one of B: the 16-bit count of A wraps to 0 and A is reported. *)
Theorem C67_min_element_any_size_refuted :
  exists names : list string,
    (forall k, In k names -> count_occ string_dec names "B"%string <= count_occ string_dec names k)%nat /\
    In "B"%string names /\ (count_occ string_dec names "B"%string < count_occ string_dec names "A"%string)%nat /\
    forall (H : HashOrd) path, exists inds counts, @get_min_element H path names = Ok ("A"%string, inds, counts).
Proof.
  assert (HN : exists n, Z.of_nat n = 65536%Z) by (exists (Z.to_nat 65536); rewrite Z2Nat.id; lia).
  destruct HN as [n HN]. exists ("B"%string :: repeat "A"%string n).
  assert (CB : count_occ string_dec ("B"%string :: repeat "A"%string n) "B"%string = 1%nat).
  { cbn [count_occ]. destruct (string_dec "B"%string "B"%string) as [_|N]; [|congruence]. apply (f_equal S), count_occ_not_In.
    intro Hi. apply repeat_spec in Hi. discriminate. }
  assert (CA : count_occ string_dec ("B"%string :: repeat "A"%string n) "A"%string = n).
  { cbn [count_occ]. destruct (string_dec "B"%string "A"%string) as [e|_]; [discriminate|]. now rewrite count_occ_repeat_eq. }
  rewrite CA, CB. split; [|split; [now left|split; [lia|]]].
  - intros k Hk. apply (count_occ_In string_dec) in Hk. lia.
  - intros H path. unfold get_min_element. cbn [fold_left]. rewrite tally_repeat_wrap by lia. rewrite HN.
    change (wrap_u16 65536) with 0%Z.
    destruct (Permutation_length_2_inv (Permutation_sym (hord_perm path _ [("B"%string, 1%Z); ("A"%string, 0%Z)]))) as [E|E];
      rewrite E; cbn [bind]; eexists; eexists; reflexivity.
Qed.
Print Assumptions C67_min_element_any_size_refuted.

(** C32. *)
Theorem C32_formulas :
  forall (H : HashOrd) (path : list nat) (names : list string),
    let n k := Z.of_nat (count_occ string_dec names k) in
    let g := zgcd_list (map n names) in
    let text e c := String.append e (if (c =? 1)%Z then ""%string else NilZero.string_of_int (Z.to_int c)) in
    (forall k, (n k <= 126)%Z) ->
    exists els, NoDup els /\ StronglySorted (fun a b => String.leb a b = true) els /\ (forall k, In k els <-> In k names) /\
      @formulas H path names =
        (String.concat ""%string (map (fun k => text k (n k)) els),
         String.concat ""%string (map (fun k => text k (n k / g)%Z) els)).
Proof. intros H path names n g text HB. exact (@formulas_spec H path names HB). Qed.
Print Assumptions C32_formulas.
Example C32_example : @formulas hid [] ["O"; "Ti"; "O"; "Ti"; "O"; "O"]%string = ("O4Ti2"%string, "O2Ti"%string).
Proof. vm_compute. reflexivity. Qed.

(** C33.  Refuted: with 128 sites of one element the i8 count wraps, with 127 the formula is not reduced. *)
Theorem C33_formulas_any_size_refuted :
  (forall H : HashOrd, @formulas H [] (repeat "H"%string 128) = ("H-128"%string, "H-128"%string)) /\
  (forall H : HashOrd, @formulas H [] (repeat "H"%string 127) = ("H127"%string, "H127"%string)) /\
  zgcd_list (map (fun k => Z.of_nat (count_occ string_dec (repeat "H"%string 127) k)) (repeat "H"%string 127)) = 127%Z.
Proof.
  assert (HS : forall (H : HashOrd) p (x : string * Z), hord p [x] = [x]).
  { intros H p x. apply Permutation_length_1_inv. apply Permutation_sym, hord_perm. }
  split; [|split].
  - intro H. unfold formulas. replace (fold_left tally_step (repeat "H"%string 128) ([], 0%Z)) with ([("H"%string, (-128)%Z)], 127%Z)
      by (vm_compute; reflexivity). rewrite !HS. vm_compute. reflexivity.
  - intro H. unfold formulas. replace (fold_left tally_step (repeat "H"%string 127) ([], 0%Z)) with ([("H"%string, 127%Z)], 127%Z)
      by (vm_compute; reflexivity). rewrite !HS. vm_compute. reflexivity.
  - vm_compute. reflexivity.
Qed.
Print Assumptions C33_formulas_any_size_refuted.

(** C34. *)
Theorem C34_delaunay_matrix :
  forall s : @structure RNum, exists d,
    @delaunay_matrix RNum s = [Ccol (lattice s) 0; Ccol (lattice s) 1; Ccol (lattice s) 2; d] /\
    Vadd (Vadd (Vadd (Ccol (lattice s) 0) (Ccol (lattice s) 1)) (Ccol (lattice s) 2)) d = V0.
Proof.
  intro s. eexists. split; [reflexivity|]. unfold vscale, vmap, vadd, vmap2, Vadd, V0.
  apply vec_ext; cbn; ring.
Qed.
Print Assumptions C34_delaunay_matrix.
Example C34_example : exists d, @delaunay_matrix RNum (Structure (N := RNum) (M 1 1 0 0 2 0 0 0 3) [] [] []) = [V 1 0 0; V 1 2 0; V 0 0 3; d] /\
  d = V (-2) (-2) (-3).
Proof. eexists. split; [reflexivity|]. apply vec_ext; cbn; lra. Qed.
