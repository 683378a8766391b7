(** Proofs about structure.rs: construction, normalization, cell quantities. *)
From Coq Require Import ZArith Reals String List Bool Lia Lra Psatz Permutation Sorting.Sorted.
From Flocq Require Import Core.Raux.
From Verif Require Import Num Mat Utils SpaceGroup Structure RInst Spec RFacts PUtils PSort.
Import ListNotations.
Open Scope R_scope.

Notation rstruct := (@structure RNum).

Lemma zero_tol_nonneg : @flt RNum (@ZERO_TOL RNum) (@f0 RNum) = false.
Proof. apply flt_false. unfold ZERO_TOL, flit, f0; cbn. lra. Qed.
Lemma pseudo_inverse_R (P : @Pinv RNum) (m : mat R) :
  @pseudo_inverse RNum P (@ZERO_TOL RNum) m = Some (@pinv RNum P m).
Proof. unfold pseudo_inverse. rewrite zero_tol_nonneg. reflexivity. Qed.

Lemma map_id_in {A} (f : A -> A) l : (forall x, In x l -> f x = x) -> map f l = l.
Proof. intro H. rewrite <- (map_id l) at 2. apply map_ext_in. auto. Qed.

Lemma inv_app a b v : inverse_of a b -> Mapp a (Mapp b v) = v.
Proof. intros [H _]. rewrite <- Mapp_Mmul, H, Mapp_id. reflexivity. Qed.

(** ** null vectors of singular matrices (to exhibit a pseudo inverse) *)
Lemma singular_null (m : mat R) : Mdet m = 0 -> exists v, v <> V0 /\ Mapp m v = V0.
Proof.
  intro D. destruct m as [a b c d e f g h i]. unfold Mdet in D; cbn [m11 m12 m13 m21 m22 m23 m31 m32 m33] in D.
  assert (K : forall x y z : R, (x <> 0 \/ y <> 0 \/ z <> 0) -> V x y z <> V0).
  { intros x y z H E. injection E. intros. lra. }
  assert (F : forall x y z : R, a * x + b * y + c * z = 0 -> d * x + e * y + f * z = 0 -> g * x + h * y + i * z = 0 ->
     (x <> 0 \/ y <> 0 \/ z <> 0) -> exists v, v <> V0 /\ Mapp (M a b c d e f g h i) v = V0).
  { intros x y z E1 E2 E3 N. exists (V x y z). split; [auto|]. unfold Mapp, V0; cbn. now rewrite E1, E2, E3. }
  destruct (Req_dec (e * i - f * h) 0) as [Z1|Z1].
  2: { apply (F (e * i - f * h) (f * g - d * i) (d * h - e * g)); [lra|ring|ring|auto]. }
  destruct (Req_dec (f * g - d * i) 0) as [Z2|Z2].
  2: { apply (F (e * i - f * h) (f * g - d * i) (d * h - e * g)); [lra|ring|ring|auto]. }
  destruct (Req_dec (d * h - e * g) 0) as [Z3|Z3].
  2: { apply (F (e * i - f * h) (f * g - d * i) (d * h - e * g)); [lra|ring|ring|auto]. }
  destruct (Req_dec (c * h - b * i) 0) as [Z4|Z4].
  2: { apply (F (c * h - b * i) (a * i - c * g) (b * g - a * h)); [ring|lra|ring|auto]. }
  destruct (Req_dec (a * i - c * g) 0) as [Z5|Z5].
  2: { apply (F (c * h - b * i) (a * i - c * g) (b * g - a * h)); [ring|lra|ring|auto]. }
  destruct (Req_dec (b * g - a * h) 0) as [Z6|Z6].
  2: { apply (F (c * h - b * i) (a * i - c * g) (b * g - a * h)); [ring|lra|ring|auto]. }
  destruct (Req_dec (b * f - c * e) 0) as [Z7|Z7].
  2: { apply (F (b * f - c * e) (c * d - a * f) (a * e - b * d)); [ring|ring|lra|auto]. }
  destruct (Req_dec (c * d - a * f) 0) as [Z8|Z8].
  2: { apply (F (b * f - c * e) (c * d - a * f) (a * e - b * d)); [ring|ring|lra|auto]. }
  destruct (Req_dec (a * e - b * d) 0) as [Z9|Z9].
  2: { apply (F (b * f - c * e) (c * d - a * f) (a * e - b * d)); [ring|ring|lra|auto]. }
  (* rank at most one *)
  destruct (Req_dec a 0) as [A|A].
  2: { apply (F (- b) a 0); [ring|lra|lra|right; left; exact A]. }
  destruct (Req_dec d 0) as [B|B].
  2: { apply (F (- e) d 0); [lra|ring|lra|right; left; exact B]. }
  destruct (Req_dec g 0) as [C|C].
  2: { apply (F (- h) g 0); [lra|lra|ring|right; left; exact C]. }
  apply (F 1 0 0); [rewrite A; ring|rewrite B; ring|rewrite C; ring|left; lra].
Qed.
Lemma well_conditioned_det m : well_conditioned m -> Mdet m <> 0.
Proof.
  intros W D. destruct (singular_null m D) as (v & Hv & E). specialize (W v Hv). rewrite E in W.
  assert (N0 : Vnorm V0 = 0) by (unfold Vnorm, Vdot, V0; cbn; rewrite !Rmult_0_l, !Rplus_0_l; apply sqrt_0).
  rewrite N0 in W. pose proof (sqrt_pos (Vdot v v)). unfold Vnorm in W. lra.
Qed.
(** a pseudo inverse meeting the contract *)
Definition cofactor_pinv : @Pinv RNum := Madj_inv.
Lemma cofactor_pinv_ok m : well_conditioned m -> inverse_of m (@pinv RNum cofactor_pinv m).
Proof. intro W. apply Madj_inverse, well_conditioned_det, W. Qed.

(** ** normalize_coords *)
Lemma sites_named_map {A B} (f : A -> B) e names xs :
  sites_named e names (map f xs) = map f (sites_named e names xs).
Proof.
  unfold sites_named. revert xs. induction names as [|n names IH]; intros [|x xs]; cbn; auto.
  destruct (String.eqb n e); cbn; rewrite IH; reflexivity.
Qed.
Lemma normalize_coords_zip (s : rstruct) (pos_tol : R) :
  let ft := @frac_tols_of RNum (lattice s) pos_tol in
  let fc := @normalize_frac_vectors RNum (frac_coords s) ft in
  exists z, Permutation z (combine (species s) fc) /\
    StronglySorted (fun a b => String.leb (fst a) (fst b) = true) z /\
    (forall e, filter (fun p => String.eqb (fst p) e) z = filter (fun p => String.eqb (fst p) e) (combine (species s) fc)) /\
    @normalize_coords RNum s pos_tol =
      Structure (N := RNum) (lattice s) (map fst z) (map (Mapp (lattice s)) (map snd z)) (map snd z).
Proof.
  intros ft fc.
  set (zipped := combine (species s) (combine (map (Mapp (lattice s)) fc) fc)).
  set (pr := fun t : string * (vec R * vec R) => (fst t, snd (snd t))).
  assert (Z0 : map pr zipped = combine (species s) fc).
  { unfold zipped. generalize (species s) as sp. generalize fc. clear.
    intro fc. induction fc as [|x fc IH]; intros [|n sp]; cbn; auto. f_equal. apply IH. }
  assert (ZC : forall t, In t zipped -> fst (snd t) = Mapp (lattice s) (snd (snd t))).
  { unfold zipped. intros [n [c x]] Ht. apply in_combine_r in Ht. cbn.
    apply (In_nth_error) in Ht. destruct Ht as [k Hk].
    generalize dependent k. clear. induction fc as [|y fc IH]; intros [|k]; cbn; try discriminate; auto.
    - intro E. injection E as <- <-. reflexivity.
    - apply IH. }
  set (sorted := sort_by (fun a b => str_le (fst a) (fst b)) zipped).
  pose proof (sort_perm fst zipped) as Pm. fold sorted in Pm.
  exists (map pr sorted). split; [|split; [|split]].
  - rewrite <- Z0. now apply Permutation_map.
  - apply SS_map. exact (sort_sorted fst zipped).
  - intro e. rewrite <- Z0. unfold sorted.
    assert (FM : forall l : list (string * (vec R * vec R)),
       filter (fun p => String.eqb (fst p) e) (map pr l) = map pr (filter (fun t => String.eqb (fst t) e) l)).
    { induction l as [|t l IH]; cbn; auto. destruct (String.eqb (fst t) e); cbn; rewrite IH; reflexivity. }
    rewrite !FM. f_equal. exact (sort_stable fst e zipped).
  - unfold normalize_coords. fold ft. fold fc.
    change (@get_cart_coords RNum (lattice s) fc) with (map (Mapp (lattice s)) fc).
    change (combine (species s) (combine (map (Mapp (lattice s)) fc) fc)) with zipped.
    fold sorted. rewrite !map_map. f_equal.
    apply map_ext_in. intros t Ht. apply ZC. eapply Permutation_in; eauto.
Qed.

Lemma Forall2_map_r {A B} (P : A -> B -> Prop) (f : A -> B) l : (forall a, P a (f a)) -> Forall2 P l (map f l).
Proof. intro H. induction l; cbn; constructor; auto. Qed.

Lemma normalize_coords_spec (s : rstruct) (pos_tol : R) :
  let s' := @normalize_coords RNum s pos_tol in
  lattice s' = lattice s /\
  List.length (species s') = List.length (frac_coords s') /\
  List.length (species s') = Nat.min (List.length (species s)) (List.length (frac_coords s)) /\
  StronglySorted (fun a b => String.leb a b = true) (species s') /\
  coords s' = map (Mapp (lattice s)) (frac_coords s') /\
  (forall e, Forall2 (fun x y => exists n, y = Vadd x (VofZ n))
               (sites_named e (species s) (frac_coords s)) (sites_named e (species s') (frac_coords s'))) /\
  (0 <= pos_tol -> (forall k, pos_tol <= Vnorm (Ccol (lattice s) k)) -> (forall k, 0 < Vnorm (Ccol (lattice s) k)) ->
   forall x k, In x (frac_coords s') ->
     - (pos_tol / Vnorm (Ccol (lattice s) k)) <= vnth x k <= 1 - pos_tol / Vnorm (Ccol (lattice s) k)).
Proof.
  intro s'. destruct (normalize_coords_zip s pos_tol) as (z & Pm & St & Sb & E). fold s' in E.
  set (ft := @frac_tols_of RNum (lattice s) pos_tol) in *.
  rewrite E; cbn [lattice species coords frac_coords]. clear s' E.
  split; [auto|]. split; [now rewrite !map_length|].
  split. { rewrite map_length, (Permutation_length Pm), combine_length. unfold normalize_frac_vectors. now rewrite map_length. }
  split; [apply SS_map; exact St|]. split; [reflexivity|]. split.
  - intro e. assert (N : sites_named e (map fst z) (map snd z) = sites_named e (species s) (@normalize_frac_vectors RNum (frac_coords s) ft)).
    { unfold sites_named. rewrite combine_split_map, Sb. reflexivity. }
    rewrite N. unfold normalize_frac_vectors. rewrite sites_named_map. apply Forall2_map_r.
    intro a. apply normalize_vec_shift.
  - intros H0 Hle Hpos x k Hx. apply in_map_iff in Hx. destruct Hx as ([n y] & <- & Hy). cbn.
    eapply Permutation_in in Hy; [|exact Pm]. apply in_combine_r in Hy.
    unfold normalize_frac_vectors in Hy. apply in_map_iff in Hy. destruct Hy as (w & <- & _).
    rewrite normalize_vec_vnth_R. numR.
    assert (Q : vnth ft k = pos_tol / Vnorm (Ccol (lattice s) k)) by (destruct k as [|[|k]]; reflexivity).
    numR. rewrite Q. specialize (Hle k). specialize (Hpos k).
    apply normalize1_range. split.
    + apply Rmult_le_pos; [auto|]. left. now apply Rinv_0_lt_compat.
    + apply (Rmult_le_reg_r (Vnorm (Ccol (lattice s) k))); [auto|]. field_simplify; lra.
Qed.

(** ** cell quantities *)
Lemma Vdot_nonneg v : 0 <= Vdot v v.
Proof. unfold Vdot. nra. Qed.
Lemma Vnorm_sq v : Vnorm v * Vnorm v = Vdot v v.
Proof. unfold Vnorm. apply sqrt_sqrt, Vdot_nonneg. Qed.
Lemma Vnorm_nonneg v : 0 <= Vnorm v. Proof. apply sqrt_pos. Qed.
Lemma cauchy_schwarz a b : Vdot a b * Vdot a b <= Vdot a a * Vdot b b.
Proof.
  assert (E : Vdot a a * Vdot b b - Vdot a b * Vdot a b = Vdot (Vcross a b) (Vcross a b)).
  { unfold Vdot, Vcross; cbn. ring. }
  pose proof (Vdot_nonneg (Vcross a b)). lra.
Qed.
Lemma Vdot_bound a b : Rabs (Vdot a b) <= Vnorm a * Vnorm b.
Proof.
  apply Rsqr_incr_0_var; [|apply Rmult_le_pos; apply Vnorm_nonneg].
  rewrite <- Rsqr_abs. unfold Rsqr. pose proof (cauchy_schwarz a b).
  replace (Vnorm a * Vnorm b * (Vnorm a * Vnorm b)) with ((Vnorm a * Vnorm a) * (Vnorm b * Vnorm b)) by ring.
  now rewrite !Vnorm_sq.
Qed.
Lemma angle_spec (a b : vec R) : 0 < Vnorm a -> 0 < Vnorm b ->
  let x := Vdot a b / (Rabs (Vnorm a) * Rabs (Vnorm b)) in
  let deg := acos x * (180 / PI) in
  0 <= deg <= 180 /\ cos (deg * PI / 180) * Vnorm a * Vnorm b = Vdot a b.
Proof.
  intros Ha Hb. cbv zeta. rewrite (Rabs_pos_eq (Vnorm a)), (Rabs_pos_eq (Vnorm b)) by lra.
  set (x := Vdot a b / (Vnorm a * Vnorm b)). set (deg := acos x * (180 / PI)).
  pose proof (Vdot_bound a b) as B. apply Rabs_le_inv in B.
  assert (P : 0 < Vnorm a * Vnorm b) by now apply Rmult_lt_0_compat.
  assert (X : -1 <= x <= 1).
  { unfold x. split; apply (Rmult_le_reg_r (Vnorm a * Vnorm b)); auto; field_simplify; lra. }
  pose proof (acos_bound x) as AB. pose proof PI_RGT_0.
  split.
  - unfold deg. split.
    + apply Rmult_le_pos; [lra|]. apply Rlt_le, Rdiv_lt_0_compat; lra.
    + replace 180 with (PI * (180 / PI)) at 2 by (field; lra).
      apply Rmult_le_compat_r; [|lra]. apply Rlt_le, Rdiv_lt_0_compat; lra.
  - replace (deg * PI / 180) with (acos x) by (unfold deg; field; lra).
    rewrite cos_acos by exact X. unfold x. field. split; lra.
Qed.
Lemma det_nonzero_columns (m : mat R) : Mdet m <> 0 -> forall k, 0 < Vnorm (Ccol m k).
Proof.
  intros D k. destruct (Rle_lt_or_eq_dec _ _ (Vnorm_nonneg (Ccol m k))) as [|E]; auto.
  exfalso. apply D. pose proof (Vnorm_sq (Ccol m k)) as Q. rewrite <- E in Q.
  assert (Z : vx (Ccol m k) = 0 /\ vy (Ccol m k) = 0 /\ vz (Ccol m k) = 0).
  { unfold Vdot in Q. repeat split; nra. }
  unfold Mdet. destruct k as [|[|k]]; cbn in Z; destruct Z as (-> & -> & ->); ring.
Qed.
Lemma Ccol_app m k : Ccol m k = Mapp m (match k with O => V 1 0 0 | S O => V 0 1 0 | _ => V 0 0 1 end).
Proof. destruct k as [|[|k]]; apply vec_ext; cbn; ring. Qed.
