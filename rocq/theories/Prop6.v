(** C35 - C40, C69, C70: Reducer::niggli_reduce *)
From Coq Require Import ZArith QArith Qreals Reals String List Bool Lia Lra Psatz Permutation Sorting.Sorted.
From Flocq Require Import Core IEEE754.BinarySingleNaN.
From Verif Require Import Num Mat Structure Reduce RInst FInst QInst Spec RFacts PFloat PStructure PNiggli PNiggliQ PNiggliF Prop5.
Import ListNotations.
Open Scope R_scope.

(** The crate's epsilon: tol times the cube root of the volume. *)
Definition niggli_eps (s : @structure RNum) (tol : R) : R := tol * Rpower (Mdet (lattice s)) (1 / 3).

(** C35. *)
Theorem C35_niggli_same_lattice :
  forall (P : @Pinv RNum) (dtol tol : R) (s s' : @structure RNum),
    0 < Mdet (lattice s) -> 0 <= niggli_eps s tol < 1 -> @niggli_reduce RNum P dtol s tol = Ok s' ->
    exists T, ZMdet T = 1%Z /\ lattice s' = Mmul (lattice s) (MofZ T) /\
      Mdet (lattice s') = Mdet (lattice s) /\ same_lattice (lattice s) (lattice s').
Proof.
  intros P dtol tol s s' HD He E. destruct (niggli_reduce_spec P dtol s s' tol HD He E) as (T & HT & -> & _).
  exists T. rewrite rebuilt_lattice. split; [exact HT|]. split; [reflexivity|]. split.
  - rewrite Mdet_mul, MofZ_det, HT. lra.
  - destruct (unimodular_inverse T (or_introl HT)) as (Ti & HI). exact (unimodular_same_lattice _ _ _ HI).
Qed.
Print Assumptions C35_niggli_same_lattice.

(** C36. *)
Theorem C36_niggli_keeps_sites :
  forall (P : @Pinv RNum) (dtol tol : R) (s s' : @structure RNum),
    0 < Mdet (lattice s) -> 0 <= niggli_eps s tol < 1 -> @niggli_reduce RNum P dtol s tol = Ok s' ->
    pinv_inverts P -> well_conditioned (lattice s') ->
    (forall e, Forall2 (fun x y => exists n, y = Vadd x (Mapp (lattice s') (VofZ n)))
                 (sites_named e (species s) (coords s)) (sites_named e (species s') (coords s'))) /\
    List.length (species s') = List.length (coords s') /\
    List.length (species s') = Nat.min (List.length (species s)) (List.length (coords s)) /\
    StronglySorted (fun a b => String.leb a b = true) (species s') /\
    coords s' = map (Mapp (lattice s')) (frac_coords s').
Proof.
  intros P dtol tol s s' HD He E HP HW. destruct (niggli_reduce_spec P dtol s s' tol HD He E) as (T & HT & -> & _).
  rewrite rebuilt_lattice in *. split.
  - intro e. apply rebuilt_sites. now apply HP.
  - apply rebuilt_basic.
Qed.
Print Assumptions C36_niggli_keeps_sites.

(** C37. *)
Theorem C37_niggli_reduced :
  forall (P : @Pinv RNum) (dtol tol : R) (s s' : @structure RNum),
    0 < Mdet (lattice s) -> 0 <= niggli_eps s tol < 1 -> @niggli_reduce RNum P dtol s tol = Ok s' ->
    niggli_within (niggli_eps s tol) (gram (lattice s')).
Proof.
  intros P dtol tol s s' HD He E. destruct (niggli_reduce_spec P dtol s s' tol HD He E) as (T & HT & -> & NW).
  rewrite rebuilt_lattice. exact NW.
Qed.
Print Assumptions C37_niggli_reduced.

(** C38. *)
Theorem C38_niggli_idempotent :
  forall (P : @Pinv RNum) (dtol tol : R) (s s' : @structure RNum),
    0 < Mdet (lattice s) -> 0 <= niggli_eps s tol < 1 -> @niggli_reduce RNum P dtol s tol = Ok s' ->
    let g := gram (lattice s') in let eps := niggli_eps s tol in
    2 * m23 g <> eps -> 2 * m13 g <> eps -> 2 * m12 g <> eps ->
    exists s'', @niggli_reduce RNum P dtol s' tol = Ok s'' /\ lattice s'' = lattice s'.
Proof.
  intros P dtol tol s s' HD He E g eps N1 N2 N3.
  destruct (C35_niggli_same_lattice P dtol tol s s' HD He E) as (T & _ & _ & ED & _).
  pose proof (C37_niggli_reduced P dtol tol s s' HD He E) as NW.
  assert (EE : niggli_eps s' tol = niggli_eps s tol) by (unfold niggli_eps; now rewrite ED).
  apply niggli_fixed; [now rewrite ED|..]; fold (niggli_eps s' tol); rewrite EE; auto.
Qed.
Print Assumptions C38_niggli_idempotent.

(** A run for C35 - C38: the primitive cubic lattice in a basis sheared by ten cells. *)
Definition sheared (n : Z) : @structure RNum :=
  Structure (N := RNum) (MofZ (M 1 n 0 0 1 0 0 0 1)%Z) ["Po"%string] [V 0 0 0] [V 0 0 0].
Lemma sheared_det n : Mdet (lattice (sheared n)) = 1.
Proof. unfold Mdet; cbn. ring. Qed.
Lemma sheared_eps n tol : niggli_eps (sheared n) tol = tol.
Proof.
  unfold niggli_eps. rewrite sheared_det. unfold Rpower. rewrite ln_1, Rmult_0_r, exp_0. ring.
Qed.
Example C35_38_example :
  exists s', @niggli_reduce RNum cofactor_pinv (1 / 20) (sheared 10) (1 / 100000) = Ok s' /\ gram (lattice s') = Mid /\
    ZMdet (M (-1) 0 0 0 0 1 0 1 0)%Z = 1%Z /\ lattice s' = MofZ (M (-1) 0 0 0 0 1 0 1 0)%Z /\
    exists s'', @niggli_reduce RNum cofactor_pinv (1 / 20) s' (1 / 100000) = Ok s'' /\ lattice s'' = lattice s'.
Proof.
  assert (R1 : @niggli_loop QNum 100 (1 # 100000) (zgram (M 1 10 0 0 1 0 0 0 1)%Z, @midentity QNum)
    = Ok (@mcast QNum (M 1 0 0 0 1 0 0 0 1)%Z, @mcast QNum (M (-1) 0 (-10) 0 0 1 0 1 0)%Z)) by (vm_compute; reflexivity).
  assert (E : exists s', @niggli_reduce RNum cofactor_pinv (1 / 20) (sheared 10) (1 / 100000) = Ok s' /\
                lattice s' = MofZ (M (-1) 0 0 0 0 1 0 1 0)%Z).
  { rewrite (niggli_run _ _ _ _ (M 1 10 0 0 1 0 0 0 1)%Z (1 # 100000)), R1.
    - eexists. split; [reflexivity|]. rewrite rebuilt_lattice. cbn [snd]. rewrite <- q_mcast, <- MofZ_mul. reflexivity.
    - reflexivity.
    - rewrite sheared_det, cbrt_1. unfold Q2R. cbn. lra. }
  destruct E as (s' & E & EL). exists s'. split; [exact E|].
  assert (G : gram (lattice s') = Mid). { rewrite EL. unfold gram, Mmul, Mtr, MofZ, Mid; cbn. apply mat_ext; cbn; ring. }
  split; [exact G|]. split; [reflexivity|]. split; [exact EL|].
  apply (C38_niggli_idempotent cofactor_pinv (1 / 20) (1 / 100000) (sheared 10)); rewrite ?sheared_eps, ?sheared_det, ?G; auto; cbn; lra.
Qed.

(** C39.  Refuted: the cubic lattice sheared by one hundred cells exhausts the 100 iterations, in exact arithmetic and in
    binary64 (for every cube root function with cbrt 1 = 1). *)
Lemma sheared_well_conditioned n : (0 <= n <= 100)%Z -> well_conditioned (lattice (sheared n)).
Proof.
  intros Hn v Hv. apply Rsqr_incrst_0; [|apply Rmult_le_pos; [lra|apply Vnorm_nonneg]|apply Vnorm_nonneg].
  rewrite Rsqr_mult. unfold Rsqr. rewrite !Vnorm_sq. destruct v as [x y z].
  unfold Vdot, Mapp, sheared, MofZ. cbn [lattice m11 m12 m13 m21 m22 m23 m31 m32 m33 vx vy vz].
  set (k := IZR n). assert (Hk : 0 <= k <= 100) by (unfold k; split; apply IZR_le; lia).
  assert (HP : 0 < x * x + y * y + z * z).
  { destruct (Rle_or_lt (x * x + y * y + z * z) 0) as [H|H]; auto. exfalso. apply Hv. unfold V0. f_equal; nra. }
  replace ((1 * x + k * y + 0 * z) * (1 * x + k * y + 0 * z) + (0 * x + 1 * y + 0 * z) * (0 * x + 1 * y + 0 * z) +
           (0 * x + 0 * y + 1 * z) * (0 * x + 0 * y + 1 * z)) with ((x + k * y) * (x + k * y) + y * y + z * z) by ring.
  assert (B : x * x <= 2 * ((x + k * y) * (x + k * y)) + 2 * (100 * 100) * (y * y)).
  { assert (x * x <= 2 * ((x + k * y) * (x + k * y)) + 2 * ((k * y) * (k * y))).
    { pose proof (Rle_0_sqr (x + 2 * (k * y))) as Q. unfold Rsqr in Q. nra. }
    assert (k * y * (k * y) <= 100 * 100 * (y * y)); [|lra].
    replace (k * y * (k * y)) with (k * k * (y * y)) by ring. apply Rmult_le_compat_r; nra. }
  pose proof (Rle_0_sqr (x + k * y)) as Q1. pose proof (Rle_0_sqr y) as Q2. pose proof (Rle_0_sqr z) as Q3. unfold Rsqr in Q1, Q2, Q3.
  lra.
Qed.
Definition fsheared {Lm : Libm} : @structure (@FNum Lm) :=
  Structure (N := @FNum Lm) (@mcast (@FNum Lm) (M 1 100 0 0 1 0 0 0 1)%Z) ["Po"%string] [@vcast (@FNum Lm) (V 0 0 0)%Z] [@vcast (@FNum Lm) (V 0 0 0)%Z].
Theorem C39_niggli_succeeds_refuted :
  (exists (s : @structure RNum) (tol : R),
     0 < Mdet (lattice s) /\ well_conditioned (lattice s) /\ 0 < niggli_eps s tol < 1 /\
     forall (P : @Pinv RNum) (dtol : R), @niggli_reduce RNum P dtol s tol = Panic PNiggli) /\
  (forall (Lm : Libm) (P : @Pinv (@FNum Lm)) (dtol : f64), libm_cbrt (F_of_Z 1) = F_of_Z 1 ->
     @niggli_reduce (@FNum Lm) P dtol fsheared (@flit (@FNum Lm) 1 100000) = Panic PNiggli).
Proof.
  split.
  - exists (sheared 100), (1 / 100000). rewrite sheared_det, sheared_eps. split; [lra|]. split; [now apply sheared_well_conditioned|].
    split; [lra|]. intros P dtol. rewrite (niggli_run _ _ _ _ (M 1 100 0 0 1 0 0 0 1)%Z (1 # 100000)).
    + replace (@niggli_loop QNum 100 (1 # 100000) (zgram (M 1 100 0 0 1 0 0 0 1)%Z, @midentity QNum)) with (@Panic (mat Q * mat Q) PNiggli)
        by (vm_compute; reflexivity). reflexivity.
    + reflexivity.
    + rewrite sheared_det, cbrt_1. unfold Q2R. cbn. lra.
  - intros Lm P dtol H. unfold niggli_reduce, epsilon_of.
    assert (EV : @volume (@FNum Lm) fsheared = F_of_Z 1) by (apply f64_eq; vm_compute; reflexivity).
    rewrite EV. change (@fcbrt (@FNum Lm) (F_of_Z 1)) with (libm_cbrt (F_of_Z 1)). rewrite H.
    replace (@niggli_loop (@FNum Lm) 100 _ _) with (@Panic (mat f64 * mat f64) PNiggli) by (vm_compute; reflexivity). reflexivity.
Qed.
Print Assumptions C39_niggli_succeeds_refuted.

(** C40.  Refuted in binary64: the cube root of a negative volume is NaN, and then nothing is reduced. *)
Theorem C40_left_handed_untouched :
  forall (Lm : Libm) (P : @Pinv (@FNum Lm)) (dtol tol : f64) (s : @structure (@FNum Lm)),
    libm_cbrt (@volume (@FNum Lm) s) = B754_nan ->
    exists s', @niggli_reduce (@FNum Lm) P dtol s tol = Ok s' /\
      lattice s' = @mmul (@FNum Lm) (lattice s) (@mmul (@FNum Lm) (@midentity (@FNum Lm)) (@midentity (@FNum Lm))).
Proof. intros. now apply nan_reduce. Qed.
Print Assumptions C40_left_handed_untouched.
Theorem C40_left_handed_reduced_refuted :
  exists L : mat Z, (ZMdet L < 0)%Z /\ (forall eps, eps < 1 -> ~ niggli_within eps (gram (MofZ L))) /\
    forall (Lm : Libm) (P : @Pinv (@FNum Lm)) (dtol tol : f64) names cart frac,
      (forall z, (z < 0)%Z -> libm_cbrt (F_of_Z z) = B754_nan) ->
      exists s', @niggli_reduce (@FNum Lm) P dtol (Structure (N := @FNum Lm) (@mcast (@FNum Lm) L) names cart frac) tol = Ok s' /\
        lattice s' = @mcast (@FNum Lm) L.
Proof.
  exists (M (-4) 0 0 0 2 0 0 0 3)%Z. split; [reflexivity|]. split.
  - intros eps He [A _ _ _ _ _ _ _ _ _ _ _ _ _ _ _]. unfold gram, Mmul, Mtr, MofZ in A. cbn in A. lra.
  - intros Lm P dtol tol names cart frac H.
    set (s := Structure (N := @FNum Lm) (@mcast (@FNum Lm) (M (-4) 0 0 0 2 0 0 0 3)%Z) names cart frac).
    assert (EV : @volume (@FNum Lm) s = F_of_Z (-24)) by (apply f64_eq; vm_compute; reflexivity).
    destruct (C40_left_handed_untouched Lm P dtol tol s) as (s' & E & EL).
    { rewrite EV. apply H. lia. }
    exists s'. split; [exact E|]. rewrite EL. apply mat_ext; apply f64_eq; vm_compute; reflexivity.
Qed.
Print Assumptions C40_left_handed_reduced_refuted.

(** C69.  Refuted: with tolerance zero a vanishing scalar product is neither counted as zero nor made consistent with the
    others: the cell below comes back unchanged with xi = 0 and eta, zeta > 0. *)
Theorem C69_exact_niggli_refuted :
  exists s : @structure RNum, 0 < Mdet (lattice s) /\
    forall (P : @Pinv RNum) (dtol : R), exists s', @niggli_reduce RNum P dtol s 0 = Ok s' /\
      let g := gram (lattice s') in 2 * m23 g = 0 /\ 0 < 2 * m13 g /\ 0 < 2 * m12 g.
Proof.
  exists (Structure (N := RNum) (MofZ (M 4 1 1 0 4 (-2) 0 1 7)%Z) [] [] []). split; [unfold Mdet; cbn; lra|].
  intros P dtol. rewrite (niggli_run _ _ _ _ (M 4 1 1 0 4 (-2) 0 1 7)%Z 0%Q).
  - replace (@niggli_loop QNum 100 0%Q (zgram (M 4 1 1 0 4 (-2) 0 1 7)%Z, @midentity QNum))
      with (@Ok (mat Q * mat Q) (zgram (M 4 1 1 0 4 (-2) 0 1 7)%Z, @mcast QNum ZMid)) by (vm_compute; reflexivity).
    eexists. split; [reflexivity|]. rewrite rebuilt_lattice. cbn [snd]. rewrite <- q_mcast. change (@mcast RNum ZMid) with (MofZ ZMid). rewrite MofZ_id, Mmul_id_r.
    unfold gram, Mmul, Mtr, MofZ; cbn. lra.
  - reflexivity.
  - rewrite Q2R_0. ring.
Qed.
Print Assumptions C69_exact_niggli_refuted.

(** C70.  Refuted: with tolerance zero reducing twice changes the lattice basis again. *)
Theorem C70_exact_idempotent_refuted :
  exists s : @structure RNum, 0 < Mdet (lattice s) /\
    forall (P : @Pinv RNum) (dtol : R), exists s' s'', @niggli_reduce RNum P dtol s 0 = Ok s' /\
      @niggli_reduce RNum P dtol s' 0 = Ok s'' /\ lattice s'' <> lattice s'.
Proof.
  exists (Structure (N := RNum) (MofZ (M 4 (-1) 1 0 4 (-1) 0 1 5)%Z) [] [] []). split; [unfold Mdet; cbn; lra|].
  intros P dtol. rewrite (niggli_run _ _ _ _ (M 4 (-1) 1 0 4 (-1) 0 1 5)%Z 0%Q).
  - replace (@niggli_loop QNum 100 0%Q (zgram (M 4 (-1) 1 0 4 (-1) 0 1 5)%Z, @midentity QNum))
      with (@Ok (mat Q * mat Q) (zgram (M (-4) 1 1 0 (-4) (-1) 0 (-1) 5)%Z, @mcast QNum (M (-1) 0 0 0 (-1) 0 0 0 1)%Z))
      by (vm_compute; reflexivity).
    eexists. 
    assert (EL : forall nm c, lattice (rebuilt P (Mmul (MofZ (M 4 (-1) 1 0 4 (-1) 0 1 5)%Z)
      (mQ (snd (zgram (M (-4) 1 1 0 (-4) (-1) 0 (-1) 5)%Z, @mcast QNum (M (-1) 0 0 0 (-1) 0 0 0 1)%Z)))) nm c dtol)
      = MofZ (M (-4) 1 1 0 (-4) (-1) 0 (-1) 5)%Z).
    { intros. rewrite rebuilt_lattice. cbn [snd]. rewrite <- q_mcast, <- MofZ_mul. reflexivity. }
    eexists. split; [reflexivity|]. split.
    + rewrite (niggli_run _ _ _ _ (M (-4) 1 1 0 (-4) (-1) 0 (-1) 5)%Z 0%Q).
      * replace (@niggli_loop QNum 100 0%Q (zgram (M (-4) 1 1 0 (-4) (-1) 0 (-1) 5)%Z, @midentity QNum))
          with (@Ok (mat Q * mat Q) (zgram (M (-4) (-1) (-1) 0 4 1 0 1 (-5))%Z, @mcast QNum (M 1 0 0 0 (-1) 0 0 0 (-1))%Z))
          by (vm_compute; reflexivity). reflexivity.
      * apply EL.
      * rewrite Q2R_0. ring.
    + rewrite EL, rebuilt_lattice. cbn [snd]. rewrite <- q_mcast, <- MofZ_mul. intro A. apply MofZ_inj in A. discriminate A.
  - reflexivity.
  - rewrite Q2R_0. ring.
Qed.
Print Assumptions C70_exact_idempotent_refuted.
