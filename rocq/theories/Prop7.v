(** C41 - C43, C71 - C73: Reducer::delaunay_reduce *)
From Coq Require Import ZArith QArith Qreals Reals String List Bool Lia Lra Psatz Permutation Sorting.Sorted.
From Flocq Require Import Core IEEE754.BinarySingleNaN.
From Verif Require Import Num Mat Structure RInst FInst QInst Spec RFacts PSymmOp PStructure PNiggli PDelaunay PDelaunayQ PDelaunayF Prop5 Prop6 Reduce.
Import ListNotations.
Open Scope R_scope.

(** C41. *)
Theorem C41_delaunay_same_lattice :
  forall (P : @Pinv RNum) (dtol : R) (s s' : @structure RNum) (full : bool),
    @delaunay_reduce RNum P dtol s full = Ok s' ->
    exists T, (ZMdet T = 1%Z \/ ZMdet T = (-1)%Z) /\ lattice s' = Mmul (lattice s) (MofZ T) /\
      same_lattice (lattice s) (lattice s').
Proof.
  intros P dtol s s' full E. destruct (delaunay_reduce_spec P dtol s full) as (T & n & (_ & HT & _) & _ & _ & _ & H1 & H2).
  destruct (Z.eq_dec n 100) as [->|Hn]; [rewrite H1 in E by reflexivity; discriminate E|].
  destruct (H2 Hn) as (U & HU & _ & EU). rewrite EU in E. injection E as <-.
  assert (HD : ZMdet (ZMmul T U) = 1%Z \/ ZMdet (ZMmul T U) = (-1)%Z).
  { rewrite ZMdet_mul, HT. destruct HU as [-> | ->]; destruct (Z.even n); cbn; auto. }
  exists (ZMmul T U). split; [exact HD|]. rewrite rebuilt_lattice. split; [reflexivity|].
  destruct (unimodular_inverse _ HD) as (Ti & HI). exact (unimodular_same_lattice _ _ _ HI).
Qed.
Print Assumptions C41_delaunay_same_lattice.

(** C72. *)
Theorem C72_delaunay_keeps_sites :
  forall (P : @Pinv RNum) (dtol : R) (s s' : @structure RNum) (full : bool),
    @delaunay_reduce RNum P dtol s full = Ok s' -> pinv_inverts P -> well_conditioned (lattice s') ->
    (forall e, Forall2 (fun x y => exists n, y = Vadd x (Mapp (lattice s') (VofZ n)))
                 (sites_named e (species s) (coords s)) (sites_named e (species s') (coords s'))) /\
    List.length (species s') = List.length (coords s') /\
    List.length (species s') = Nat.min (List.length (species s)) (List.length (coords s)) /\
    StronglySorted (fun a b => String.leb a b = true) (species s') /\
    coords s' = map (Mapp (lattice s')) (frac_coords s').
Proof.
  intros P dtol s s' full E HP HW. destruct (delaunay_reduce_spec P dtol s full) as (T & n & _ & _ & _ & _ & H1 & H2).
  destruct (Z.eq_dec n 100) as [->|Hn]; [rewrite H1 in E by reflexivity; discriminate E|].
  destruct (H2 Hn) as (U & _ & _ & EU). rewrite EU in E. injection E as <-. rewrite rebuilt_lattice in *. split.
  - intro e. apply rebuilt_sites. now apply HP.
  - apply rebuilt_basic.
Qed.
Print Assumptions C72_delaunay_keeps_sites.

(** C42.  What holds: the result is reduced unless the loop ran into its bound, which takes more than a hundred steps of
    at least 2e-6 in the sum of squares; and the only failure is the panic after exactly a hundred of them. *)
Theorem C42_delaunay_reduced_or_exhausted :
  forall (P : @Pinv RNum) (dtol : R) (s : @structure RNum),
    (exists s', @delaunay_reduce RNum P dtol s false = Ok s' /\
       (delaunay_within (1 / 1000000) (lattice s') \/
        quad_size (lattice s') + 202 / 1000000 < quad_size (lattice s))) \/
    (@delaunay_reduce RNum P dtol s false = Panic PDelaunay /\
     exists T, ZMdet T = 1%Z /\ delaunay_within (1 / 1000000) (Mmul (lattice s) (MofZ T)) /\
       quad_size (Mmul (lattice s) (MofZ T)) + 200 / 1000000 < quad_size (lattice s)).
Proof.
  intros P dtol s. destruct (delaunay_reduce_spec P dtol s false) as (T & n & (_ & HT & _ & HQ) & _ & HR & _ & H1 & H2).
  destruct (Z.eq_dec n 100) as [->|Hn].
  - right. split; [now apply H1|]. exists T. destruct HR as [HR|HR]; [|discriminate HR]. unfold tolD in *.
    split; [exact HT|]. split; [exact HR|]. pose proof (HQ ltac:(lia)). lra.
  - left. destruct (H2 Hn) as (U & _ & EI & EU). rewrite EI in EU by reflexivity. eexists. split; [exact EU|].
    rewrite rebuilt_lattice, MofZ_mul, MofZ_id, Mmul_id_r. destruct HR as [HR| ->]; [left; exact HR|right].
    unfold tolD in HQ. pose proof (HQ ltac:(lia)). lra.
Qed.
Print Assumptions C42_delaunay_reduced_or_exhausted.

(** The runs behind the refutation of C42. *)
Definition L51 : mat Z := (M 1 (-1) (-1) 0 0 (-1) 0 (-1) 0)%Z.
Definition L50 : mat Z := (M 1 (-1) 0 0 (-1) 1 0 (-1) 0)%Z.
Lemma run_51 : @delaunay_loop QNum 102 0 (zquad (M 1 51 0 0 1 0 0 0 1)%Z) =
  Ok (Quad (N := QNum) (V 1 0 0) (V (-1) 0 (-1)) (V (-1) (-1) 0) (V 1 1 1), 101%Z)%Q.
Proof. vm_compute. reflexivity. Qed.
Lemma run_50 : @delaunay_loop QNum 102 0 (zquad (M 1 50 0 0 1 0 0 0 1)%Z) =
  Ok (Quad (N := QNum) (V 1 0 0) (V (-1) (-1) (-1)) (V 0 1 0) (V 0 0 1), 100%Z)%Q.
Proof. vm_compute. reflexivity. Qed.
Lemma L51_eq : @from_columns R (vQ (V 1 0 0)%Q) (vQ (V (-1) 0 (-1))%Q) (vQ (V (-1) (-1) 0)%Q) = MofZ L51.
Proof. unfold vQ, vmap, from_columns, MofZ, L51, Q2R. apply mat_ext; cbn; lra. Qed.
Lemma L50_eq : @from_columns R (vQ (V 1 0 0)%Q) (vQ (V (-1) (-1) (-1))%Q) (vQ (V 0 1 0)%Q) = MofZ L50.
Proof. unfold vQ, vmap, from_columns, MofZ, L50, Q2R. apply mat_ext; cbn; lra. Qed.
Lemma L51_unreduced : ~ delaunay_within (1 / 1000000) (MofZ L51).
Proof. unfold delaunay_within, fourth, Vdot, Vscal, Vadd, Ccol, MofZ, L51. cbn. lra. Qed.
Lemma L50_reduced : delaunay_within (1 / 1000000) (MofZ L50).
Proof. unfold delaunay_within, fourth, Vdot, Vscal, Vadd, Ccol, MofZ, L50. cbn. lra. Qed.
Lemma returns_51 (P : @Pinv RNum) (dtol : R) :
  exists s', @delaunay_reduce RNum P dtol (sheared 51) false = Ok s' /\ ~ delaunay_within (1 / 1000000) (lattice s').
Proof.
  rewrite (delaunay_run _ _ _ (M 1 51 0 0 1 0 0 0 1)%Z) by reflexivity. rewrite run_51. cbn [Z.eqb Pos.eqb q0 q1 q2].
  eexists. split; [reflexivity|]. rewrite rebuilt_lattice, L51_eq. exact L51_unreduced.
Qed.
Lemma panics_50 (P : @Pinv RNum) (dtol : R) : @delaunay_reduce RNum P dtol (sheared 50) false = Panic PDelaunay.
Proof. rewrite (delaunay_run _ _ _ (M 1 50 0 0 1 0 0 0 1)%Z) by reflexivity. rewrite run_50. reflexivity. Qed.
Lemma reduced_50 : exists q, @delaunay_loop RNum 102 0 (quadof (lattice (sheared 50))) = Ok (q, 100%Z) /\
  delaunay_within (1 / 1000000) (from_columns (q0 q) (q1 q) (q2 q)).
Proof.
  eexists. split.
  - change (lattice (sheared 50)) with (MofZ (M 1 50 0 0 1 0 0 0 1)%Z). rewrite zquad_R, q_dloop, run_50. reflexivity.
  - exact (eq_ind_r (delaunay_within (1 / 1000000)) L50_reduced L50_eq).
Qed.
Definition fshear (Lm : Libm) (n : Z) : @structure (@FNum Lm) :=
  Structure (N := @FNum Lm) (@mcast (@FNum Lm) (M 1 n 0 0 1 0 0 0 1)%Z) ["Po"%string] [@vcast (@FNum Lm) (V 0 0 0)%Z] [@vcast (@FNum Lm) (V 0 0 0)%Z].
Lemma run_51_F (Lm : Libm) : fshow (@delaunay_loop (@FNum Lm) 102 0 (fquad (M 1 51 0 0 1 0 0 0 1)%Z)) =
  Some (101%Z, vshow (col0 (@mcast (@FNum Lm) L51)), vshow (col1 (@mcast (@FNum Lm) L51)), vshow (col2 (@mcast (@FNum Lm) L51))).
Proof. vm_compute. reflexivity. Qed.
Lemma returns_51_F (Lm : Libm) (P : @Pinv (@FNum Lm)) (dtol : f64) :
  exists s', @delaunay_reduce (@FNum Lm) P dtol (fshear Lm 51) false = Ok s' /\ mR (lattice s') = MofZ L51.
Proof. apply (frun P dtol (fshear Lm 51) (M 1 51 0 0 1 0 0 0 1)%Z L51 101 eq_refl eq_refl (run_51_F Lm)). discriminate. Qed.

(** C42 as stated is refuted: the cubic cell sheared by 51 cells comes back unreduced, over the reals and in binary64, and
    the one sheared by 50 panics although it has been reduced. *)
Theorem C42_delaunay_reduced_refuted :
  (exists s : @structure RNum, 0 < Mdet (lattice s) /\ well_conditioned (lattice s) /\
     forall (P : @Pinv RNum) (dtol : R), exists s', @delaunay_reduce RNum P dtol s false = Ok s' /\
       ~ delaunay_within (1 / 1000000) (lattice s')) /\
  (exists s : @structure RNum, 0 < Mdet (lattice s) /\ well_conditioned (lattice s) /\
     (forall (P : @Pinv RNum) (dtol : R), @delaunay_reduce RNum P dtol s false = Panic PDelaunay) /\
     exists q, @delaunay_loop RNum 102 0 (quadof (lattice s)) = Ok (q, 100%Z) /\
       delaunay_within (1 / 1000000) (from_columns (q0 q) (q1 q) (q2 q))) /\
  (exists L, ~ delaunay_within (1 / 1000000) (MofZ L) /\
     forall (Lm : Libm) (P : @Pinv (@FNum Lm)) (dtol : f64),
       exists s', @delaunay_reduce (@FNum Lm) P dtol (fshear Lm 51) false = Ok s' /\ mR (lattice s') = MofZ L).
Proof.
  split; [|split].
  - exists (sheared 51). rewrite sheared_det. split; [lra|]. split; [now apply sheared_well_conditioned|]. exact returns_51.
  - exists (sheared 50). rewrite sheared_det. split; [lra|]. split; [now apply sheared_well_conditioned|]. split; [exact panics_50|exact reduced_50].
  - exists L51. split; [exact L51_unreduced|exact returns_51_F].
Qed.
Print Assumptions C42_delaunay_reduced_refuted.

(** C73.  Success is certain when scalar products come in whole multiples of a unit and the cell is not too elongated. *)
Theorem C73_delaunay_terminates :
  forall (P : @Pinv RNum) (dtol u : R) (s : @structure RNum),
    0 < u -> unit_metric u (lattice s) -> Mdet (lattice s) <> 0 -> quad_size (lattice s) <= 200 * u ->
    exists s', @delaunay_reduce RNum P dtol s false = Ok s' /\ delaunay_within (1 / 1000000) (lattice s').
Proof.
  intros P dtol u s Hu HM HD HS. destruct (delaunay_reduce_spec P dtol s false) as (T & n & (H0 & HT & HG & _) & _ & HR & _ & _ & H2).
  pose proof (HG u (unit_gap u _ Hu HM)) as HQ.
  assert (HP : 0 < quad_size (Mmul (lattice s) (MofZ T))).
  { apply quad_size_pos. rewrite Mdet_mul, MofZ_det, HT. destruct (Z.even n); cbn; lra. }
  assert (Hn : (n < 100)%Z).
  { apply lt_IZR. apply (Rmult_lt_reg_l (2 * u)); lra. }
  destruct (H2 ltac:(lia)) as (U & _ & EI & EU). rewrite EI in EU by reflexivity. eexists. split; [exact EU|].
  rewrite rebuilt_lattice, MofZ_mul, MofZ_id, Mmul_id_r. destruct HR as [HR| HR]; [exact HR|lia].
Qed.
Print Assumptions C73_delaunay_terminates.
Example C73_example : exists s', @delaunay_reduce RNum cofactor_pinv (1 / 20) (sheared 5) false = Ok s' /\
  delaunay_within (1 / 1000000) (lattice s') /\ ~ delaunay_within (1 / 1000000) (lattice (sheared 5)).
Proof.
  destruct (C73_delaunay_terminates cofactor_pinv (1 / 20) 1 (sheared 5)) as (s' & E & H).
  - lra.
  - exists (M 1 5 0 5 26 0 0 0 1)%Z. unfold gram, Mmul, Mtr, sheared, MofZ. cbn. apply mat_ext; cbn; lra.
  - rewrite sheared_det. lra.
  - unfold quad_size, fourth, Vdot, Vscal, Vadd, Ccol, sheared, MofZ. cbn. lra.
  - exists s'. repeat split; auto; try apply H. unfold delaunay_within, fourth, Vdot, Vscal, Vadd, Ccol, sheared, MofZ. cbn. lra.
Qed.
Example C41_72_example : exists s', @delaunay_reduce RNum cofactor_pinv (1 / 20) (sheared 1) false = Ok s' /\
  lattice s' = MofZ (M 1 0 (-1) 0 0 (-1) 0 1 (-1))%Z.
Proof.
  rewrite (delaunay_run _ _ _ (M 1 1 0 0 1 0 0 0 1)%Z) by reflexivity.
  replace (@delaunay_loop QNum 102 0 (zquad (M 1 1 0 0 1 0 0 0 1)%Z)) with
      (Ok (Quad (N := QNum) (V 1 0 0) (V 0 0 1) (V (-1) (-1) (-1)) (V 0 1 0), 2%Z))%Q by (vm_compute; reflexivity).
  eexists. split; [reflexivity|]. rewrite rebuilt_lattice. unfold vQ, vmap, from_columns, MofZ, Q2R. apply mat_ext; cbn; lra.
Qed.

(** C43.  Refuted: one step turns a right-handed cell into a left-handed one. *)
Definition bcc_left : mat Z := (M 1 1 0 (-1) (-1) 2 1 (-1) 0)%Z.
Theorem C43_delaunay_handedness_refuted :
  (exists s : @structure RNum, 0 < Mdet (lattice s) /\ forall (P : @Pinv RNum) (dtol : R),
     exists s', @delaunay_reduce RNum P dtol s false = Ok s' /\ Mdet (lattice s') < 0) /\
  (exists L L', (0 < ZMdet L /\ ZMdet L' < 0)%Z /\ forall (Lm : Libm) (P : @Pinv (@FNum Lm)) (dtol : f64) names cart frac,
     exists s', @delaunay_reduce (@FNum Lm) P dtol (Structure (N := @FNum Lm) (@mcast (@FNum Lm) L) names cart frac) false = Ok s' /\
       mR (lattice s') = MofZ L').
Proof.
  split.
  - exists (Structure (N := RNum) (MofZ bcc_left) [] [] []). split; [unfold Mdet; cbn; lra|]. intros P dtol.
    rewrite (delaunay_run _ _ _ bcc_left) by reflexivity.
    replace (@delaunay_loop QNum 102 0 (zquad bcc_left)) with
      (Ok (Quad (N := QNum) (V 1 (-1) 1) (V (-1) 1 1) (V 1 1 (-1)) (V (-1) (-1) (-1)), 1%Z))%Q by (vm_compute; reflexivity).
    eexists. split; [reflexivity|]. rewrite rebuilt_lattice. unfold Mdet, vQ, vmap, from_columns, Q2R. cbn. lra.
  - exists bcc_left, (M 1 (-1) 1 (-1) 1 1 1 1 (-1))%Z. split; [split; reflexivity|]. intros.
    eapply frun; [reflexivity|reflexivity|vm_compute; reflexivity|discriminate].
Qed.
Print Assumptions C43_delaunay_handedness_refuted.

(** C71.  Refuted: for the cubic cell the full reduction replaces a unit vector by a face diagonal. *)
Lemma le_len (a b : vec R) : Vdot a a <= Vdot b b -> @fle RNum (@magnitude RNum a) (@magnitude RNum b) = true.
Proof. intro H. unfold magnitude. cbn [fsqrt fle RNum]. apply Rle_bool_true. apply sqrt_le_1_alt. exact H. Qed.
Theorem C71_full_reduction_shortest_refuted :
  exists s : @structure RNum, Mdet (lattice s) = 1 /\ forall (P : @Pinv RNum) (dtol : R),
    exists s' v1 v2 v3, @delaunay_reduce RNum P dtol s true = Ok s' /\
      In v1 (seven (lattice s)) /\ In v2 (seven (lattice s)) /\ In v3 (seven (lattice s)) /\ Mdet (from_columns v1 v2 v3) <> 0 /\
      Vdot v1 v1 + Vdot v2 v2 + Vdot v3 v3 <
      Vdot (Ccol (lattice s') 0) (Ccol (lattice s') 0) + Vdot (Ccol (lattice s') 1) (Ccol (lattice s') 1) +
      Vdot (Ccol (lattice s') 2) (Ccol (lattice s') 2).
Proof.
  exists (sheared 0). split; [apply sheared_det|]. intros P dtol.
  assert (E : exists q, @delaunay_loop RNum 102 0 (quadof (lattice (sheared 0))) = Ok (q, 0%Z) /\
    q = Quad (N := RNum) (V 1 0 0) (V 0 1 0) (V 0 0 1) (V (-1) (-1) (-1))).
  { change (lattice (sheared 0)) with (MofZ ZMid). rewrite zquad_R, q_dloop.
    replace (@delaunay_loop QNum 102 0 (zquad ZMid)) with
      (Ok (Quad (N := QNum) (V 1 0 0) (V 0 1 0) (V 0 0 1) (V (-1) (-1) (-1)), 0%Z))%Q by (vm_compute; reflexivity).
    eexists. split; [reflexivity|]. unfold qq. cbn [q0 q1 q2 q3]. apply quad_ext; apply vec_ext; unfold vQ, vmap, Q2R; cbn; lra. }
  destruct E as (q & E & Eq).
  assert (ES : @delaunay_select RNum q = Ok (M (-1) (-1) 0 0 (-1) 0 0 0 1)).
  { rewrite Eq. unfold delaunay_select. cbn [q0 q1 q2 q3]. rewrite sort_R. cbn [bind sort_by fold_right insert_by].
    rewrite (le_len (V 0 0 1) (V (-1) (-1) (-1))) by (unfold Vdot; cbn; lra). cbn [insert_by].
    rewrite (le_len (V 0 1 0) (V 0 0 1)) by (unfold Vdot; cbn; lra). cbn [insert_by].
    rewrite (le_len (V 1 0 0) (V 0 1 0)) by (unfold Vdot; cbn; lra). cbv zeta.
    replace (@flt RNum _ _) with true.
    - f_equal. apply (@mat_ext R); unfold from_columns, vscale_r, vscale, vadd, vmap, vmap2, fm1; cbn; lra.
    - symmetry. apply Rlt_bool_true. unfold dot. cbn. lra. }
  assert (EQ : @delaunay_reduce RNum P dtol (sheared 0) true =
    (do (q, count) <- @delaunay_loop RNum 102 0 (quadof (lattice (sheared 0)));
     if (count =? 100)%Z then Panic PDelaunay else
     do new_lattice <- @delaunay_select RNum q;
     do new_frac_coords <- @get_frac_coords RNum P new_lattice (coords (sheared 0));
     do new_structure <- @structure_new RNum P new_lattice (species (sheared 0)) new_frac_coords false;
     Ok (@normalize_coords RNum new_structure dtol))) by reflexivity.
  rewrite EQ, E. cbn [bind Z.eqb]. rewrite ES. cbn [bind]. rewrite build_eq. do 4 eexists. split; [reflexivity|].
  rewrite rebuilt_lattice. unfold seven. split; [left; reflexivity|]. split; [right; left; reflexivity|]. split; [right; right; left; reflexivity|].
  split; unfold Mdet, Vdot, Ccol, sheared, MofZ, from_columns; cbn; lra.
Qed.
Print Assumptions C71_full_reduction_shortest_refuted.
