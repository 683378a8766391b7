(** One atom per primitive cell, described in a larger cell: the whole run (analyzer.rs 36-162) *)
From Coq Require Import ZArith Reals String Ascii List Bool Lia Lra Psatz Permutation.
From Verif Require Import Num Mat Utils DataCore SymmOp PointGroup SpaceGroup Structure Reduce Analyzer RInst Spec Spec2 Spec3 Spec4 RFacts
  PUtils PSymmOp PStructure PStructure2 PStructure3 PNiggli PDelaunay PPrim PPrim2 PLattice PAnalyzer PAnalyzer2 PPointGroup PPointGroup2 PTables PSearch4 PSearch6 PSearch7 PEnd PEnd2 PEnd3 Prop4 Prop5 PSGTrans Prop17.
Import ListNotations.
Open Scope R_scope.

Section Stages.
  Context (P : @Pinv RNum) (HO : HashOrd) (dtol : R) (fuel : nat) (path : list nat) (s p q : @structure RNum) (e : string) (w : vec R) (n : Z).
  Hypothesis (HP : pinv_inverts P) (HF : (48 <= fuel)%nat) (WP : whole w p e) (H0 : 0 < dtol).
  Hypothesis (Wq : well_conditioned (lattice q)).
  Hypothesis HD : 0 < Mdet (lattice p).
  Hypothesis RM : roomy dtol (lattice p).
  Hypothesis HE : 1 / 100000 * Rpower (Mdet (lattice p)) (1 / 3) < 1.
  Hypothesis (E1 : @find_primitive_cell RNum P HO (0%nat :: path) dtol s = Ok p) (E2 : @niggli_reduce RNum P dtol p (1 / 100000) = Ok q).
  Hypothesis E3 : @get_lattice_character RNum q (1 / 100000) = Ok n.
  (** from the primitive cell to the standard primitive cell *)
  Lemma large_stages : exists b c std T Ti T0 Pm U,
    am_get Z.eqb n LATTICE_CHAR_TO_BRAVAIS = Some b /\
    @get_standard_primitive_structure RNum P HO fuel (0%nat :: path) dtol s = Ok std /\
    lattice p = Mmul (lattice std) (MofZ T) /\ ZMmul T Ti = ZMid /\ ZMmul Ti T = ZMid /\ whole (Mapp (MofZ T) w) std e /\ roomy dtol (lattice std) /\
    am_get Z.eqb n LATTICE_CHAR_TO_CONV_TRANS = Some T0 /\
    @conventional_transformation_matrix RNum q = Ok (Mtr (MofZ T0), n) /\ @primitive_transformation_matrix RNum n = Ok (Pm, b) /\
    @apply_transformation RNum fuel q (Mtr (MofZ T0)) dtol = Ok c /\ @apply_transformation RNum fuel c Pm dtol = Ok std /\
    Mmul (Mtr (MofZ T0)) Pm = MofZ U /\ (ZMdet U = 1 \/ ZMdet U = -1)%Z /\ lattice std = Mmul (lattice q) (MofZ U).
  Proof using All.
    destruct (niggli_whole P dtol HP p q e _ WP HD) as (Z2 & G2 & G3 & G1); [exact HE|exact E2|exact Wq|].
    destruct (unimodular_inverse Z2 (or_introl G2)) as (I2 & HI2). pose proof (zinv_comm _ _ HI2) as HI2'. specialize (G1 I2 HI2).
    assert (RQ : roomy dtol (lattice q)) by (rewrite G3; now apply (roomy_mul dtol _ _ I2 HI2')).
    destruct (std_whole dtol q e _ n fuel G1 RQ H0 ltac:(lia) E3) as (T0 & Pm & b & c & std & U & K1 & K2 & K3 & K4 & K5 & K6 & K7 & K8 & K9).
    destruct (unimodular_inverse U K7) as (I3 & HI3). pose proof (zinv_comm _ _ HI3) as HI3'. specialize (K9 I3 HI3).
    assert (RS : roomy dtol (lattice std)) by (rewrite K8; now apply (roomy_mul dtol _ _ I3 HI3')).
    set (Ti := ZMmul Z2 U). set (T := ZMmul I3 I2).
    assert (TI : ZMmul Ti T = ZMid).
    { apply MofZ_inj. unfold T, Ti. rewrite !MofZ_mul, !Mmul_assoc, <- (Mmul_assoc (MofZ U)), <- MofZ_mul, HI3, MofZ_id, Mmul_id_l, <- MofZ_mul, HI2. apply MofZ_id. }
    pose proof (zinv_comm _ _ TI) as TI'.
    assert (ESTD : lattice std = Mmul (lattice p) (MofZ Ti)) by (rewrite K8, G3; unfold Ti; now rewrite !MofZ_mul, !Mmul_assoc).
    assert (EL : lattice p = Mmul (lattice std) (MofZ T)) by (rewrite ESTD, Mmul_assoc, <- MofZ_mul, TI, MofZ_id; symmetry; apply Mmul_id_r).
    change (1 / 100000) with (@tol_1em5 RNum) in *.
    destruct (conventional_inv _ _ _ K1) as (_ & _ & T1 & C1 & C2). change (transpose (@mcast RNum T1)) with (Mtr (MofZ T1)) in C2.
    exists b, c, std, T, Ti, T1, Pm, U. rewrite <- C2. split; [exact K5|]. split.
    { unfold get_standard_primitive_structure. rewrite E1. cbn [bind]. rewrite E2. cbn [bind]. rewrite K1. cbn [bind]. numR. rewrite K3. cbn [bind]. rewrite K2. cbn [bind]. exact K4. }
    split; [exact EL|]. split; [exact TI'|]. split; [exact TI|].
    split; [unfold T; rewrite !MofZ_mul, !Mapp_Mmul; exact K9|]. auto 15.
  Qed.
End Stages.

(** multiples of 1/D that are near an integer are integers *)
Lemma near_multiple (D : Z) (x : R) (m z : Z) (t : R) : (1 <= D)%Z -> IZR D * t <= 1 -> IZR D * x = IZR m -> Rabs (x - IZR z) < t -> x = IZR z.
Proof.
  intros HD Ht E H. assert (PD : 1 <= IZR D) by (apply IZR_le; lia).
  assert (Q : Rabs (IZR (m - D * z)) < 1).
  { rewrite minus_IZR, mult_IZR, <- E. replace (IZR D * x - IZR D * IZR z) with (IZR D * (x - IZR z)) by ring. rewrite Rabs_mult, (Rabs_pos_eq (IZR D)) by lra. nra. }
  rewrite <- abs_IZR in Q. apply lt_IZR in Q. assert (m - D * z = 0)%Z by lia. assert (Em : m = (D * z)%Z) by lia. rewrite Em, mult_IZR in E.
  apply (Rmult_eq_reg_l (IZR D)); lra.
Qed.
Lemma separated (T : mat Z) (tols u v : vec R) (m : vec Z) : ZMdet T <> 0%Z -> (Z.abs (ZMdet T) <= 24)%Z ->
  (forall k, (k < 3)%nat -> 0 < vnth tols k <= 1 / 24) -> Mapp (MofZ T) (Vsub u v) = VofZ m -> near3 tols u v -> exists n, m = ZMapp T n.
Proof.
  intros HD HB HT E (N1 & N2 & N3). set (x := Vsub u v) in *.
  assert (HDR : Mdet (MofZ T) <> 0) by (rewrite MofZ_det; intro X; apply HD; now apply eq_IZR in X).
  assert (EX : x = Mapp (Madj_inv (MofZ T)) (VofZ m)).
  { rewrite <- E, <- Mapp_Mmul, (proj2 (Madj_inverse _ HDR)). symmetry. apply Mapp_id. }
  pose proof (adj_app T m HDR) as A. rewrite <- EX in A. set (k := ZMapp (zadj T) m) in *.
  set (D := Z.abs (ZMdet T)). set (k' := (V (Z.sgn (ZMdet T) * vx k) (Z.sgn (ZMdet T) * vy k) (Z.sgn (ZMdet T) * vz k))%Z).
  assert (HDp : (1 <= D)%Z) by (unfold D; lia).
  assert (A' : forall i, IZR D * vnth x i = IZR (vnth k' i)).
  { assert (SG : IZR D = IZR (Z.sgn (ZMdet T)) * IZR (ZMdet T)) by (rewrite <- mult_IZR; f_equal; unfold D; lia).
    unfold Vscal, VofZ in A. injection A as A1 A2 A3. intros [|[|i]]; unfold k'; cbn [vnth vx vy vz]; rewrite SG, mult_IZR, Rmult_assoc; f_equal; assumption. }
  assert (B24 : IZR D <= 24) by (apply IZR_le; unfold D; lia).
  assert (TB : forall i, (i < 3)%nat -> IZR D * vnth tols i <= 1). { intros i Hi. destruct (HT i Hi) as [X1 X2]. assert (1 <= IZR D) by (apply IZR_le; exact HDp). nra. }
  destruct N1 as (z1 & N1), N2 as (z2 & N2), N3 as (z3 & N3).
  assert (X1 := near_multiple D (vx x) _ z1 _ HDp (TB 0%nat ltac:(lia)) (A' 0%nat) N1).
  assert (X2 := near_multiple D (vy x) _ z2 _ HDp (TB 1%nat ltac:(lia)) (A' 1%nat) N2).
  assert (X3 := near_multiple D (vz x) _ z3 _ HDp (TB 2%nat ltac:(lia)) (A' 2%nat) N3).
  exists (V z1 z2 z3). apply VofZ_inj. rewrite MofZ_app, <- E. f_equal. apply (@vec_ext R); cbn [VofZ vx vy vz]; assumption.
Qed.

Section Run.
  Context (P : @Pinv RNum) (HO : HashOrd) (dtol : R) (fuel : nat) (path : list nat) (s p q : @structure RNum) (e : string) (n : Z).
  Hypothesis (HP : pinv_inverts P) (HF : (48 <= fuel)%nat) (WP : whole V0 p e) (H0 : 0 < dtol).
  Hypothesis (Wp : well_conditioned (lattice p)) (Wq : well_conditioned (lattice q)).
  Hypothesis HD : 0 < Mdet (lattice p).
  Hypothesis RM : roomy dtol (lattice p).
  Hypothesis HE : 1 / 100000 * Rpower (Mdet (lattice p)) (1 / 3) < 1.
  Hypothesis (E1 : @find_primitive_cell RNum P HO (0%nat :: path) dtol s = Ok p) (E2 : @niggli_reduce RNum P dtol p (1 / 100000) = Ok q).
  Hypothesis E3 : @get_lattice_character RNum q (1 / 100000) = Ok n.
  Lemma large_run : exists b std,
    am_get Z.eqb n LATTICE_CHAR_TO_BRAVAIS = Some b /\
    @get_standard_primitive_structure RNum P HO fuel (0%nat :: path) dtol s = Ok std /\ whole V0 std e /\
    (exists T Ti, lattice p = Mmul (lattice std) (MofZ T) /\ ZMmul T Ti = ZMid /\ ZMmul Ti T = ZMid) /\
    (exists T0 Pm U, am_get Z.eqb n LATTICE_CHAR_TO_CONV_TRANS = Some T0 /\ @primitive_transformation_matrix RNum n = Ok (Pm, b) /\
      Mmul (Mtr (MofZ T0)) Pm = MofZ U /\ lattice std = Mmul (lattice q) (MofZ U)) /\
    ((forall k, (k < 3)%nat -> Vnorm (Ccol (lattice std) k) <= 100000000 * dtol) ->
     match lattice_group (bravais_to_string b) with
     | Some (N, sym) =>
         (forall n' sym' ops, @get_space_group_info RNum P HO fuel path dtol s = Ok (n', sym', ops) -> n' = N /\ sym' = sym) /\
         (forall T, lattice s = Mmul (lattice std) (MofZ T) -> ZMdet T <> 0%Z -> (Z.abs (ZMdet T) <= 24)%Z ->
          (forall r, In r (holo_rots b) -> exists r', ZMmul T r' = ZMmul r T /\ i8_range r' /\ has_unit_entry r' = true) ->
          exists ops, @get_space_group_info RNum P HO fuel path dtol s = Ok (N, sym, ops) /\
            List.length ops = (List.length (holo_rots b) * Z.to_nat (Z.abs (ZMdet T)))%nat /\
            (forall op', In op' ops -> exists r t m, In r (holo_rots b) /\ nanos (1 / 1000000000) t V0 /\ moved_operation T r t m (rotation op') (translation op')) /\
            (forall r, In r (holo_rots b) -> exists t, nanos (1 / 1000000000) t V0 /\ forall m, exists op', In op' ops /\ moved_operation T r t m (rotation op') (translation op')))
     | None => forall r, @get_space_group_info RNum P HO fuel path dtol s <> Ok r
     end).
  Proof using All.
    destruct (large_stages P HO dtol fuel path s p q e V0 n HP HF WP H0 Wq HD RM HE E1 E2 E3)
      as (b & c & std & T2 & T2i & T0 & Pm & U & K5 & K0 & EL & TI' & TI & K9 & RS & C1 & K1 & K2 & K3 & K4 & K6 & K7 & K8).
    rewrite Mapp_V0 in K9.
    change (1 / 100000) with (@tol_1em5 RNum) in *.
    assert (STG : @stages RNum P HO fuel path dtol s p q std (Mtr (MofZ T0)) Pm n b).
    { constructor; [exact E1|exact E2|exact K1|exact K2|]. exists c. split; [exact K3|exact K4]. }
    exists b, std. split; [exact K5|]. split; [exact K0|]. split; [exact K9|]. split; [eauto|]. split.
    { exists T0, Pm, U. auto. }
    intro FC. destruct K9 as (KS & m' & KX & _). rewrite Vadd_0 in KX.
    assert (fine : forall k, (k < 3)%nat -> 1 / 100000000 * Vnorm (Ccol (lattice std) k) <= dtol /\ 24 * dtol <= Vnorm (Ccol (lattice std) k) /\ 0 < Vnorm (Ccol (lattice std) k)).
    { intros k Hk. specialize (FC k Hk). pose proof (roomy_col dtol (lattice std) k RS). lra. }
    destruct (lattice_facts_hold b) as (ls & F).
    destruct (one_found std dtol fuel (1%nat :: path) b e m' HF KS KX fine ls F) as (ops & Q1 & Q2 & Q3 & Q4 & Q5 & Q6).
    destruct (lattice_group (bravais_to_string b)) as [[N sym]|] eqn:EG.
    - destruct (one_identified std dtol fuel (1%nat :: path) b e m' HF KS KX fine ls N sym F EG) as (ops' & Q1' & _ & _ & Q7).
      rewrite Q1 in Q1'. injection Q1' as <-. split.
      + intros n' sym' ops' EI. apply info_stages in EI.
        destruct EI as (p0 & q0 & std0 & Tm0 & Pm0 & ch0 & b0 & gens & sg & ls0 & m1 & m2 & i1 & i2 & S0 & _ & J1 & J2 & J3 & J4 & _).
        destruct S0 as [S1 S2 S3 S4 (c0 & S5 & S6)]. numR. rewrite E1 in S1. injection S1 as <-. rewrite E2 in S2. injection S2 as <-. rewrite K1 in S3. injection S3 as <- <-.
        rewrite K2 in S4. injection S4 as <- <-. rewrite K3 in S5. injection S5 as <-. rewrite K4 in S6. injection S6 as <-.
        rewrite Q1 in J1. injection J1 as <-. rewrite Q2 in J2. injection J2 as <-. rewrite (lf_system _ _ F) in J3. injection J3 as <-. rewrite Q7 in J4.
        injection J4 as <- <-. auto.
      + intros T ELs DT BT CJ.
        assert (M1 : exists m1, @get_transformation_matrix RNum P p s = Ok m1) by (unfold get_transformation_matrix; rewrite pseudo_inverse_R; cbn [of_opt bind]; eauto).
        assert (M2 : exists m2, @get_transformation_matrix RNum P q p = Ok m2) by (unfold get_transformation_matrix; rewrite pseudo_inverse_R; cbn [of_opt bind]; eauto).
        destruct M1 as (m1 & M1), M2 as (m2 & M2).
        assert (D0 : Mdet (MofZ U) <> 0) by (rewrite MofZ_det; destruct K7 as [-> | ->]; lra).
        assert (DPm : Mdet Pm <> 0) by (intro X; apply D0; rewrite <- K6, Mdet_mul, X; ring).
        assert (DTm : Mdet (Mtr (MofZ T0)) <> 0) by (intro X; apply D0; rewrite <- K6, Mdet_mul, X; ring).
        pose proof (try_inverse_R _ DPm) as V1. pose proof (try_inverse_R _ DTm) as V2.
        pose proof (total_transformation P HO fuel path dtol s p q std _ _ _ _ m1 m2 _ _ STG HP Wp Wq M1 M2 V1 V2) as TT.
        assert (TE : Mmul (Mmul (Mmul (Madj_inv Pm) (Madj_inv (Mtr (MofZ T0)))) m2) m1 = MofZ T).
        { assert (DS : Mdet (lattice std) <> 0).
          { intro X. assert (Y : Mdet (lattice p) = 0) by (rewrite EL, Mdet_mul, X; ring). lra. }
          assert (CA : forall a b, Mmul (lattice std) a = Mmul (lattice std) b -> a = b).
          { intros a b0 X. destruct (Madj_inverse _ DS) as [_ I]. rewrite <- (Mmul_id_l a), <- (Mmul_id_l b0), <- I, !Mmul_assoc, X. reflexivity. }
          apply CA. rewrite TT. exact ELs. }
        assert (FT : forall k, (k < 3)%nat -> 0 < dtol / Vnorm (Ccol (lattice std) k) <= 1 / 24).
        { intros k Hk. destruct (fine k Hk) as (A1 & A2 & A3). split; [apply Rmult_lt_0_compat; [exact H0|now apply Rinv_0_lt_compat]|].
          apply (Rmult_le_reg_r (Vnorm (Ccol (lattice std) k))); [exact A3|]. unfold Rdiv. rewrite Rmult_assoc, Rinv_l by lra. lra. }
        assert (FT2 : forall k, (k < 3)%nat -> 0 < dtol / Vnorm (Ccol (lattice std) k) <= / 2) by (intros k Hk; specialize (FT k Hk); lra).
        destruct (C93_operations_of_a_supercell T (@frac_tols_of RNum (lattice std) dtol) ops fuel DT
          (FT2 0%nat ltac:(lia)) (FT2 1%nat ltac:(lia)) (FT2 2%nat ltac:(lia)) ltac:(lia)) as (ops' & W1 & W2 & W3 & W4 & _).
        * intros op Hop. apply CJ. exact (proj1 (Q5 op Hop)).
        * intros i j a a' m u v Ha Ha' Er Hij Eu Ev NR.
          assert (X : i = j).
          { apply (proj1 (NoDup_nth_error (map (@rotation RNum) ops)) Q4).
            - rewrite map_length. apply nth_error_Some. congruence.
            - rewrite !nth_error_map, Ha, Ha'. cbn. now rewrite Er. }
          subst j. rewrite Ha in Ha'. injection Ha' as <-. destruct Hij as [Hij|Hij]; [now apply Hij|]. apply Hij.
          apply (separated T (@frac_tols_of RNum (lattice std) dtol) u v m DT BT); [|rewrite Mapp_sub, Eu, Ev|exact NR].
          -- intros k Hk. destruct k as [|[|[|k]]]; [exact (FT 0%nat ltac:(lia))|exact (FT 1%nat ltac:(lia))|exact (FT 2%nat ltac:(lia))|lia].
          -- unfold Vsub, Vadd. apply (@vec_ext R); cbn; ring.
        * exists ops'. split; [|split; [|split]].
          -- unfold get_space_group_info. rewrite E1. cbn [bind]. rewrite E2. cbn [bind]. rewrite K1. cbn [bind]. numR. rewrite K3. cbn [bind]. rewrite K2. cbn [bind].
             rewrite K4. cbn [bind]. rewrite Q1. cbn [bind]. rewrite Q2. cbn [bind]. rewrite (lf_system _ _ F). cbn [bind]. rewrite Q7. cbn [bind of_opt].
             rewrite M1. cbn [bind]. rewrite M2. cbn [bind]. rewrite V1. cbn [bind of_opt]. rewrite V2. cbn [bind of_opt].
             match goal with |- context [@sg_apply_transformation RNum _ _ ?t _] => replace t with (MofZ T) by (symmetry; exact TE) end. rewrite W1. reflexivity.
          -- now rewrite W2, Q3.
          -- intros op' Ho. destruct (W3 op' Ho) as (op & m & Hop & Hm). destruct (Q5 op Hop) as [X1 X2]. exists (rotation op), (translation op), m. auto.
          -- intros r Hr. destruct (Q6 r Hr) as (op & Hop & Er & Tr). exists (translation op). split; [exact Tr|]. intro m. destruct (W4 op m Hop) as (op' & Ho & Hm). exists op'. rewrite <- Er. auto.
    - destruct (one_unidentified std dtol fuel (1%nat :: path) b e m' HF KS KX fine ls F EG) as (ops' & Q1' & _ & Q7).
      rewrite Q1 in Q1'. injection Q1' as <-. intros [[n' sym'] ops'] EI. apply info_stages in EI.
        destruct EI as (p0 & q0 & std0 & Tm0 & Pm0 & ch0 & b0 & gens & sg & ls0 & m1 & m2 & i1 & i2 & S0 & _ & J1 & J2 & J3 & J4 & _).
        destruct S0 as [S1 S2 S3 S4 (c0 & S5 & S6)]. numR. rewrite E1 in S1. injection S1 as <-. rewrite E2 in S2. injection S2 as <-. rewrite K1 in S3. injection S3 as <- <-.
        rewrite K2 in S4. injection S4 as <- <-. rewrite K3 in S5. injection S5 as <-. rewrite K4 in S6. injection S6 as <-.
        rewrite Q1 in J1. injection J1 as <-. rewrite Q2 in J2. injection J2 as <-. rewrite (lf_system _ _ F) in J3. injection J3 as <-. exact (Q7 _ _ _ J4).
  Qed.
End Run.
