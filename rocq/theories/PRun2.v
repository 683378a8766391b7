(** The stages of the run for a primitive lattice, from what becomes of the shortest vectors (analyzer.rs 286-360) *)
From Coq Require Import ZArith Reals String Ascii List Bool Lia Lra Psatz Permutation.
From Verif Require Import Num Mat Utils DataCore DataPG DataSG SymmOp PointGroup SpaceGroup Structure Reduce Analyzer RInst Spec Spec2 Spec3 Spec5 Spec6 RFacts
  PUtils PSymmOp PStructure PStructure2 PStructure3 PNiggli PDelaunay PPrim PPrim2 PLattice PAnalyzer PAnalyzer2 PPointGroup PPointGroup2 PSpaceGroup PSpaceGroup2 PCode PTables PIdentify
  PSearch PSearch3 PSearch4 PSearch6 PSearch7 PEnd PEnd2 PEnd3 PEnd4 PEnd11 PEnd12 PEnd13 PEnd14 PEnd15 Prop5 PRun.
Import ListNotations.
Open Scope R_scope.

Lemma Zcompose x xi y yi : ZMmul x xi = ZMid -> ZMmul y yi = ZMid -> ZMmul (ZMmul x y) (ZMmul yi xi) = ZMid.
Proof. intros HX HY. apply MofZ_eq_from_action. intro v. rewrite !MofZ_mul, !Mapp_Mmul, (app_inv y yi _ HY), (app_inv x xi _ HX), MofZ_id, Mapp_id. reflexivity. Qed.
Section PStages.
  Context (P : @Pinv RNum) (HO : HashOrd) (dtol : R) (fuel : nat) (path : list nat) (s : @structure RNum).
  Hypothesis (HP : pinv_inverts P) (HF : (48 <= fuel)%nat) (H0 : 0 < dtol) (WF : List.length (frac_coords s) = List.length (species s)).
  Hypothesis BIG : (0 < Z.of_nat (List.length (species s)) <= 65535)%Z.
  Let L := lattice s.
  Hypothesis (Ws : well_conditioned L) (RM : roomy dtol L).
  Hypothesis HN : forall k, (k < 3)%nat -> dtol * Vnorm (Ccol L k) < Rabs (Mdet L).
  Hypothesis HDd : dtol < Rabs (Mdet L).
  Hypothesis NI : no_inner_translation dtol s.
  Let eps := 1 / 100000 * Rpower (Rabs (Mdet L)) (1 / 3).
  Hypothesis EPS : eps < 1.
  Context (out : mat Z -> Z -> bravais -> Prop).
  Hypothesis PICK : forall y1 y2 y3, In y1 dirs26 -> In y2 dirs26 -> In y3 dirs26 -> shortest3 L y1 y2 y3 ->
    (ZMdet (zcols y1 y2 y3) = 1 \/ ZMdet (zcols y1 y2 y3) = -1)%Z -> 0 < Mdet (Mmul L (MofZ (zcols y1 y2 y3))) ->
    exists T n b T0, let Z1 := zcols y1 y2 y3 in let Q := Mmul (Mmul L (MofZ Z1)) (MofZ T) in
      @niggli_loop RNum 100 eps (gram (Mmul L (MofZ Z1)), Mid) = Ok (gram Q, MofZ T) /\
      @character_of RNum eps (m11 (gram Q)) (m22 (gram Q)) (m33 (gram Q)) (m23 (gram Q)) (m13 (gram Q)) (m12 (gram Q)) = Ok n /\
      am_get Z.eqb n LATTICE_CHAR_TO_BRAVAIS = Some b /\ am_get Z.eqb n LATTICE_CHAR_TO_CONV_TRANS = Some T0 /\ bravais_centering b = Ok CP /\ ZMdet (transpose T0) = 1%Z /\
      well_conditioned (Mmul L (MofZ Z1)) /\ well_conditioned Q /\ out (ZMmul (ZMmul Z1 T) (transpose T0)) n b /\
      (forall I1, ZMmul Z1 I1 = ZMid -> apart (2 * dtol) (Mmul L (MofZ I1)) (sites_of s) /\
        (forall Ti I2, ZMmul T Ti = ZMid -> ZMmul (transpose T0) I2 = ZMid -> apart (2 * dtol) (Mmul Q (MofZ (ZMmul I2 (ZMmul Ti I1)))) (sites_of s))).
  Hypothesis AP : apart (2 * dtol) L (sites_of s).
  Lemma p_stages : exists p q std Tm Pm n b W Wi, frame P HO dtol fuel path s p q std Tm Pm n b W Wi /\ out W n b.
  Proof using All.
    assert (HN' : forall k, (k < 3)%nat -> dtol <= Vnorm (Ccol L k) /\ dtol * Vnorm (Ccol L k) < Rabs (Mdet L)).
    { intros k Hk. split; [pose proof (roomy_col dtol L k RM); lra|now apply HN]. }
    destruct (prim_like P HO dtol HP (0%nat :: path) s WF ltac:(lra) Ws BIG HN' HDd NI) as (p & y1 & y2 & y3 & F1 & F2 & F3 & F4 & J1 & J2 & J3 & S3 & F5).
    fold L in F2, S3, F5. assert (F4' := F4). rewrite F2 in F4'.
    destruct (PICK y1 y2 y3 J1 J2 J3 S3 F3 F4') as (T & n & b & T0 & NL & EC & R1 & R2 & R7 & DT0 & W1 & W2 & OUT & APS). clear PICK.
    set (Z1 := zcols y1 y2 y3) in *. set (Q := Mmul (Mmul L (MofZ Z1)) (MofZ T)) in *.
    assert (VP : Mdet (lattice p) = Rabs (Mdet L)).
    { rewrite <- (Rabs_pos_eq (Mdet (lattice p))) by lra. rewrite F2, Mdet_mul, MofZ_det, Rabs_mult, <- abs_IZR. destruct F3 as [-> | ->]; cbn; lra. }
    assert (Wp : well_conditioned (lattice p)) by now rewrite F2.
    destruct (unimodular_inverse Z1 F3) as (I1 & HI1). destruct (APS I1 HI1) as (AP1 & AP2).
    assert (LP : like (MofZ I1) (sites_of s) p) by (apply F5; [exact HI1|exact Wp|exact AP1]).
    assert (EX : exists q, @niggli_reduce RNum P dtol p (1 / 100000) = Ok q /\ lattice q = Q).
    { rewrite niggli_reduce_eq, cbrt_pos, VP by exact F4. fold eps. rewrite F2. rewrite NL. eexists. split; [reflexivity|]. rewrite rebuilt_lattice. reflexivity. }
    destruct EX as (q & G1 & G2). assert (Wq : well_conditioned (lattice q)) by now rewrite G2.
    assert (LQ : exists Ti, ZMmul T Ti = ZMid /\ ZMdet T = 1%Z /\ like (MofZ (ZMmul Ti I1)) (sites_of s) q).
    { destruct (niggli_like P dtol HP p q _ _ LP F4 ltac:(rewrite VP; fold eps; exact EPS) G1 Wq) as (T' & HT & ET & HTi).
      assert (ETT : T' = T).
      { apply MofZ_inj. assert (DN : Mdet (lattice p) <> 0) by lra. destruct (Madj_inverse _ DN) as [_ I].
        rewrite <- (Mmul_id_l (MofZ T')), <- (Mmul_id_l (MofZ T)), <- I, !Mmul_assoc, <- ET, G2. unfold Q. rewrite <- F2. reflexivity. }
      subst T'. destruct (unimodular_inverse T (or_introl HT)) as (Ti & HI). exists Ti. split; [exact HI|]. split; [exact HT|]. rewrite MofZ_mul. now apply HTi. }
    destruct LQ as (Ti & HTi & DT & LQ). set (Y := ZMmul Z1 T) in *. set (Yi := ZMmul Ti I1) in *.
    assert (YI : ZMmul Y Yi = ZMid) by (unfold Y, Yi; now apply Zcompose).
    assert (LQL : lattice q = Mmul L (MofZ Y)) by (rewrite G2; unfold Q, Y; rewrite MofZ_mul, Mmul_assoc; reflexivity).
    destruct (unimodular_inverse _ (or_introl DT0)) as (I2 & HI2).
    assert (CQ : forall W Wi k, ZMmul W Wi = ZMid -> 24 * dtol <= Vnorm (Ccol (Mmul L (MofZ W)) k)).
    { intros W Wi k HW. apply roomy_col. exact (roomy_mul dtol L W Wi (zinv_comm _ _ HW) RM). }
    destruct (apply_like dtol q (transpose T0) I2 Y Yi (sites_of s) fuel LQ (zinv_comm _ _ YI) HI2 (or_introl DT0)) as (cc & C1 & C2 & C3); [lra|..|lia| |].
    { intro k. rewrite LQL. pose proof (CQ Y Yi k YI). lra. } { intro k. rewrite LQL. pose proof (CQ Y Yi k YI). lra. } { rewrite G2. now apply AP2. }
    set (W := ZMmul Y (transpose T0)) in *. set (Wi := ZMmul I2 Yi) in *.
    assert (WI : ZMmul W Wi = ZMid) by (unfold W, Wi; now apply Zcompose).
    assert (LCL : lattice cc = Mmul L (MofZ W)) by (rewrite C2, LQL, Mmul_assoc, <- MofZ_mul; reflexivity).
    destruct (apply_like dtol cc ZMid ZMid W Wi (sites_of s) fuel C3 (zinv_comm _ _ WI) eq_refl (or_introl eq_refl)) as (std & K1 & K2 & K3); [lra|..|lia| |].
    { intro k. rewrite LCL. pose proof (CQ W Wi k WI). lra. } { intro k. rewrite LCL. pose proof (CQ W Wi k WI). lra. }
    { assert (X : ZMmul ZMid Wi = Wi) by (apply MofZ_inj; rewrite MofZ_mul, MofZ_id; apply Mmul_id_l). rewrite LCL, X, Mmul_assoc, <- MofZ_mul, WI, MofZ_id, Mmul_id_r. exact AP. }
    assert (X : ZMmul ZMid Wi = Wi) by (apply MofZ_inj; rewrite MofZ_mul, MofZ_id; apply Mmul_id_l). rewrite X in K3.
    rewrite MofZ_id, Mmul_id_r in K2.
    assert (PT : @prim_trans_of RNum CP = Some (Mid : mat R)).
    { cbn. f_equal. apply (@mat_ext R); cbn; field. }
    assert (EC' : @get_lattice_character RNum q (1 / 100000) = Ok n).
    { assert (DQ : Mdet (lattice q) = Rabs (Mdet L)). { rewrite G2. unfold Q. rewrite <- F2, Mdet_mul, MofZ_det, DT, VP. lra. }
      assert (DQ' : 0 < Mdet (lattice q)) by (rewrite DQ, <- VP; exact F4).
      rewrite (lattice_character_R q (1 / 100000) DQ'). cbv zeta. rewrite DQ, G2. exact EC. }
    exists p, q, std, (Mtr (MofZ T0)), (Mid : mat R), n, b, W, Wi. split; [|exact OUT]. constructor; auto.
    - change (1 / 100000) with (@tol_1em5 RNum) in *. constructor; auto.
      + unfold conventional_transformation_matrix. rewrite EC'. cbn [bind]. rewrite R2. reflexivity.
      + unfold primitive_transformation_matrix. rewrite R1. cbn [of_opt bind]. rewrite R7. cbn [bind]. numR. rewrite PT. reflexivity.
      + exists cc. split; [exact C1|]. rewrite <- MofZ_id. exact K1.
    - unfold Mdet, Mid. cbn. lra.
    - change (Mdet (MofZ (transpose T0)) <> 0). rewrite MofZ_det, DT0. lra.
    - rewrite K2, LCL. unfold W, Y. rewrite !MofZ_mul, !Mdet_mul, !MofZ_det, DT, DT0. rewrite Mdet_mul, MofZ_det in F4'. lra.
    - now rewrite K2.
  Qed.
End PStages.
