(** Cubic crystals in the conventional cell of a centred lattice: the primitive cell that is found (reduce.rs 26-205) *)
From Coq Require Import ZArith Reals String Ascii List Bool Lia Lra Psatz Permutation Sorting.Sorted.
From Verif Require Import Num Mat Utils DataCore DataPG DataSG SymmOp PointGroup SpaceGroup Structure Reduce Analyzer RInst Spec Spec2 Spec3 Spec5 Spec6 Spec8 Spec10 Spec11 Spec12 RFacts
  PUtils PSymmOp PStructure PStructure2 PStructure3 PNiggli PDelaunay PPrim PPrim2 PPrim3 PPrim4 PPrim5 PLattice PAnalyzer PAnalyzer2 PPointGroup PPointGroup2
  PNiggli2 PNiggli3 PNiggli4 PSpaceGroup PSpaceGroup2 PCode PTables PIdentify PSearch PSearch3 PSearch4 PSearch6 PSearch7 PEnd PEnd2 PEnd3 PEnd4 PEnd7 PEnd8 PEnd9 PEnd10 PEnd11 PEnd12 PEnd13 PEnd14 Prop5 PRun PHex3 PHex5 PEnd16 PEnd17 PEnd18 PHex6 PHex7 PCen PCen2 PCen3 PCen5 PConv Spec4 Prop17.
Import ListNotations.
Open Scope R_scope.

Ltac comps E := let A := fresh in let B := fresh in let C := fresh in pose proof (f_equal vx E) as A; pose proof (f_equal vy E) as B; pose proof (f_equal vz E) as C; cbn [Vadd Vsub VofZ vx vy vz] in A, B, C.
Ltac vlin := unfold Vadd, Vsub, VofZ, ZVadd, zneg in *; cbn [vx vy vz] in *; apply (@vec_ext R); cbn [vx vy vz]; rewrite ?plus_IZR, ?opp_IZR; lra.
Lemma Z2_scal Z1 : MofZ (ZMmul Z2 Z1) = Mscal 2 (MofZ Z1).
Proof. unfold ZMmul, Z2, MofZ, Mscal, mmap. cbn [m11 m12 m13 m21 m22 m23 m31 m32 m33]. apply (@mat_ext R); cbn [m11 m12 m13 m21 m22 m23 m31 m32 m33]; rewrite !plus_IZR, !mult_IZR; ring. Qed.
Lemma Z2_app v : Mapp (MofZ Z2) v = Vadd v v.
Proof. destruct v as [x y z]. unfold Mapp, MofZ, Z2, mmap, Vadd. cbn. apply (@vec_ext R); cbn; ring. Qed.
Lemma half_mul (A B D : mat R) Y : Mmul B D = Mscal 2 Y -> Mmul (scaleL 2 (Mmul A B)) D = Mmul A Y.
Proof.
  intro E. assert (X : Mmul (scaleL 2 (Mmul A B)) D = Mscal (/ 2) (Mmul A (Mmul B D))).
  { rewrite <- Mmul_assoc. generalize (Mmul A B). intros [a b c d e f g h i]. destruct D as [a' b' c' d' e' f' g' h' i']. unfold scaleL, Mscal, Mmul, mmap. cbn [m11 m12 m13 m21 m22 m23 m31 m32 m33]. apply (@mat_ext R); cbn [m11 m12 m13 m21 m22 m23 m31 m32 m33]; field. }
  rewrite X, E. destruct A as [a b c d e f g h i], Y as [a' b' c' d' e' f' g' h' i']. unfold Mscal, Mmul, mmap. cbn [m11 m12 m13 m21 m22 m23 m31 m32 m33]. apply (@mat_ext R); cbn [m11 m12 m13 m21 m22 m23 m31 m32 m33]; field.
Qed.

Section Conv.
  Context (f : bool) (P : @Pinv RNum) (HO : HashOrd) (dtol a d : R) (fuel : nat) (path : list nat) (s0 : @structure RNum).
  Hypothesis (HP : pinv_inverts P) (HF : (48 <= fuel)%nat) (WF : List.length (frac_coords s0) = List.length (species s0)).
  Hypothesis BIG : (0 < Z.of_nat (List.length (species s0)) <= 65535)%Z.
  Hypothesis (Hd : 1 / 100000 <= dtol <= 1 / 25) (Ba : 2 <= a <= 1000).
  Let L0 := lattice s0.
  Let u := a * a / 4.
  Let g0 := km f.
  Let S0 := sites_of s0.
  Hypothesis EG : gram L0 = zmet u g0.
  Hypothesis (SP : spread d S0) (Da : 36 * dtol <= d * a).
  Hypothesis RI : rigid (2 * dtol) L0 S0 (lattice_isometry L0).
  Context (order N : Z) (codes : list Z) (sym : string).
  Hypothesis (HT : In (Cubic, order, N, codes) sg_entries) (ES : am_get Z.eqb N SG_NUM_TO_SYMBOL = Some sym) (HN : In N (kall f)).
  Hypothesis IFF : forall r t, (lattice_isometry L0 r /\ exact_operation S0 r t) <->
    exists o, In o (group_ops sym codes) /\ r = fst o /\ Vcongr t (in_twelfths (snd o)).
  Let Hd1 : 1 / 100000 <= dtol <= 1 / 24. Proof using Hd. lra. Qed.
  Let AP4 : apart (4 * dtol) L0 S0 := k_apart4 f P HO dtol a d fuel path s0 HP HF WF BIG Hd Ba EG SP Da RI order N codes sym HT ES HN IFF.
  Let TRANS : forall t, exact_operation S0 ZMid t -> exists n, t = VofZ n := k_trans f P HO dtol a d fuel path s0 HP HF WF BIG Hd Ba EG SP Da RI order N codes sym HT ES HN IFF.
  Let IDI : lattice_isometry L0 ZMid := k_id f P HO dtol a d fuel path s0 HP HF WF BIG Hd Ba EG SP Da RI order N codes sym HT ES HN IFF.
  Let DET0 : Mdet L0 <> 0 := kdet0 f P HO dtol a d fuel path s0 HP HF WF BIG Hd1 Ba EG SP Da.
  Let APARTS := kapart f P HO dtol a d fuel path s0 HP HF WF BIG Hd1 Ba EG SP Da.
  (** the same crystal in cubic axes *)
  Context (s : @structure RNum) (C : mat Z).
  Let L := lattice s.
  Let S := sites_of s.
  Hypothesis (WFs : List.length (frac_coords s) = List.length (species s)) (HMs : (Z.of_nat (List.length (species s)) <= 65535)%Z).
  Hypothesis (LC : L = Mmul L0 (MofZ C)) (KC : kform g0 C = C6).
  Hypothesis SA1 : forall x e, In (x, e) S -> exists y, In (y, e) S0 /\ Vcongr (Mapp (MofZ C) x) y.
  Hypothesis SA2 : forall y e n, In (y, e) S0 -> exists x m, In (x, e) S /\ Mapp (MofZ C) (Vadd x (VofZ m)) = Vadd y (VofZ n).
  Hypothesis ONCE : listed_once S.
  Let Ci := khalf C.
  Lemma cv_half v : Mapp (MofZ Ci) (Mapp (MofZ C) v) = Vadd v v.
  Proof using KC. destruct (kcube f C KC) as (_ & _ & _ & X & _). rewrite <- Mapp_Mmul, <- MofZ_mul. unfold Ci. rewrite X. apply Z2_app. Qed.
  Lemma cv_inj v w : Mapp (MofZ C) v = Mapp (MofZ C) w -> v = w.
  Proof using KC. intro E. apply (f_equal (Mapp (MofZ Ci))) in E. rewrite !cv_half in E. comps E. apply (@vec_ext R); lra. Qed.
  Lemma cv_inner : inner_set dtol s 2 (kH f).
  Proof using All.
    destruct (kcube f C KC) as (D0 & _ & _ & _ & _ & CM & EV & _). destruct (kdirs f) as (_ & _ & CL). split.
    - intros h x e Hh Hx. destruct (SA1 x e Hx) as (y & Hy & (k & E)). destruct (EV h Hh) as (c & Ec).
      destruct (SA2 y e (ZVadd k c) Hy) as (x' & m & Hx' & E'). exists x', m. split; [exact Hx'|]. apply cv_inj. rewrite E', Mapp_add, E, VofZ_add.
      assert (EH : Mapp (MofZ C) (fracN 2 h) = VofZ c).
      { assert (X : Mapp (MofZ C) (VofZ h) = Vadd (VofZ c) (VofZ c)).
        { rewrite <- MofZ_app, Ec. unfold VofZ, Vadd. cbn [vx vy vz]. apply (@vec_ext R); cbn [vx vy vz]; rewrite mult_IZR; ring. }
        assert (Y : VofZ h = Vadd (fracN 2 h) (fracN 2 h)) by (unfold VofZ, fracN, Vadd; cbn [vx vy vz]; apply (@vec_ext R); cbn [vx vy vz]; lra).
        rewrite Y, Mapp_add in X. comps X. apply (@vec_ext R); cbn [VofZ vx vy vz]; lra. }
      rewrite EH. vlin.
    - intros i j x y e Hij Hx Hy Ex Ey ST.
      pose proof (zip_nth _ _ _ _ _ Hx Ex) as Zx. pose proof (zip_nth _ _ _ _ _ Hy Ey) as Zy.
      destruct (SA1 x e (nth_error_In _ _ Zx)) as (x0 & Hx0 & (nx & Enx)). destruct (SA1 y e (nth_error_In _ _ Zy)) as (y0 & Hy0 & (ny & Eny)).
      destruct (RI ZMid (Mapp (MofZ C) (Vsub x y)) IDI) as (t0 & n & EX & Q).
      { intros z g Hz. destruct (SA2 z g (V 0 0 0)%Z Hz) as (w & m & Hw & Ew). destruct (ST w g Hw) as (w1 & k & Hw1 & K). destruct (SA1 w1 g Hw1) as (z1 & Hz1 & (n1 & En1)).
        exists z1, (ZVadd (ZMapp C k) (zneg (ZVadd (ZMapp C m) n1))). split; [exact Hz1|]. unfold act. rewrite MofZ_id, Mapp_id.
        match type of K with Vnorm ?A <= _ => match goal with |- Vnorm ?B <= _ => replace B with A; [exact K|] end end. change (lattice s) with L. rewrite LC, Mapp_Mmul. f_equal.
        rewrite !Mapp_add, !Mapp_sub, !Mapp_add in *. rewrite !VofZ_add, VofZ_neg, !VofZ_add, !MofZ_app. rewrite Mapp_sub in *.
        revert Ew En1. generalize (Mapp (MofZ C) w) (Mapp (MofZ C) (VofZ m)) (Mapp (MofZ C) w1) (Mapp (MofZ C) (VofZ k)) (Mapp (MofZ C) x) (Mapp (MofZ C) y). clear.
        intros v1 v2 v3 v4 v5 v6 E1 E2. comps E1. comps E2. unfold Vadd, Vsub, VofZ, Vscal in *. cbn [vx vy vz] in *. apply (@vec_ext R); cbn [vx vy vz]; lra. }
      destruct (TRANS t0 EX) as (m & ->).
      assert (EQ : (x0, e) = (y0, e)).
      { destruct (site_dec (x0, e) (y0, e)) as [D|D]; [exact D|exfalso]. apply In_nth_error in Hx0, Hy0. destruct Hx0 as (i0 & Hi0), Hy0 as (j0 & Hj0). assert (N0 : i0 <> j0) by (intros ->; congruence).
        pose proof (apart_sites_apart _ _ _ AP4 i0 j0 x0 y0 e (ZVadd (ZVadd nx (zneg ny)) (ZVadd (zneg m) n)) N0 Hi0 Hj0) as K.
        match type of K with _ < Vnorm ?A => match type of Q with Vnorm ?B <= _ => replace B with A in Q; [lra|] end end. f_equal. rewrite Mapp_sub, Enx, Eny. vlin. }
      injection EQ as <-. set (q := ZVadd nx (zneg ny)). assert (E1 : Mapp (MofZ C) (Vsub x y) = VofZ q) by (rewrite Mapp_sub, Enx, Eny; unfold q; vlin).
      assert (E2 : Vsub x y = fracN 2 (ZMapp Ci q)).
      { pose proof (cv_half (Vsub x y)) as X. rewrite E1, <- MofZ_app in X. comps X. unfold fracN. apply (@vec_ext R); unfold Vsub; cbn [vx vy vz]; lra. }
      destruct (fracN_mod 2 (ZMapp Ci q) ltac:(lia)) as (n' & E3). pose proof (closed_app 2 (kH f) Ci q ltac:(lia) CL CM) as IN. destruct IN as [O|IN].
      + exfalso. apply (ONCE i j x e y e (zneg n') Hij Zx Zy). rewrite E2, E3, <- O. unfold fracN, o3. vlin.
      + exists (modN 2 (ZMapp Ci q)), n'. split; [exact IN|]. rewrite E2. exact E3.
  Qed.
  Let DKU : 1 <= u <= 250000 /\ sqrt u = a / 2 := ku a Ba.
  Lemma cv_gram : gram L = zmet u C6.
  Proof using All. rewrite LC, <- KC. apply gram_mul. exact EG. Qed.
  Lemma cv_gram2 : gram (scaleL 2 L) = zmet u I6.
  Proof using All.
    pose proof cv_gram as E. assert (X : gram (scaleL 2 L) = Mscal (/ 4) (gram L)).
    { generalize L. intros [a1 b1 c1 d1 e1 f1 g1 h1 i1]. unfold gram, scaleL, Mmul, Mtr, Mscal, mmap. cbn [m11 m12 m13 m21 m22 m23 m31 m32 m33]. apply (@mat_ext R); cbn [m11 m12 m13 m21 m22 m23 m31 m32 m33]; field. }
    rewrite X, E. unfold zmet, C6, scale6, I6, Mscal, mmap. cbn. apply (@mat_ext R); cbn; field.
  Qed.
  Lemma cv_col k : (k < 3)%nat -> Vnorm (Ccol L k) = a.
  Proof using All.
    intro Hk. assert (E : Vdot (Ccol L k) (Ccol L k) = a * a).
    { pose proof cv_gram as E. pose proof (f_equal m11 E) as A1. pose proof (f_equal m22 E) as A2. pose proof (f_equal m33 E) as A3. unfold zmet, C6, scale6, I6, u in A1, A2, A3. cbn [m11 m22 m33 za zb zc] in A1, A2, A3.
      destruct k as [|[|[|k]]]; [..|lia]; [transitivity (m11 (gram L))|transitivity (m22 (gram L))|transitivity (m33 (gram L))]; try (unfold Vdot, Ccol, gram, Mmul, Mtr; cbn; ring); [rewrite A1|rewrite A2|rewrite A3]; cbn; field. }
    unfold Vnorm. rewrite E. apply sqrt_square. lra.
  Qed.
  Lemma cv_det : Rabs (Mdet L) = a * a * a.
  Proof using All.
    pose proof (det_val u C6 L cv_gram) as E. change (zdet6 C6) with 64%Z in E. unfold u in E. replace (a * a / 4 * (a * a / 4) * (a * a / 4) * IZR 64) with ((a * a * a) * (a * a * a)) in E by field.
    rewrite <- (sqrt_square (Rabs (Mdet L))) by apply Rabs_pos. rewrite <- Rabs_mult, Rabs_pos_eq by nra. rewrite E. apply sqrt_square. assert (0 < a * a) by nra. nra.
  Qed.
  Lemma cv_prim pth : exists Z1 p, @find_primitive_cell RNum P HO pth dtol s = Ok p /\ lattice p = Mmul L0 (MofZ Z1) /\ (ZMdet Z1 = 1 \/ ZMdet Z1 = -1)%Z /\ 0 < Mdet (lattice p) /\
    small 1 Z1 /\ (ztr (kform g0 Z1) <= 100)%Z /\ znig 100 (kform g0 Z1) = Some g0 /\ (forall I1, ZMmul Z1 I1 = ZMid -> like (MofZ I1) S0 p).
  Proof using All.
    destruct DKU as (U1 & _). fold u in U1. assert (PU : 0 < u) by lra.
    assert (A3 : 4 * a <= a * a * a) by nra. assert (WFs' : List.length (species s) = List.length (frac_coords s)) by (symmetry; exact WFs).
    assert (NES0 : exists y e, In (y, e) S0).
    { assert (X2 : List.length S0 = List.length (species s0)) by (apply zip_length; exact WF). clear - X2 BIG. revert X2. generalize S0. intros [|[y e] l] X2; [cbn in X2; lia|]. exists y, e. now left. }
    assert (HNE : species s <> []).
    { destruct NES0 as (y & e & Hy). destruct (SA2 y e (V 0 0 0)%Z Hy) as (x & m & Hx & _). unfold S, sites_of in Hx. apply in_combine_r in Hx. intro Q. rewrite Q in Hx. destruct Hx. }
    assert (H0 : 0 < dtol) by lra.
    assert (DL0 : Mdet L <> 0) by (intro Q; pose proof cv_det as X; rewrite Q, Rabs_R0 in X; lra).
    assert (HSg : exists sg, (sg = 1 \/ sg = -1)%Z /\ Mdet L = Rabs (Mdet L) * IZR sg).
    { destruct (Rle_or_lt 0 (Mdet L)); [exists 1%Z; split; [auto|rewrite Rabs_pos_eq by lra; lra]|exists (-1)%Z; split; [auto|rewrite Rabs_left by lra; lra]]. }
    destruct HSg as (sg & HSg). destruct (kdirs f) as (HDb & NDb & _).
    destruct (prim_multi P HO pth dtol s 2 (kH f) sg WFs' HNE HMs H0 ltac:(lia)) as (lz & Pmz & SSz & SEL).
    - intros k Hk. fold L. rewrite (cv_col k Hk). split; lra.
    - fold L. rewrite cv_det, !cv_col by lia. nra.
    - fold L. rewrite cv_det. lra.
    - apply HP. apply (gram_well u C6); [lra|exact cv_gram|cbv; discriminate|exact DL0].
    - apply nodupb_spec in NDb. now inversion NDb.
    - rewrite forallb_forall in HDb. intros h Hh. now apply dirb_spec, HDb.
    - exact cv_inner.
    - exact HSg.
    - fold L in SSz, SEL. set (Ln := scaleL 2 L) in *.
      pose proof (kcells f sg (proj1 HSg)) as OBs. unfold orders in OBs. rewrite forallb_forall in OBs.
      specialize (OBs _ (undup_in _ _ (in_map (zsel sg) _ _ (sperms_in u I6 Ln PU cv_gram2 lz _ Pmz SSz)))). destruct (zsel sg lz) as [[[a1 b1] c1]|] eqn:EZ; [|discriminate].
      cbv zeta in OBs. rewrite !andb_true_iff, negb_true_iff in OBs. destruct OBs as ((Q1 & Q2) & Q3). apply Z.eqb_neq in Q1.
      destruct (SEL a1 b1 c1 eq_refl Q1) as (z1 & z2 & z3 & EP & I1 & I2 & I3 & DZ & DP & S3). cbv zeta in EP, DP.
      set (K := ZMmul (zcols a1 b1 c1) (zcols z1 z2 z3)) in *.
      assert (TK : kcell_test f (kcubes f) K = true).
      { rewrite forallb_forall in Q3. apply Q3. apply (picks_in u _ (Mmul Ln (MofZ (zcols a1 b1 c1)))); auto. apply gram_mul, cv_gram2. }
      destruct (kcell f C K KC TK) as (Z1 & E1 & SM & DT & TR & NG).
      assert (EL : Mmul Ln (MofZ K) = Mmul L0 (MofZ Z1)) by (unfold Ln; rewrite LC; apply half_mul; rewrite <- MofZ_mul, E1; apply Z2_scal).
      assert (EK : kform g0 Z1 = kform I6 K).
      { apply (zmet_inj u); [exact PU|]. rewrite <- (gram_mul u g0 L0 Z1 EG), <- EL. apply gram_mul, cv_gram2. }
      rewrite EL in EP, DP. set (L' := Mmul L0 (MofZ Z1)) in *.
      eexists Z1, _. split; [exact EP|]. rewrite (proj1 (normalize_coords_spec _ dtol)). cbn [lattice]. split; [reflexivity|]. split; [exact DT|]. split; [exact DP|]. split; [exact SM|]. rewrite EK. split; [exact TR|]. split; [exact NG|].
      intros Iz HI. pose proof (zinv_comm _ _ HI) as HI'.
      assert (WP : well_conditioned L') by (apply (gram_well u (kform I6 K)); [lra|rewrite <- EK; apply gram_mul; exact EG|exact TR|lra]).
      pose proof (HP L' WP) as INV.
      assert (CONV : forall v, Mapp (@pinv RNum P L') (Mapp L v) = Mapp (MofZ Iz) (Mapp (MofZ C) v)).
      { intro v. rewrite LC, Mapp_Mmul. rewrite <- (Mapp_id (Mapp (MofZ C) v)) at 1. rewrite <- MofZ_id, <- HI, MofZ_mul, Mapp_Mmul. rewrite <- (Mapp_Mmul L0 (MofZ Z1)). apply inv_app. split; apply INV. }
      assert (AP2 : apart (2 * dtol) (Mmul L (MofZ Iz)) S0).
      { rewrite LC, Mmul_assoc. apply (APARTS (2 * dtol) (9 / 2) _ (Mscal (/ 2) (Mmul (MofZ Z1) (MofZ Ci)))); [| |lra|lra].
        - destruct (kcube f C KC) as (_ & _ & _ & X & _). fold Ci in X. rewrite <- !MofZ_mul.
          replace (Mmul (Mscal (/ 2) (MofZ (ZMmul Z1 Ci))) (MofZ (ZMmul C Iz))) with (Mscal (/ 2) (MofZ (ZMmul (ZMmul Z1 Ci) (ZMmul C Iz)))).
          + rewrite ZMmul_assoc, <- (ZMmul_assoc Ci C), X.
            replace (ZMmul Z1 (ZMmul Z2 Iz)) with (ZMmul Z2 (ZMmul Z1 Iz)) by (clear; destruct Z1 as [q1 q2 q3 q4 q5 q6 q7 q8 q9], Iz as [r1 r2 r3 r4 r5 r6 r7 r8 r9]; unfold ZMmul, Z2; cbn [m11 m12 m13 m21 m22 m23 m31 m32 m33]; f_equal; ring).
            rewrite HI, Z2_scal, MofZ_id. unfold Mscal, Mid, mmap. cbn [m11 m12 m13 m21 m22 m23 m31 m32 m33]. apply (@mat_ext R); cbn [m11 m12 m13 m21 m22 m23 m31 m32 m33]; field.
          + rewrite (MofZ_mul (ZMmul Z1 Ci)). generalize (MofZ (ZMmul Z1 Ci)) (MofZ (ZMmul C Iz)). clear. intros [q1 q2 q3 q4 q5 q6 q7 q8 q9] [r1 r2 r3 r4 r5 r6 r7 r8 r9]. unfold Mscal, Mmul, mmap. cbn [m11 m12 m13 m21 m22 m23 m31 m32 m33]. apply (@mat_ext R); cbn [m11 m12 m13 m21 m22 m23 m31 m32 m33]; ring.
        - intro v. destruct (kcube f C KC) as (_ & _ & _ & _ & SC & _). fold Ci in SC.
          replace (Mapp (Mscal (/ 2) (Mmul (MofZ Z1) (MofZ Ci))) v) with (Vscal (/ 2) (Mapp (MofZ Z1) (Mapp (MofZ Ci) v))).
          + rewrite Vnorm_scal, Rabs_pos_eq by lra. pose proof (small_norm 1 Z1 (Mapp (MofZ Ci) v) ltac:(lia) SM) as B1. pose proof (small_norm 1 Ci v ltac:(lia) SC) as B2. lra.
          + rewrite <- Mapp_Mmul. generalize (Mmul (MofZ Z1) (MofZ Ci)). clear. intros [q1 q2 q3 q4 q5 q6 q7 q8 q9]. destruct v as [x y z]. unfold Mapp, Mscal, Vscal, mmap. cbn. apply (@vec_ext R); cbn; ring. }
      set (temp := @normalize_coords RNum s dtol).
      assert (HFT : forall k, 0 <= vnth (@frac_tols_of RNum L dtol) k <= 1) by (apply tols_unit; [exact H0|]; intros j Hj; rewrite (cv_col j Hj); lra).
      set (pts := combine (map (Mapp (@pinv RNum P L')) (coords temp)) (species temp)).
      assert (PT : forall z e, In (z, e) pts -> exists y, z = Mapp (@pinv RNum P L') (Mapp L y) /\ In (y, e) (combine (frac_coords temp) (species temp))).
      { intros z e Hz. unfold pts in Hz. destruct (normalize_coords_spec s dtol) as (_ & _ & _ & _ & EC & _). fold temp in EC. rewrite EC in Hz. fold L in Hz. revert Hz. generalize (species temp) (frac_coords temp). clear.
        intros sp fc. revert sp. induction fc as [|y fc IH]; intros [|g sp]; cbn; try tauto. intros [E|Hx]; [injection E as <- <-; eauto|]. destruct (IH sp Hx) as (y' & ? & ?). eauto. }
      assert (PT' : forall y e, In (y, e) (combine (frac_coords temp) (species temp)) -> In (Mapp (@pinv RNum P L') (Mapp L y), e) pts).
      { intros y e Hy. unfold pts. destruct (normalize_coords_spec s dtol) as (_ & _ & _ & _ & EC & _). fold temp in EC. rewrite EC. fold L. revert Hy. generalize (species temp) (frac_coords temp). clear.
        intros sp fc. revert sp. induction fc as [|y' fc IH]; intros [|g sp]; cbn; try tauto. intros [E|Hx]; [injection E as <- <-; now left|]. right. now apply IH. }
      assert (SC : forall z e, In (z, e) pts -> exists q, In q S0 /\ rel (MofZ Iz) (z, e) q).
      { intros z e Hz. destruct (PT z e Hz) as (y & -> & Hy). destruct (temp_site dtol s WFs' y e Hy) as (x0 & n & Hx0 & ->). destruct (SA1 x0 e Hx0) as (y0 & Hy0 & (m & Em)). exists (y0, e). split; [exact Hy0|]. split; [reflexivity|]. cbn [fst].
        exists (ZMapp Iz (ZVadd m (ZMapp C n))). rewrite CONV, Mapp_add, Em, MofZ_app, VofZ_add, (MofZ_app C), <- Mapp_add. f_equal. vlin. }
      destruct (fold_pass dtol L (@frac_tols_of RNum L dtol) S0 Iz Z1 HFT H0 HI' AP2 pts SC [] ([], [])) as (l' & KP & _ & ALL).
      { constructor; cbn [fst snd combine List.length]; [intros x []|constructor|reflexivity|constructor]. }
      assert (ND : NoDup S0) by (apply (apart_distinct (2 * dtol) (Mmul L (MofZ Iz))); [lra|exact AP2]).
      assert (PL : Permutation l' S0).
      { apply NoDup_Permutation; [exact (kp_nodup _ _ _ _ KP)|exact ND|]. intro q. split; [apply (kp_incl _ _ _ _ KP)|]. intro Hq. destruct q as [y e]. destruct (SA2 y e (V 0 0 0)%Z Hq) as (x & m & Hx & Ex).
        destruct (temp_site_all dtol s x e Hx) as (n & Hn). apply (ALL (Mapp (@pinv RNum P L') (Mapp L (Vadd x (VofZ n)))) e (y, e)); [exact (PT' _ _ Hn)| |exact Hq].
        split; [reflexivity|]. cbn [fst]. exists (ZMapp Iz (ZVadd (ZMapp C n) (zneg (ZMapp C m)))). rewrite CONV, MofZ_app, <- Mapp_add. f_equal. rewrite VofZ_add, VofZ_neg, !MofZ_app. rewrite !Mapp_add in *. revert Ex. generalize (Mapp (MofZ C) x) (Mapp (MofZ C) (VofZ m)) (Mapp (MofZ C) (VofZ n)). clear.
        intros v1 v2 v3 E1. comps E1. unfold Vadd, Vsub, VofZ, Vscal in *. cbn [vx vy vz] in *. apply (@vec_ext R); cbn [vx vy vz]; lra. }
      change (fold_left (@fp_fold_step RNum L (@frac_tols_of RNum L dtol) dtol) pts ([], [])) with (folded P dtol s L') in KP. destruct (folded P dtol s L') as [nfc nsp].
      pose proof (kp_len _ _ _ _ KP) as LN. pose proof (kp_rel _ _ _ _ KP) as FR. cbn [fst snd] in LN, FR |- *. apply like_normalize; [exact LN|].
      destruct (Forall2_perm_r _ _ _ PL _ FR) as (a' & Y1 & Y2). exists a'. split; [exact Y1|exact Y2].
  Qed.
  Lemma cv_frame : exists p q std Tm Pm n W Wi, @stages RNum P HO fuel path dtol s p q std Tm Pm n (kb f) /\ well_conditioned (lattice p) /\ well_conditioned (lattice q) /\ Mdet Pm <> 0 /\ Mdet Tm <> 0 /\ 0 < Mdet (lattice std) /\
    ZMmul W Wi = ZMid /\ lattice std = Mmul L0 (MofZ W) /\ like (MofZ Wi) S0 std /\ kform g0 W = g0.
  Proof using All.
    destruct (cv_prim (0%nat :: path)) as (Z1 & p & F1 & F2 & F3 & F4 & SZ & TZ & NZ & LKp).
    assert (NES : S0 <> []). { intro X. assert (X2 : List.length S0 = List.length (species s0)) by (apply zip_length; exact WF). rewrite X in X2. cbn in X2. lia. }
    destruct (keps f P HO dtol a d fuel path s0 HP HF WF BIG Hd1 Ba EG SP Da) as (_ & E1).
    destruct (c_tail P HO dtol fuel path s p L0 S0 Z1 HP HF ltac:(lra) NES (kroomy f P HO dtol a d fuel path s0 HP HF WF BIG Hd1 Ba EG SP Da) E1 (kout f) F1 F2 F3 F4 (fun I1 HI _ _ => LKp I1 HI)
      (kpick_gen f P HO dtol a d fuel path s0 HP HF WF BIG Hd1 Ba EG SP Da Z1 SZ TZ NZ F3)) as (q & std & Tm & Pm & n & b & W & Wi & ST & Wp & Wq & DPm & DTm & DS & WI & LW & LK & (KW & ->)).
    exists p, q, std, Tm, Pm, n, W, Wi. split; [exact ST|]. split; [exact Wp|]. split; [exact Wq|]. split; [exact DPm|]. split; [exact DTm|]. split; [exact DS|]. split; [exact WI|]. split; [exact LW|]. split; [exact LK|exact KW].
  Qed.
  Lemma cv_answered : In N (kgroups f) -> exists ops, @get_space_group_info RNum P HO fuel path dtol s = Ok (N, sym, ops) /\
    List.length ops = (List.length codes * Z.to_nat (if f then 4 else 2))%nat /\
    (forall op, In op ops -> exists o t m, In o (group_ops sym codes) /\ nanos (3 * (1 / 1000000000)) t (in_twelfths (snd o)) /\ moved_operation C (fst o) t m (rotation op) (translation op)) /\
    (forall o, In o (group_ops sym codes) -> exists t, nanos (3 * (1 / 1000000000)) t (in_twelfths (snd o)) /\ forall m, exists op, In op ops /\ moved_operation C (fst o) t m (rotation op) (translation op)).
  Proof using All.
    intro NG. destruct cv_frame as (p & q & std & Tm & Pm & n & W & Wi & ST & Wp & Wq & DPm & DTm & DS & WI & LW & LK & KW).
    pose proof (k_good_cell f P HO dtol a d fuel path s0 HP HF WF BIG Hd Ba EG SP Da RI order N codes sym HT ES HN IFF std W Wi WI LW KW) as KG. fold L0 in LW.
    pose proof (zinv_comm _ _ WI) as IW. destruct (ksmall f W KW) as (SW & DW). destruct (ksmall f Wi (kg_back _ _ _ _ _ _ KG)) as (_ & DWi).
    assert (GAIN : forall e x y, 0 <= e -> nanos e x y -> nanos (3 * e) (Mapp (MofZ W) x) (Mapp (MofZ W) y)).
    { intros e x y He Hn. apply nanos_rows; [|exact He|exact Hn].
      intros X Y Z0 Hin. rewrite <- !plus_IZR. apply (IZR_le _ 3). clear - SW Hin. destruct W as [w1 w2 w3 w4 w5 w6 w7 w8 w9]. unfold small, entries_within in SW. cbn [m11 m12 m13 m21 m22 m23 m31 m32 m33 In] in SW, Hin.
      destruct Hin as [E|[E|[E|[]]]]; injection E as <- <- <-; lia. }
    assert (K1 : forall o, In o (group_ops sym codes) -> exists o', In o' (group_ops sym codes) /\ conj Wi (fst o) W = fst o' /\ Vcongr (Mapp (MofZ Wi) (in_twelfths (snd o))) (in_twelfths (snd o'))).
    { intros o Ho. destruct (ktable f order N codes sym W o HT ES NG KW Ho) as (o' & Ho' & X). apply same_op_V12 in X. unfold conj_opi in X. cbn [fst snd] in X. rewrite (Zinv_unique W (zinv W) Wi (zinv_r W DW) WI) in X.
      exists o'. split; [exact Ho'|]. split; [exact (proj1 X)|]. change (in_twelfths (snd o)) with (V12 (snd o)). rewrite MofZ_V12. exact (proj2 X). }
    assert (K2 : forall o, In o (group_ops sym codes) -> exists o', In o' (group_ops sym codes) /\ conj W (fst o) Wi = fst o' /\ Vcongr (Mapp (MofZ W) (in_twelfths (snd o))) (in_twelfths (snd o'))).
    { intros o Ho. destruct (ktable f order N codes sym Wi o HT ES NG (kg_back _ _ _ _ _ _ KG) Ho) as (o' & Ho' & X). apply same_op_V12 in X. unfold conj_opi in X. cbn [fst snd] in X. rewrite (Zinv_unique Wi (zinv Wi) W (zinv_r Wi DWi) IW) in X.
      exists o'. split; [exact Ho'|]. split; [exact (proj1 X)|]. change (in_twelfths (snd o)) with (V12 (snd o)). rewrite MofZ_V12. exact (proj2 X). }
    (* the standard cell *)
    pose proof (like_moved _ _ _ LK) as MV.
    assert (BK : Mmul (lattice std) (MofZ Wi) = L0) by (rewrite LW, Mmul_assoc, <- MofZ_mul, WI, MofZ_id; apply Mmul_id_r).
    assert (EXA : forall r t, exact_operation (sites_of std) r t <-> exact_operation S0 (conj W r Wi) (Mapp (MofZ W) t)).
    { intros r t. split; intro EX; [exact (exact_moved Wi W S0 (sites_of std) WI MV r t EX)|].
      rewrite <- (conj_conj W r Wi WI IW), <- (app_inv Wi W t IW). apply (exact_moved W Wi (sites_of std) S0 IW); [apply (moved_sym Wi W); [exact WI|exact MV]|exact EX]. }
    assert (HR : forall o, In o (group_ops sym codes) -> In (fst o) (holo_rots (kb f)) /\ exact_operation (sites_of std) (fst o) (in_twelfths (snd o))).
    { intros o Ho. destruct (K2 o Ho) as (o' & Ho' & Y1 & Y2). destruct (proj2 (IFF (conj W (fst o) Wi) (Mapp (MofZ W) (in_twelfths (snd o))))) as [X1 X2]; [exists o'; split; [exact Ho'|split; [exact Y1|exact Y2]]|].
      split; [apply (proj2 (kg_iso _ _ _ _ _ _ KG (fst o))); exact X1|apply (proj2 (EXA _ _)); exact X2]. }
    assert (GS : gram (lattice std) = zmet u g0) by (rewrite LW, (gram_mul u g0 L0 W EG); f_equal; exact KW).
    destruct (@standard_identified HO std dtol fuel (1%nat :: path) (kb f) HF) with (ls := Cubic) (order := order) (N := N) (codes := codes) (sym := sym) as (ops & Q1 & Q2 & Q3 & Q4 & Q5 & Q6).
    { exact (lk_len _ _ _ LK). }
    { rewrite (like_length _ _ _ LK). assert (Q : List.length S0 = List.length (species s0)) by (apply zip_length; exact WF). rewrite Q. exact BIG. }
    { exact (like_grouped _ _ _ LK). } { exact (kg_fine _ _ _ _ _ _ KG). }
    { apply apart_sites_apart. apply (like_apart _ _ W Wi S0); [exact IW|exact LK|]. rewrite BK. exact AP4. }
    { apply (rigid_moved (2 * dtol) (lattice std) Wi W S0 (sites_of std) (lattice_isometry L0)); [exact WI|exact MV| |rewrite BK; exact RI]. intros r Hr. exact (proj1 (kg_iso _ _ _ _ _ _ KG r) Hr). }
    { exact HT. } { exact ES. } { exact (kopen f N NG). } { exact HR. }
    { intros r t Hr EX. apply (proj1 (EXA r t)) in EX. destruct (proj1 (IFF (conj W r Wi) (Mapp (MofZ W) t))) as (o & Ho & Y1 & V1); [split; [exact (proj1 (kg_iso _ _ _ _ _ _ KG r) Hr)|exact EX]|].
      destruct (K1 o Ho) as (o' & Ho' & Y2 & V2). exists o'. split; [exact Ho'|]. split.
      - rewrite <- Y2, <- Y1. symmetry. now apply conj_conj.
      - apply (PEnd11.Vcongr_app Wi) in V1. rewrite (app_inv Wi W t IW) in V1. exact (PSymmOp.Vcongr_trans _ _ _ V1 V2). }
    (* back to the cubic cell *)
    set (T := ZMmul Wi C). assert (ELs : L = Mmul (lattice std) (MofZ T)) by (unfold T; rewrite MofZ_mul, <- Mmul_assoc, BK; exact LC).
    assert (KT : kform g0 T = C6). { destruct DKU as (U1 & _). fold u in U1. apply (zmet_inj u); [lra|]. rewrite <- (gram_mul u g0 (lattice std) T GS), <- ELs. exact cv_gram. }
    destruct (kcube f T KT) as (DT & AT & _ & _ & _ & _ & _ & CJ).
    assert (BT : (Z.abs (ZMdet T) <= 24)%Z) by (rewrite AT; destruct f; lia).
    assert (M1 : exists m1, @get_transformation_matrix RNum P p s = Ok m1) by (unfold get_transformation_matrix; rewrite pseudo_inverse_R; cbn [of_opt bind]; eauto).
    assert (M2 : exists m2, @get_transformation_matrix RNum P q p = Ok m2) by (unfold get_transformation_matrix; rewrite pseudo_inverse_R; cbn [of_opt bind]; eauto).
    destruct M1 as (m1 & M1), M2 as (m2 & M2).
    pose proof (try_inverse_R _ DPm) as V1. pose proof (try_inverse_R _ DTm) as V2.
    pose proof (total_transformation P HO fuel path dtol s p q std _ _ _ _ m1 m2 _ _ ST HP Wp Wq M1 M2 V1 V2) as TT.
    assert (TE : Mmul (Mmul (Mmul (Madj_inv Pm) (Madj_inv Tm)) m2) m1 = MofZ T).
    { assert (CA : forall a1 b1, Mmul (lattice std) a1 = Mmul (lattice std) b1 -> a1 = b1).
      { intros a1 b1 X. destruct (Madj_inverse (lattice std) ltac:(lra)) as [_ I]. rewrite <- (Mmul_id_l a1), <- (Mmul_id_l b1), <- I, !Mmul_assoc, X. reflexivity. }
      apply CA. rewrite TT. exact ELs. }
    assert (FT : forall k, (k < 3)%nat -> 0 < dtol / Vnorm (Ccol (lattice std) k) <= 1 / 24).
    { intros k Hk. pose proof (kg_tol _ _ _ _ _ _ KG k Hk). lra. }
    assert (FT2 : forall k, (k < 3)%nat -> 0 < dtol / Vnorm (Ccol (lattice std) k) <= / 2) by (intros k Hk; specialize (FT k Hk); lra).
    destruct (C93_operations_of_a_supercell T (@frac_tols_of RNum (lattice std) dtol) ops fuel DT
      (FT2 0%nat ltac:(lia)) (FT2 1%nat ltac:(lia)) (FT2 2%nat ltac:(lia)) ltac:(lia)) as (ops' & W1 & W2 & W3 & W4 & _).
    - intros op Hop. apply CJ. destruct (Q6 op Hop) as (o & Ho & -> & _). exact (proj1 (HR o Ho)).
    - intros i j a1 a' m u1 v Ha Ha' Er Hij Eu Ev NR.
      assert (X : i = j).
      { apply (proj1 (NoDup_nth_error (map (@rotation RNum) ops)) Q4).
        - rewrite map_length. apply nth_error_Some. congruence.
        - rewrite !nth_error_map, Ha, Ha'. cbn. now rewrite Er. }
      subst j. rewrite Ha in Ha'. injection Ha' as <-. destruct Hij as [Hij|Hij]; [now apply Hij|]. apply Hij.
      apply (separated T (@frac_tols_of RNum (lattice std) dtol) u1 v m DT BT); [|rewrite Mapp_sub, Eu, Ev|exact NR].
      + intros k Hk. destruct k as [|[|[|k]]]; [exact (FT 0%nat ltac:(lia))|exact (FT 1%nat ltac:(lia))|exact (FT 2%nat ltac:(lia))|lia].
      + unfold Vsub, Vadd. apply (@vec_ext R); cbn; ring.
    - assert (MOVE : forall r t m r' t', moved_operation T r t m r' t' -> moved_operation C (conj W r Wi) (Mapp (MofZ W) t) (ZMapp W m) r' t').
      { intros r t m r' t' (nn & H). exists nn. intro x. specialize (H x). apply (f_equal (Mapp (MofZ W))) in H. unfold T in H. rewrite !MofZ_mul, !Mapp_Mmul, !Mapp_add, <- !(Mapp_Mmul (MofZ W) (MofZ Wi)), <- MofZ_mul, WI, MofZ_id, !Mapp_id in H.
        rewrite H, MofZ_app. unfold act. rewrite conj_app, Mapp_add. reflexivity. }
      assert (OR : forall op, In op ops -> exists o', In o' (group_ops sym codes) /\ conj W (rotation op) Wi = fst o' /\ nanos (3 * (1 / 1000000000)) (Mapp (MofZ W) (translation op)) (in_twelfths (snd o'))).
      { intros op Hop. destruct (Q6 op Hop) as (o & Ho & Y1 & N1). destruct (K2 o Ho) as (o' & Ho' & Y2 & V3). exists o'. split; [exact Ho'|]. split; [now rewrite Y1|].
        replace (3 * (1 / 1000000000)) with (3 * (1 / 1000000000) + 0) by ring. apply (nanos_trans _ _ _ (Mapp (MofZ W) (in_twelfths (snd o)))); [apply GAIN; [lra|exact N1]|now apply nanos_congr]. }
      destruct (entry_facts _ _ _ _ HT) as (sym' & ES' & G & _). rewrite ES in ES'. injection ES' as <-. fold (group_ops sym codes) in G.
      destruct ST as [S1 S2 S3 S4 (cc & S5 & S6)]. destruct (kinds f) as (_ & LSY & _).
      exists ops'. split; [|split; [|split]].
      + unfold get_space_group_info. rewrite S1. cbn [bind]. rewrite S2. cbn [bind]. rewrite S3. cbn [bind]. numR. rewrite S5. cbn [bind]. rewrite S4. cbn [bind].
        rewrite S6. cbn [bind]. rewrite Q1. cbn [bind]. rewrite Q2. cbn [bind]. rewrite LSY. cbn [bind]. rewrite Q5. cbn [bind of_opt].
        rewrite M1. cbn [bind]. rewrite M2. cbn [bind]. rewrite V1. cbn [bind of_opt]. rewrite V2. cbn [bind of_opt].
        match goal with |- context [@sg_apply_transformation RNum _ _ ?t _] => replace t with (MofZ T) by (symmetry; exact TE) end. rewrite W1. reflexivity.
      + rewrite W2, Q3, AT. reflexivity.
      + intros op' Ho. destruct (W3 op' Ho) as (op & m & Hop & Hm). destruct (OR op Hop) as (o & Hoo & Y1 & Y2). exists o, (Mapp (MofZ W) (translation op)), (ZMapp W m). split; [exact Hoo|]. split; [exact Y2|]. rewrite <- Y1. exact (MOVE _ _ _ _ _ Hm).
      + assert (INC : incl (map fst (group_ops sym codes)) (map (@rotation RNum) ops)).
        { apply NoDup_length_incl; [exact Q4| |].
          - rewrite !map_length. unfold group_ops. rewrite map_length. lia.
          - intros r Hr. apply in_map_iff in Hr. destruct Hr as (op & <- & Hop). destruct (Q6 op Hop) as (o1 & Ho1 & E & _). rewrite E. now apply in_map. }
        intros o Ho. destruct (K1 o Ho) as (o1 & Ho1 & Y1 & _). specialize (INC _ (in_map fst _ _ Ho1)). apply in_map_iff in INC. destruct INC as (op & Y2 & Hop).
        assert (ER : conj W (rotation op) Wi = fst o) by (rewrite Y2, <- Y1; now apply conj_conj).
        destruct (OR op Hop) as (o2 & Ho2 & Y3 & N3). assert (EO : o2 = o) by (apply (same_rot_same _ (og_rotations _ G)); [exact Ho2|exact Ho|congruence]). subst o2.
        exists (Mapp (MofZ W) (translation op)). split; [exact N3|]. intro m. destruct (W4 op (ZMapp Wi m) Hop) as (op' & Ho' & Hm). exists op'. split; [exact Ho'|]. apply MOVE in Hm. rewrite ER in Hm.
        replace (ZMapp W (ZMapp Wi m)) with m in Hm; [exact Hm|]. apply VofZ_inj. rewrite !MofZ_app, <- Mapp_Mmul, <- MofZ_mul, WI, MofZ_id, Mapp_id. reflexivity.
  Qed.
  Lemma cv_meaning N' sym' ops' : @get_space_group_info RNum P HO fuel path dtol s = Ok (N', sym', ops') -> ~ In N open_body_centred_groups /\ N' = N /\ sym' = sym.
  Proof using All.
    intro EI. destruct cv_frame as (p & q & std & Tm & Pm & n & W & Wi & ST & Wp & Wq & DPm & DTm & DS & WI & LW & LK & KW).
    pose proof (k_good_cell f P HO dtol a d fuel path s0 HP HF WF BIG Hd Ba EG SP Da RI order N codes sym HT ES HN IFF std W Wi WI LW KW) as KG. fold L0 in LW.
    pose proof (zinv_comm _ _ WI) as IW. destruct (ksmall f W KW) as (SW & DW). destruct (kinds f) as (_ & LSY & _).
    pose proof (like_moved _ _ _ LK) as MV.
    assert (BK : Mmul (lattice std) (MofZ Wi) = L0) by (rewrite LW, Mmul_assoc, <- MofZ_mul, WI, MofZ_id; apply Mmul_id_r).
    assert (EXA : forall r t, exact_operation (sites_of std) r t <-> exact_operation S0 (conj W r Wi) (Mapp (MofZ W) t)).
    { intros r t. split; intro EX; [exact (exact_moved Wi W S0 (sites_of std) WI MV r t EX)|].
      rewrite <- (conj_conj W r Wi WI IW), <- (app_inv Wi W t IW). apply (exact_moved W Wi (sites_of std) S0 IW); [apply (moved_sym Wi W); [exact WI|exact MV]|exact EX]. }
    destruct (entry_facts _ _ _ _ HT) as (sym0 & ES0 & G & EO & BO & _). rewrite ES in ES0. injection ES0 as <-. fold (group_ops sym codes) in G.
    set (lo := map (fun o : zop => (conj Wi (fst o) W, ZMapp Wi (snd o))) (group_ops sym codes)).
    assert (CW : forall r, conj W (conj Wi r W) Wi = r) by (intro r; now apply conj_conj).
    assert (TW : forall x, Mapp (MofZ W) (Mapp (MofZ Wi) x) = x) by (intro x; apply (app_inv W Wi _ WI)).
    assert (T12 : forall o : zop, in_twelfths (ZMapp Wi (snd o)) = Mapp (MofZ Wi) (in_twelfths (snd o))) by (intro o; symmetry; apply MofZ_V12).
    assert (LH : forall o, In o (group_ops sym codes) -> In (conj Wi (fst o) W) (holo_rots (kb f)) /\ exact_operation (sites_of std) (conj Wi (fst o) W) (Mapp (MofZ Wi) (in_twelfths (snd o)))).
    { intros o Ho. destruct (proj2 (IFF (fst o) (in_twelfths (snd o)))) as [X1 X2]; [exists o; split; [exact Ho|split; [reflexivity|apply Vcongr_refl]]|].
      split; [apply (proj2 (kg_iso _ _ _ _ _ _ KG _)); rewrite CW; exact X1|]. apply (proj2 (EXA _ _)). rewrite CW, TW. exact X2. }
    assert (LL : forall x, In x lo -> exists o, In o (group_ops sym codes) /\ x = (conj Wi (fst o) W, ZMapp Wi (snd o))).
    { intros x Hx. unfold lo in Hx. apply in_map_iff in Hx. destruct Hx as (o & <- & Ho). exists o. split; [exact Ho|reflexivity]. }
    assert (LI : forall o, In o (group_ops sym codes) -> In (conj Wi (fst o) W, ZMapp Wi (snd o)) lo) by (intros o Ho; unfold lo; apply (in_map (fun o : zop => (conj Wi (fst o) W, ZMapp Wi (snd o)))); exact Ho).
    assert (LN : NoDup (map fst lo)).
    { assert (EM : map fst lo = map (fun r => conj Wi r W) (map fst (group_ops sym codes))) by (unfold lo; rewrite !map_map; reflexivity). rewrite EM.
      apply PSearch3.NoDup_map_on; [exact (og_rotations _ G)|]. intros r1 r2 _ _ E. apply (f_equal (fun r => conj W r Wi)) in E. now rewrite !conj_conj in E. }
    destruct (@standard_searched HO std dtol fuel (1%nat :: path) (kb f) HF) with (l := lo) as (gens & Q1 & Q2 & FWD & BWD).
    { exact (lk_len _ _ _ LK). }
    { rewrite (like_length _ _ _ LK). assert (Q : List.length S0 = List.length (species s0)) by (apply zip_length; exact WF). rewrite Q. exact BIG. }
    { exact (like_grouped _ _ _ LK). } { exact (kg_fine _ _ _ _ _ _ KG). }
    { apply apart_sites_apart. apply (like_apart _ _ W Wi S0); [exact IW|exact LK|]. rewrite BK. exact AP4. }
    { apply (rigid_moved (2 * dtol) (lattice std) Wi W S0 (sites_of std) (lattice_isometry L0)); [exact WI|exact MV| |rewrite BK; exact RI]. intros r Hr. exact (proj1 (kg_iso _ _ _ _ _ _ KG r) Hr). }
    { exact LN. }
    { intros x Hx. destruct (LL x Hx) as (o & Ho & ->). cbn [fst snd]. change (V12 (ZMapp Wi (snd o))) with (in_twelfths (ZMapp Wi (snd o))). rewrite T12. exact (LH o Ho). }
    { intros r t Hr EX. apply (proj1 (EXA r t)) in EX. destruct (proj1 (IFF (conj W r Wi) (Mapp (MofZ W) t))) as (o & Ho & E1 & V1); [split; [exact (proj1 (kg_iso _ _ _ _ _ _ KG r) Hr)|exact EX]|].
      exists (conj Wi (fst o) W, ZMapp Wi (snd o)). split; [exact (LI o Ho)|]. cbn [fst snd]. split.
      - rewrite <- E1. symmetry. now apply conj_conj.
      - change (V12 (ZMapp Wi (snd o))) with (in_twelfths (ZMapp Wi (snd o))). rewrite T12. apply (PEnd11.Vcongr_app Wi) in V1. rewrite (app_inv Wi W t IW) in V1. exact V1. }
    apply info_stages in EI.
    destruct EI as (p0 & q0 & std0 & Tm0 & Pm0 & ch0 & b0' & gens0 & sg & ls0 & m1 & m2 & i1 & i2 & SS & _ & J1 & J2 & J3 & J4 & _).
    destruct ST as [A1 A2 A3 A4 (c1 & A5 & A6)]. destruct SS as [S1 S2 S3 S4 (c2 & S5 & S6)]. rewrite A1 in S1. injection S1 as <-. rewrite A2 in S2. injection S2 as <-. rewrite A3 in S3. apply ok_pair in S3. destruct S3 as [<- <-].
    rewrite A4 in S4. apply ok_pair in S4. destruct S4 as [<- <-]. rewrite A5 in S5. injection S5 as <-. rewrite A6 in S6. injection S6 as <-.
    rewrite Q1 in J1. injection J1 as <-. rewrite LSY in J3. injection J3 as <-.
    assert (LLEN : @List.length zop lo = List.length codes) by (unfold lo, group_ops; etransitivity; [exact (map_length _ _)|exact (map_length _ _)]).
    destruct (contains_exactly HO (2%nat :: path) (@frac_tols_of RNum (lattice std) dtol) lo gens sg fuel Cubic N' sym') as (ZC & codes' & HT' & ES' & C1 & C2); try assumption; try (clear - HF; lia).
    { intros i Hi. destruct i as [|[|[|i]]]; [| | |lia]; [exact (kg_tol _ _ _ _ _ _ KG 0%nat Hi)|exact (kg_tol _ _ _ _ _ _ KG 1%nat Hi)|exact (kg_tol _ _ _ _ _ _ KG 2%nat Hi)]. }
    { intros x Hx. destruct (LL x Hx) as (o & Ho & ->). cbn [fst]. exact (proj1 (kg_small _ _ _ _ _ _ KG _ (proj1 (LH o Ho)))). }
    { rewrite LLEN. clear - EO BO. lia. }
    { intros x y Hx Hy. destruct (LL x Hx) as (o & Ho & ->). destruct (LL y Hy) as (o2 & Ho2 & ->). destruct (og_closed _ G o o2 Ho Ho2) as (o3 & Ho3 & E3 & _). exists (conj Wi (fst o3) W, ZMapp Wi (snd o3)). split; [exact (LI o3 Ho3)|]. cbn [fst].
      assert (EP : ZMmul (conj Wi (fst o) W) (conj Wi (fst o2) W) = conj Wi (fst o3) W).
      { apply MofZ_eq_from_action. intro z. unfold compose in E3. cbn [fst] in E3. rewrite E3, MofZ_mul, Mapp_Mmul, !conj_app, (app_inv W Wi _ WI), MofZ_mul, Mapp_Mmul. reflexivity. }
      rewrite i8_mmul_eq; [exact EP|]. rewrite EP. exact (proj2 (kg_small _ _ _ _ _ _ KG _ (proj1 (LH o3 Ho3)))). }
    rewrite LLEN, <- EO in HT'.
    assert (SO : lo = map (conj_opi W) (group_ops sym codes)).
    { unfold lo. apply map_ext. intro o. unfold conj_opi. rewrite (Zinv_unique W (zinv W) Wi (zinv_r W DW) WI). reflexivity. }
    rewrite SO in ZC, C1. split; [exact (kclosed_elsewhere f order N codes sym W HT ES HN KW ZC)|]. pose proof (konly_elsewhere f order N codes sym W HT ES HN KW N' codes' sym' HT' ES' C1) as EN. split; [exact EN|]. rewrite EN, ES in ES'. now injection ES'.
  Qed.
End Conv.
