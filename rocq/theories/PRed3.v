(** Strictly reduced cells: the whole run (analyzer.rs 286-360) *)
From Coq Require Import ZArith Reals String Ascii List Bool Lia Lra Psatz Permutation.
From Flocq Require Import Core.
From Verif Require Import Num Mat Utils DataCore DataPG DataSG SymmOp PointGroup SpaceGroup Structure Reduce Analyzer RInst Spec Spec2 Spec3 Spec5 Spec6 Spec8 Spec10 RFacts
  PUtils PSymmOp PStructure PStructure2 PStructure3 PNiggli PDelaunay PPrim PPrim2 PLattice PAnalyzer PAnalyzer2 PPointGroup PPointGroup2 PSpaceGroup PSpaceGroup2 PCode PTables PIdentify
  PSearch PSearch3 PSearch4 PSearch6 PSearch7 PEnd PEnd2 PEnd3 PEnd4 PEnd11 PEnd12 PEnd13 PEnd14 PEnd15 Prop5 PRun PRun2 PHex PHex2 PHex3 PHex4 PHex5 PRed PRed2.
Import ListNotations.
Open Scope R_scope.

Lemma small_signs k i j l m : pm1 i -> pm1 j -> pm1 l -> small k m -> small k (ZMmul (zdiag i j l) m).
Proof.
  intros Hi Hj Hl. destruct m as [a b c d e f g h o]. unfold small, entries_within, ZMmul, zdiag. cbn [m11 m12 m13 m21 m22 m23 m31 m32 m33].
  destruct Hi as [-> | ->], Hj as [-> | ->], Hl as [-> | ->]; intro H; repeat split; lia.
Qed.
Lemma signs_sq i j k : pm1 i -> pm1 j -> pm1 k -> ZMmul (zdiag i j k) (zdiag i j k) = ZMid. Proof. intros [-> | ->] [-> | ->] [-> | ->]; reflexivity. Qed.
Lemma pm1_mul i j : pm1 i -> pm1 j -> pm1 (i * j). Proof. intros [-> | ->] [-> | ->]; cbn; unfold pm1; auto. Qed.
Lemma reduced_niggli eps A B C D E F : 0 < eps -> strictly_reduced eps A B C D E F -> niggli_within eps (metric A B C D E F).
Proof.
  intros He [S1 S2 S3]. unfold metric.
  assert (K : - A + 2 * eps < 2 * E < A - 2 * eps /\ - A + 2 * eps < 2 * F < A - 2 * eps /\ - B + 2 * eps < 2 * D < B - 2 * eps /\ 2 * eps < 2 * D + 2 * E + 2 * F + A + B /\
    ((eps <= 2 * D /\ eps <= 2 * E /\ eps <= 2 * F) \/ (2 * D <= eps /\ 2 * E <= eps /\ 2 * F <= eps))).
  { unfold zero_or_below in S3. destruct S3 as [S|(H1 & H2 & H3 & S)]; [repeat split; lra|].
    assert (D <= 0) by (destruct H1; lra). assert (E <= 0) by (destruct H2; lra). assert (F <= 0) by (destruct H3; lra). repeat split; lra. }
  destruct K as (K1 & K2 & K3 & K4 & K5). constructor; cbn [m11 m12 m13 m21 m22 m23 m31 m32 m33]; try exact K5; try lra; try (apply Rabs_le; lra); intro Q; apply Rabs_le_inv in Q; lra.
Qed.
Section Red.
  Context (P : @Pinv RNum) (HO : HashOrd) (dtol d : R) (fuel : nat) (path : list nat) (s : @structure RNum) (u ui : mat Z) (A B C D E F : R).
  Hypothesis (HP : pinv_inverts P) (HF : (48 <= fuel)%nat) (WF : List.length (frac_coords s) = List.length (species s)).
  Hypothesis BIG : (0 < Z.of_nat (List.length (species s)) <= 65535)%Z.
  Hypothesis (Hd : 1 / 100000 <= dtol <= 1 / 24) (BC : C <= 1000000).
  Hypothesis (DU : ZMdet u = 1%Z \/ ZMdet u = (-1)%Z) (SU : small 1 u) (UI : ZMmul u ui = ZMid).
  Let L := lattice s.
  Let eps := 1 / 100000 * Rpower (Rabs (Mdet L)) (1 / 3).
  Hypothesis (NF : not_flat L) (EL : gram (Mmul L (MofZ u)) = metric A B C D E F) (SR : strictly_reduced eps A B C D E F).
  Hypothesis (SP : spread d (sites_of s)) (Dd : 36 * dtol <= d).
  Let IU : ZMmul ui u = ZMid. Proof using All. exact (zinv_comm _ _ UI). Qed.
  Lemma rd_eps0 : 0 < eps. Proof using All. unfold eps. pose proof (exp_pos (1 / 3 * ln (Rabs (Mdet L)))). unfold Rpower. lra. Qed.
  Lemma rd_A : 1 <= A.
  Proof using All.
    assert (E1 : A = nrm (Mmul L (MofZ u)) (V 1 0 0)%Z) by (rewrite (metric_nrm _ _ _ _ _ _ _ _ EL), q_e1; reflexivity). rewrite nrm_mul in E1.
    assert (N : ZMapp u (V 1 0 0)%Z <> V 0%Z 0%Z 0%Z). { intro X. apply (f_equal (ZMapp ui)) in X. rewrite (Zapp_inv ui u _ IU) in X. assert (Y : ZMapp ui (V 0%Z 0%Z 0%Z) = V 0%Z 0%Z 0%Z) by (unfold ZMapp; cbn [vx vy vz]; f_equal; ring). rewrite Y in X. discriminate X. }
    pose proof (flat_vector L NF _ N) as Q. unfold nrm, col in E1. rewrite <- Vnorm_sq in E1. rewrite E1. nra.
  Qed.
  Lemma rd_reduced : reduced A B C D E F. Proof using All. pose proof rd_eps0. pose proof rd_A. apply (strictly_weak eps); [lra|lra|exact SR]. Qed.
  Lemma rd_eps : 0 < eps <= 1 / 50.
  Proof using All.
    split; [exact rd_eps0|]. assert (D2 : Mdet L * Mdet L = A * B * C + 2 * D * E * F - A * D * D - B * E * E - C * F * F).
    { transitivity (Mdet (gram (Mmul L (MofZ u)))); [unfold gram; rewrite Mdet_mul, Mdet_tr, Mdet_mul, MofZ_det; destruct DU as [-> | ->]; lra|]. rewrite EL. unfold metric, Mdet. cbn [m11 m12 m13 m21 m22 m23 m31 m32 m33]. ring. }
    pose proof rd_A as A1. destruct rd_reduced as ((R1 & R2) & R3 & R4). assert (K : - A < 2 * E < A /\ - A < 2 * F < A /\ - B < 2 * D < B) by (destruct R4 as [R|R]; lra).
    assert (BD : Mdet L * Mdet L <= 8000000000 * 8000000000).
    { rewrite D2. assert (Q1 : E * F <= A * A / 4). { assert (Rabs E <= A / 2) by (apply Rabs_le; lra). assert (Rabs F <= A / 2) by (apply Rabs_le; lra). apply (Rle_trans _ (Rabs (E * F))); [apply Rle_abs|]. rewrite Rabs_mult. pose proof (Rabs_pos E). pose proof (Rabs_pos F). nra. }
      assert (Q2 : - (E * F) <= A * A / 4). { assert (Rabs E <= A / 2) by (apply Rabs_le; lra). assert (Rabs F <= A / 2) by (apply Rabs_le; lra). apply (Rle_trans _ (Rabs (E * F))); [rewrite <- Rabs_Ropp; apply Rle_abs|]. rewrite Rabs_mult. pose proof (Rabs_pos E). pose proof (Rabs_pos F). nra. }
      assert (Q3 : 2 * D * (E * F) <= B * (A * A / 4)). { apply (Rle_trans _ (Rabs (2 * D * (E * F)))); [apply Rle_abs|]. rewrite Rabs_mult. apply Rmult_le_compat; try apply Rabs_pos; apply Rabs_le; lra. }
      assert (B1 : A * A <= 1000000 * 1000000) by (apply Rmult_le_compat; lra). assert (B2 : B * (A * A / 4) <= 1000000 * (1000000 * 1000000 / 4)) by (apply Rmult_le_compat; try lra; nra).
      assert (B3 : A * B * C <= 1000000 * 1000000 * 1000000) by (apply Rmult_le_compat; try lra; [nra|apply Rmult_le_compat; lra]). assert (0 <= A * D * D) by nra. assert (0 <= B * E * E) by nra. assert (0 <= C * F * F) by nra. lra. }
    assert (D1 : 0 < Rabs (Mdet L) <= 8000000000). { split; [apply flat_det; exact NF|]. apply Rsqr_incr_0_var; [|lra]. unfold Rsqr. rewrite <- Rabs_mult, Rabs_pos_eq by (apply Rle_0_sqr). exact BD. }
    assert (Q : Rpower (Rabs (Mdet L)) (1 / 3) <= 2000).
    { apply (Rle_trans _ (Rpower 8000000000 (1 / 3))); [apply Rle_Rpower_l; lra|].
      replace 8000000000 with (Rpower 2000 3) by (replace 3 with (INR 3) by (cbn; lra); rewrite Rpower_pow by lra; lra). rewrite Rpower_mult. replace (3 * (1 / 3)) with 1 by field. rewrite Rpower_1; lra. }
    unfold eps. lra.
  Qed.
  Lemma rd_norm X Xi k v : ZMmul X Xi = ZMid -> (1 <= k)%Z -> small k Xi -> Vnorm v <= 3 * IZR k * Vnorm (Mapp (Mmul L (MofZ X)) v).
  Proof using All.
    intros HX Hk HS. rewrite Mapp_Mmul. pose proof (small_norm k Xi (Mapp (MofZ X) v) ltac:(lia) HS) as N. rewrite (app_inv Xi X _ (zinv_comm _ _ HX)) in N. pose proof (NF (Mapp (MofZ X) v)) as Q. assert (1 <= IZR k) by (apply (IZR_le 1), Hk).
    apply (Rle_trans _ _ _ N). apply Rmult_le_compat_l; lra.
  Qed.
  Lemma rd_conditioned X Xi k : ZMmul X Xi = ZMid -> (1 <= k <= 6)%Z -> small k Xi -> well_conditioned (Mmul L (MofZ X)).
  Proof using All.
    intros HX Hk HS v Hv. pose proof (rd_norm X Xi k v HX ltac:(lia) HS) as N. assert (K1 : IZR k <= 6) by (apply (IZR_le _ 6); lia).
    assert (V1 : 0 < Vnorm v). { pose proof (Vnorm_nonneg v) as V. destruct (Req_dec (Vnorm v) 0) as [E0|E0]; [|lra]. exfalso. apply Hv. pose proof (Vnorm_sq v) as Q. rewrite E0 in Q. destruct v as [x y z]. unfold Vdot in Q. cbn [vx vy vz] in Q. unfold V0. f_equal; nra. }
    pose proof (Vnorm_nonneg (Mapp (Mmul L (MofZ X)) v)) as V2. assert (N5 : IZR k * Vnorm (Mapp (Mmul L (MofZ X)) v) <= 6 * Vnorm (Mapp (Mmul L (MofZ X)) v)) by (apply Rmult_le_compat_r; lra). lra.
  Qed.
  Lemma rd_apart t X Xi k : ZMmul X Xi = ZMid -> (1 <= k)%Z -> small k Xi -> 0 <= t -> 3 * IZR k * t <= d -> apart t (Mmul L (MofZ X)) (sites_of s).
  Proof using All.
    intros HX Hk HS Ht HK. apply nth_FOP. intros i j [x e] [y f] Hij Hi Hj n. cbn [fst]. pose proof (SP i j x e y f n ltac:(lia) Hi Hj) as Q. set (v := Vadd (Vsub x y) (VofZ n)) in *.
    pose proof (rd_norm X Xi k v HX Hk HS) as N. assert (K1 : 1 <= IZR k) by (apply (IZR_le 1); lia). apply Rmult_lt_reg_l with (3 * IZR k); lra.
  Qed.
  Lemma rd_roomy : roomy dtol L. Proof using All. intros z Hz. pose proof (flat_vector L NF z Hz). lra. Qed.
  Lemma rd_cols k : (k < 3)%nat -> dtol * Vnorm (Ccol L k) < Rabs (Mdet L).
  Proof using All. intro Hk. pose proof (flat_cols L NF k Hk) as Q. pose proof (flat_det L NF). pose proof (Vnorm_nonneg (Ccol L k)). nra. Qed.
  Lemma rd_vol : dtol < Rabs (Mdet L). Proof using All. pose proof (flat_det1 L NF). lra. Qed.
  Context (n : Z) (b : bravais) (T0 : mat Z).
  Hypothesis CH : @character_of RNum eps A B C D E F = Ok n.
  Hypothesis (R1 : am_get Z.eqb n LATTICE_CHAR_TO_BRAVAIS = Some b) (R2 : am_get Z.eqb n LATTICE_CHAR_TO_CONV_TRANS = Some T0) (R7 : bravais_centering b = Ok CP) (DT : ZMdet (transpose T0) = 1%Z).
  Hypothesis MT : forall m, small 2 m -> small 2 (ZMmul (transpose T0) m).
  Definition red_out (W : mat Z) (n' : Z) (b' : bravais) : Prop := n' = n /\ b' = b /\ exists i j k, pm1 i /\ pm1 j /\ pm1 k /\ keeps_signs D E F i j k /\ W = ZMmul (ZMmul u (zdiag i j k)) (transpose T0).
  Lemma rd_pick y1 y2 y3 : In y1 dirs26 -> In y2 dirs26 -> In y3 dirs26 -> shortest3 L y1 y2 y3 ->
    (ZMdet (zcols y1 y2 y3) = 1 \/ ZMdet (zcols y1 y2 y3) = -1)%Z -> 0 < Mdet (Mmul L (MofZ (zcols y1 y2 y3))) ->
    exists T n b T0, let Z1 := zcols y1 y2 y3 in let Q := Mmul (Mmul L (MofZ Z1)) (MofZ T) in
      @niggli_loop RNum 100 eps (gram (Mmul L (MofZ Z1)), Mid) = Ok (gram Q, MofZ T) /\
      @character_of RNum eps (m11 (gram Q)) (m22 (gram Q)) (m33 (gram Q)) (m23 (gram Q)) (m13 (gram Q)) (m12 (gram Q)) = Ok n /\
      am_get Z.eqb n LATTICE_CHAR_TO_BRAVAIS = Some b /\ am_get Z.eqb n LATTICE_CHAR_TO_CONV_TRANS = Some T0 /\ bravais_centering b = Ok CP /\ ZMdet (transpose T0) = 1%Z /\
      well_conditioned (Mmul L (MofZ Z1)) /\ well_conditioned Q /\ red_out (ZMmul (ZMmul Z1 T) (transpose T0)) n b /\
      (forall I1, ZMmul Z1 I1 = ZMid -> apart (2 * dtol) (Mmul L (MofZ I1)) (sites_of s) /\
        (forall Ti I2, ZMmul T Ti = ZMid -> ZMmul (transpose T0) I2 = ZMid -> apart (2 * dtol) (Mmul Q (MofZ (ZMmul I2 (ZMmul Ti I1)))) (sites_of s))).
  Proof using All.
    intros J1 J2 J3 S3 DZ RH. pose proof rd_eps as HE. pose proof rd_reduced as R0. set (Z1 := zcols y1 y2 y3) in *.
    assert (HU : forall w, In w units3 -> In (ZMapp u w) dirs26) by (apply small_dirs; assumption).
    destruct (chosen L u ui A B C D E F UI EL HU R0 y1 y2 y3 S3 DZ) as (i0 & j0 & k0 & Hi0 & Hj0 & Hk0 & E0). fold Z1 in E0.
    assert (SZ : small 1 Z1) by (apply dirs_small_cols; assumption).
    assert (EZ : Z1 = ZMmul u (zdiag i0 j0 k0)) by (rewrite <- E0; apply MofZ_eq_from_action; intro x; now rewrite !MofZ_mul, !Mapp_Mmul, (app_inv u ui _ UI)).
    assert (GZ : gram (Mmul L (MofZ Z1)) = metric A B C (IZR (j0 * k0) * D) (IZR (i0 * k0) * E) (IZR (i0 * j0) * F)) by (rewrite EZ, MofZ_mul, <- Mmul_assoc, <- rcongr_gram, EL; now apply signs_metric).
    set (g := gram (Mmul L (MofZ Z1))) in *.
    assert (AB : Rabs (IZR (j0 * k0) * D) = Rabs D /\ Rabs (IZR (i0 * k0) * E) = Rabs E /\ Rabs (IZR (i0 * j0) * F) = Rabs F) by (repeat split; apply Rabs_pm1; now apply pm1_mul).
    (* the signs agreed on are those of the reduced metric *)
    assert (SG : forall i j k, pm1 i -> pm1 j -> pm1 k -> (i * j * k = 1)%Z -> ((eps <= IZR i * (2 * m23 g) /\ eps <= IZR j * (2 * m13 g) /\ eps <= IZR k * (2 * m12 g)) \/ (IZR i * (2 * m23 g) <= eps /\ IZR j * (2 * m13 g) <= eps /\ IZR k * (2 * m12 g) <= eps)) ->
      keeps_signs D E F (i0 * i) (j0 * j) (k0 * k)).
    { intros i j k Hi Hj Hk Hp Hs. rewrite GZ in Hs. unfold metric in Hs. cbn [m11 m12 m13 m21 m22 m23 m31 m32 m33] in Hs.
      assert (X1 : (j0 * j * (k0 * k) = i * (j0 * k0))%Z) by (destruct Hi as [-> | ->], Hj as [-> | ->], Hk as [-> | ->]; try discriminate Hp; ring). assert (X2 : (i0 * i * (k0 * k) = j * (i0 * k0))%Z) by (destruct Hi as [-> | ->], Hj as [-> | ->], Hk as [-> | ->]; try discriminate Hp; ring).
      assert (X3 : (i0 * i * (j0 * j) = k * (i0 * j0))%Z) by (destruct Hi as [-> | ->], Hj as [-> | ->], Hk as [-> | ->]; try discriminate Hp; ring). unfold keeps_signs. rewrite X1, X2, X3.
      assert (Y1 : IZR i * (2 * (IZR (j0 * k0) * D)) = 2 * (IZR (i * (j0 * k0)) * D)) by (rewrite (mult_IZR i); ring). assert (Y2 : IZR j * (2 * (IZR (i0 * k0) * E)) = 2 * (IZR (j * (i0 * k0)) * E)) by (rewrite (mult_IZR j); ring). assert (Y3 : IZR k * (2 * (IZR (i0 * j0) * F)) = 2 * (IZR (k * (i0 * j0)) * F)) by (rewrite (mult_IZR k); ring).
      rewrite Y1, Y2, Y3 in Hs. assert (PR : (i * (j0 * k0) * (j * (i0 * k0)) * (k * (i0 * j0)) = 1)%Z).
      { assert (i0 * i0 = 1)%Z by (destruct Hi0 as [-> | ->]; reflexivity). assert (j0 * j0 = 1)%Z by (destruct Hj0 as [-> | ->]; reflexivity). assert (k0 * k0 = 1)%Z by (destruct Hk0 as [-> | ->]; reflexivity).
        transitivity ((i * j * k) * (i0 * i0) * (j0 * j0) * (k0 * k0))%Z; [ring|]. rewrite Hp, H, H0, H1. reflexivity. }
      assert (P1 : pm1 (i * (j0 * k0))) by (repeat apply pm1_mul; assumption). assert (P2 : pm1 (j * (i0 * k0))) by (repeat apply pm1_mul; assumption). assert (P3 : pm1 (k * (i0 * j0))) by (repeat apply pm1_mul; assumption).
      set (a1 := (i * (j0 * k0))%Z) in *. set (a2 := (j * (i0 * k0))%Z) in *. set (a3 := (k * (i0 * j0))%Z) in *. clearbody a1 a2 a3. clear X1 X2 X3 Y1 Y2 Y3.
      destruct (sr_angles _ _ _ _ _ _ _ SR) as [S|(Z1' & Z2' & Z3' & S)].
      - destruct P1 as [-> | ->], P2 as [-> | ->], P3 as [-> | ->]; try discriminate PR; repeat split; lra.
      - unfold zero_or_below in *. destruct P1 as [-> | ->], P2 as [-> | ->], P3 as [-> | ->]; try discriminate PR; repeat split; lra. }
    assert (RC : forall i j k, pm1 i -> pm1 j -> pm1 k -> keeps_signs D E F (i0 * i) (j0 * j) (k0 * k) -> rcongr (MofZ (zdiag i j k)) g = metric A B C D E F).
    { intros i j k Hi Hj Hk (X1 & X2 & X3). rewrite GZ, (signs_metric _ _ _ _ _ _ i j k Hi Hj Hk). rewrite <- !Rmult_assoc, <- !mult_IZR. replace (j * k * (j0 * k0))%Z with (j0 * j * (k0 * k))%Z by ring. replace (i * k * (i0 * k0))%Z with (i0 * i * (k0 * k))%Z by ring. replace (i * j * (i0 * j0))%Z with (i0 * i * (j0 * j))%Z by ring.
      rewrite X1, X2, X3. reflexivity. }
    destruct (loop_signs eps g ltac:(lra)) as (i & j & k & Hi & Hj & Hk & Hp & Hs & NL).
    { apply a1_false. rewrite GZ. unfold metric. cbn [m11 m12 m13 m21 m22 m23 m31 m32 m33]. destruct SR as [S1 S2 _]. split; [lra|]. intro Q. apply Rabs_le_inv in Q. lra. }
    { apply a2_false. rewrite GZ. unfold metric. cbn [m11 m12 m13 m21 m22 m23 m31 m32 m33]. destruct SR as [S1 S2 _]. split; [lra|]. intro Q. apply Rabs_le_inv in Q. lra. }
    { intros i j k Hi Hj Hk Hp Hs. rewrite (RC i j k Hi Hj Hk (SG i j k Hi Hj Hk Hp Hs)). apply reduced_niggli; [lra|exact SR]. }
    pose proof (SG i j k Hi Hj Hk Hp Hs) as KS. exists (zdiag i j k), n, b, T0. cbv zeta. set (T := zdiag i j k) in *.
    assert (GQ : gram (Mmul (Mmul L (MofZ Z1)) (MofZ T)) = metric A B C D E F) by (rewrite <- rcongr_gram; now apply RC).
    split; [rewrite GQ; fold g; rewrite NL; f_equal; f_equal; now apply RC|]. split; [rewrite GQ; unfold metric; cbn [m11 m12 m13 m21 m22 m23 m31 m32 m33]; exact CH|].
    split; [exact R1|]. split; [exact R2|]. split; [exact R7|]. split; [exact DT|].
    assert (TT : ZMmul T T = ZMid) by now apply signs_sq. destruct (unimodular_inverse Z1 DZ) as (I0 & HI0). pose proof (small_inv Z1 I0 DZ SZ HI0) as SI.
    split; [|split; [|split]].
    - apply (rd_conditioned Z1 I0 2); [exact HI0|lia|exact SI].
    - rewrite Mmul_assoc, <- MofZ_mul. apply (rd_conditioned (ZMmul Z1 T) (ZMmul T I0) 2); [now apply Zcompose|lia|now apply small_signs].
    - split; [reflexivity|]. split; [reflexivity|]. exists (i0 * i)%Z, (j0 * j)%Z, (k0 * k)%Z. split; [now apply pm1_mul|]. split; [now apply pm1_mul|]. split; [now apply pm1_mul|]. split; [exact KS|]. f_equal. rewrite EZ, Zassoc. f_equal. unfold T, zdiag, ZMmul. cbn [m11 m12 m13 m21 m22 m23 m31 m32 m33]. f_equal; ring.
    - intros I1 HI1. rewrite (Zinv_unique Z1 I1 I0 HI1 HI0). split.
      + apply (rd_apart _ I0 Z1 1); [now apply zinv_comm|lia|exact SZ|lra|lra].
      + intros Ti I2 HTi HI2. rewrite (Zinv_unique T Ti T HTi TT). rewrite !Mmul_assoc, <- !MofZ_mul. set (S0 := ZMmul (ZMmul T (transpose T0)) T).
        apply (rd_apart _ _ (ZMmul Z1 (ZMmul S0 I0)) 6); [| |change 6%Z with (3 * 1 * 2)%Z; apply small_mul; [lia|lia|exact SZ|]|lra|lra].
        * apply MofZ_eq_from_action. intro x. unfold S0. rewrite !MofZ_mul, !Mapp_Mmul, (app_inv I0 Z1 _ (zinv_comm _ _ HI0)), (app_inv T T _ TT), (app_inv I2 _ _ (zinv_comm _ _ HI2)), (app_inv T T _ TT), (app_inv Z1 I0 _ HI0), MofZ_id, Mapp_id. reflexivity.
        * lia.
        * unfold S0. rewrite !Zassoc. apply small_signs; [exact Hi|exact Hj|exact Hk|]. apply MT. now apply small_signs.
  Qed.
  Hypothesis NI : no_inner_translation dtol s.
  Lemma rd_apart4 : apart (4 * dtol) L (sites_of s).
  Proof using All. pose proof (rd_apart (4 * dtol) ZMid ZMid 1%Z eq_refl ltac:(lia) (smallb_spec 1 ZMid eq_refl) ltac:(lra) ltac:(lra)) as X. rewrite MofZ_id, Mmul_id_r in X. exact X. Qed.
  Lemma red_stages : exists p q std Tm Pm n' b' W Wi, frame P HO dtol fuel path s p q std Tm Pm n' b' W Wi /\ red_out W n' b'.
  Proof using All.
    pose proof (rd_conditioned ZMid ZMid 1%Z eq_refl ltac:(lia) (smallb_spec 1 ZMid eq_refl)) as WC. rewrite MofZ_id, Mmul_id_r in WC. pose proof rd_eps as HE.
    apply (p_stages P HO dtol fuel path s HP HF ltac:(lra) WF BIG WC rd_roomy rd_cols rd_vol NI ltac:(fold L; fold eps; lra) red_out rd_pick). apply (apart_mono (4 * dtol)); [lra|exact rd_apart4].
  Qed.
End Red.
