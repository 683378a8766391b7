(** Hexagonal crystals: the whole run *)
From Coq Require Import ZArith Reals String Ascii List Bool Lia Lra Psatz Permutation.
From Flocq Require Import Core.
From Verif Require Import Num Mat Utils DataCore DataPG DataSG SymmOp PointGroup SpaceGroup Structure Reduce Analyzer RInst Spec Spec2 Spec3 Spec5 Spec6 RFacts
  PUtils PSymmOp PStructure PStructure2 PStructure3 PNiggli PDelaunay PPrim PPrim2 PLattice PAnalyzer PAnalyzer2 PPointGroup PPointGroup2 PSpaceGroup PSpaceGroup2 PCode PTables PIdentify
  PSearch PSearch3 PSearch4 PSearch6 PSearch7 PEnd PEnd2 PEnd3 PEnd4 PEnd11 PEnd12 PEnd13 PEnd14 PEnd15 Prop5 PRun PRun2 PHex PHex2 PHex3.
Import ListNotations.
Open Scope R_scope.

Lemma Zassoc a b c : ZMmul (ZMmul a b) c = ZMmul a (ZMmul b c).
Proof. apply MofZ_eq_from_action. intro x. now rewrite !MofZ_mul, !Mapp_Mmul. Qed.
Lemma small_dirs u : small 1 u -> ZMdet u = 1%Z \/ ZMdet u = (-1)%Z -> forall w, In w units3 -> In (ZMapp u w) dirs26.
Proof.
  intros S D w Hw. assert (G : forall x y z, (-1 <= x <= 1)%Z -> (-1 <= y <= 1)%Z -> (-1 <= z <= 1)%Z -> ~ (x = 0 /\ y = 0 /\ z = 0)%Z -> In (V x y z) dirs26).
  { clear. intros x y z Hx Hy Hz N. assert (x = -1 \/ x = 0 \/ x = 1)%Z as [-> | [-> | ->]] by lia; assert (y = -1 \/ y = 0 \/ y = 1)%Z as [-> | [-> | ->]] by lia; assert (z = -1 \/ z = 0 \/ z = 1)%Z as [-> | [-> | ->]] by lia; try (exfalso; apply N; now repeat split); cbn; tauto. }
  destruct u as [a1 a2 a3 a4 a5 a6 a7 a8 a9]. unfold small, entries_within in S. unfold ZMdet in D. cbn [m11 m12 m13 m21 m22 m23 m31 m32 m33] in S, D.
  unfold units3 in Hw. cbn [In] in Hw. destruct Hw as [<-|[<-|[<-|[]]]]; unfold ZMapp; cbn [vx vy vz m11 m12 m13 m21 m22 m23 m31 m32 m33]; apply G; lia.
Qed.
Section Hex.
  Context (P : @Pinv RNum) (HO : HashOrd) (dtol a c d : R) (fuel : nat) (path : list nat) (s : @structure RNum) (u ui : mat Z).
  Hypothesis (HP : pinv_inverts P) (HF : (48 <= fuel)%nat) (WF : List.length (frac_coords s) = List.length (species s)).
  Hypothesis BIG : (0 < Z.of_nat (List.length (species s)) <= 65535)%Z.
  Hypothesis (Hd : 1 / 100000 <= dtol <= 1 / 24) (Ba : 1 <= a <= 1000) (Bc : 1 <= c <= 1000).
  Hypothesis (DU : ZMdet u = 1%Z \/ ZMdet u = (-1)%Z) (SU : small 1 u) (UI : ZMmul u ui = ZMid).
  Let A := a * a. Let C := c * c.
  Let L := lattice s.
  Hypothesis EL : gram (Mmul L (MofZ u)) = hexm A C.
  Let eps := 1 / 100000 * Rpower (Rabs (Mdet L)) (1 / 3).
  Hypothesis SEP : eps < Rabs (A - C).
  Hypothesis (SP : spread d (sites_of s)) (Da : 26 * dtol <= d * a) (Dc : 26 * dtol <= d * c).
  Let IU : ZMmul ui u = ZMid. Proof using All. exact (zinv_comm _ _ UI). Qed.
  Let A1 : 1 <= A. Proof using All. unfold A. nra. Qed.
  Let C1 : 1 <= C. Proof using All. unfold C. nra. Qed.
  Let A2 : A <= 1000000. Proof using All. unfold A. nra. Qed.
  Let C2 : C <= 1000000. Proof using All. unfold C. nra. Qed.
  Lemma hx_back X : Mmul L (MofZ X) = Mmul (Mmul L (MofZ u)) (MofZ (ZMmul ui X)).
  Proof using All. rewrite Mmul_assoc, <- MofZ_mul. do 2 f_equal. apply MofZ_eq_from_action. intro x. now rewrite !MofZ_mul, !Mapp_Mmul, (app_inv u ui _ UI). Qed.
  Lemma hx_det : Mdet L * Mdet L = 3 / 4 * (A * A * C).
  Proof using All. rewrite <- (hex_det2 _ _ _ EL), Mdet_mul, MofZ_det. destruct DU as [-> | ->]; lra. Qed.
  Lemma hx_eps : 0 < eps <= 1 / 100.
  Proof using All.
    assert (D1 : 0 < Rabs (Mdet L) <= 1000000000).
    { pose proof hx_det as D. assert (P0 : 1 <= A * A * C) by (assert (1 <= A * A) by nra; nra). assert (P1 : A * A * C <= 1000000 * 1000000 * 1000000). { apply Rmult_le_compat; try lra; [nra|]. apply Rmult_le_compat; lra. }
      split; [apply Rabs_pos_lt; intro Q; rewrite Q in D; lra|]. apply Rsqr_incr_0_var; [|lra]. unfold Rsqr. rewrite <- Rabs_mult, Rabs_pos_eq by (rewrite D; lra). rewrite D. lra. }
    assert (Q : 0 < Rpower (Rabs (Mdet L)) (1 / 3) <= 1000).
    { split; [apply exp_pos|]. apply (Rle_trans _ (Rpower 1000000000 (1 / 3))); [apply Rle_Rpower_l; lra|].
      replace 1000000000 with (Rpower 1000 3) by (replace 3 with (INR 3) by (cbn; lra); rewrite Rpower_pow by lra; lra). rewrite Rpower_mult. replace (3 * (1 / 3)) with 1 by field. rewrite Rpower_1; lra. }
    unfold eps. lra.
  Qed.
  (** lengths in any description of the lattice with small change of axes *)
  Lemma hx_norm X Xi k v : ZMmul X Xi = ZMid -> (1 <= k <= 3)%Z -> small k (ZMmul Xi u) -> 7 / 10 * Rmin a c * Vnorm v <= 3 * IZR k * Vnorm (Mapp (Mmul L (MofZ X)) v).
  Proof using All.
    intros HX Hk HS. rewrite hx_back, Mapp_Mmul. set (w := Mapp (MofZ (ZMmul ui X)) v).
    assert (E : v = Mapp (MofZ (ZMmul Xi u)) w). { unfold w. rewrite !MofZ_mul, !Mapp_Mmul, (app_inv u ui _ UI), (app_inv Xi X _ (zinv_comm _ _ HX)). reflexivity. }
    assert (M0 : 1 <= Rmin a c) by (apply Rmin_glb; lra). assert (MA : Rmin a c * Rmin a c <= A) by (unfold A; apply Rmult_le_compat; try lra; apply Rmin_l). assert (MC : Rmin a c * Rmin a c <= C) by (unfold C; apply Rmult_le_compat; try lra; apply Rmin_r).
    pose proof (hex_norm _ A C (Rmin a c) w EL ltac:(lra) MA MC) as N1. pose proof (small_norm k _ w ltac:(lia) HS) as N2. rewrite <- E in N2. assert (K1 : 1 <= IZR k) by (apply (IZR_le 1); lia).
    pose proof (Rmult_le_compat_l (7 / 10 * Rmin a c) _ _ ltac:(lra) N2) as N3. pose proof (Rmult_le_compat_l (3 * IZR k) _ _ ltac:(lra) N1) as N4. lra.
  Qed.
  Lemma hx_conditioned X Xi k : ZMmul X Xi = ZMid -> (1 <= k <= 3)%Z -> small k (ZMmul Xi u) -> well_conditioned (Mmul L (MofZ X)).
  Proof using All.
    intros HX Hk HS v Hv. pose proof (hx_norm X Xi k v HX Hk HS) as N. assert (M0 : 1 <= Rmin a c) by (apply Rmin_glb; lra). assert (K1 : IZR k <= 3) by (apply (IZR_le _ 3); lia).
    assert (V1 : 0 < Vnorm v). { pose proof (Vnorm_nonneg v) as V. destruct (Req_dec (Vnorm v) 0) as [E|E]; [|lra]. exfalso. apply Hv. pose proof (Vnorm_sq v) as Q. rewrite E in Q. destruct v as [x y z]. unfold Vdot in Q. cbn [vx vy vz] in Q. unfold V0. f_equal; nra. }
    pose proof (Vnorm_nonneg (Mapp (Mmul L (MofZ X)) v)) as V2. assert (N5 : IZR k * Vnorm (Mapp (Mmul L (MofZ X)) v) <= 3 * Vnorm (Mapp (Mmul L (MofZ X)) v)) by (apply Rmult_le_compat_r; lra).
    assert (N6 : 1 * Vnorm v <= Rmin a c * Vnorm v) by (apply Rmult_le_compat_r; lra). lra.
  Qed.
  Lemma hx_apart t X Xi k : ZMmul X Xi = ZMid -> (1 <= k <= 3)%Z -> small k (ZMmul Xi u) -> 0 <= t -> 3 * IZR k * t <= 18 * dtol -> apart t (Mmul L (MofZ X)) (sites_of s).
  Proof using All.
    intros HX Hk HS Ht HK. apply nth_FOP. intros i j [x e] [y f] Hij Hi Hj n. cbn [fst]. pose proof (SP i j x e y f n ltac:(lia) Hi Hj) as Q. set (v := Vadd (Vsub x y) (VofZ n)) in *.
    pose proof (hx_norm X Xi k v HX Hk HS) as N. assert (M0 : 1 <= Rmin a c) by (apply Rmin_glb; lra). assert (K1 : 1 <= IZR k) by (apply (IZR_le 1); lia).
    assert (M1 : 26 * dtol <= d * Rmin a c) by (unfold Rmin; destruct (Rle_dec a c); lra). assert (N6 : d * Rmin a c < Rmin a c * Vnorm v) by (rewrite (Rmult_comm d); apply Rmult_lt_compat_l; lra).
    apply Rmult_lt_reg_l with (3 * IZR k); lra.
  Qed.
  Lemma hx_small_ui : small 2 ui. Proof using All. exact (small_inv u ui DU SU UI). Qed.
  Lemma hx_len z : nrm L z = hq A C (ZMapp ui z).
  Proof using All. rewrite <- (hex_nrm _ A C _ EL), nrm_mul, (Zapp_inv u ui _ UI). reflexivity. Qed.
  Lemma hx_sq z : Vnorm (Mapp L (VofZ z)) * Vnorm (Mapp L (VofZ z)) = hq A C (ZMapp ui z).
  Proof using All. rewrite <- hx_len, Vnorm_sq. reflexivity. Qed.
  Lemma hq_ge z : z <> V 0%Z 0%Z 0%Z -> 1 <= hq A C z.
  Proof using All.
    intro N. destruct z as [x y z]. unfold hq. cbn [vx vy vz]. pose proof (hqz_nn x y) as Q. assert (Q' : 0 <= IZR (hqz x y)) by (apply (IZR_le 0), Q). assert (S : 0 <= IZR (z * z)) by (apply (IZR_le 0); nia).
    destruct (Z.eq_dec z 0) as [-> |Z0].
    - assert (1 <= IZR (hqz x y)) by (apply (IZR_le 1); apply hqz_pos; intros [-> ->]; now apply N). cbn. nra.
    - assert (1 <= IZR (z * z)) by (apply (IZR_le 1); nia). assert (0 <= A * IZR (hqz x y)) by (apply Rmult_le_pos; lra). nra.
  Qed.
  Lemma hx_roomy : roomy dtol L.
  Proof using All.
    intros z Hz. assert (N : ZMapp ui z <> V 0%Z 0%Z 0%Z). { intro E. apply Hz. rewrite <- (Zapp_inv u ui z UI), E. unfold ZMapp. cbn. f_equal; ring. }
    pose proof (hq_ge _ N) as Q. rewrite <- hx_sq in Q. pose proof (Vnorm_nonneg (Mapp L (VofZ z))) as V. assert (1 <= Vnorm (Mapp L (VofZ z))) by nra. lra.
  Qed.
  Lemma hx_cols k : (k < 3)%nat -> dtol * Vnorm (Ccol L k) < Rabs (Mdet L).
  Proof using All.
    intro Hk. assert (E : exists e, In e units3 /\ Ccol L k = Mapp L (VofZ e)).
    { destruct k as [|[|[|k]]]; [exists (V 1 0 0)%Z|exists (V 0 1 0)%Z|exists (V 0 0 1)%Z|lia]; (split; [cbn; tauto|]); generalize L; clear; intro m; change (mat R) in m; destruct m as [p q r x y z l n o]; unfold Ccol, Mapp, VofZ; cbn [vx vy vz m11 m12 m13 m21 m22 m23 m31 m32 m33]; apply (@vec_ext R); cbn [vx vy vz]; ring. }
    destruct E as (e & He & ->). pose proof (hx_sq e) as Q. pose proof (Vnorm_nonneg (Mapp L (VofZ e))) as V. set (n := Vnorm (Mapp L (VofZ e))) in *.
    assert (B : hq A C (ZMapp ui e) <= 12 * A + 4 * C).
    { pose proof hx_small_ui as S. clear - S He A1 C1. clearbody A C. destruct ui as [p q r s' t u' v w x]. unfold small, entries_within in S. cbn [m11 m12 m13 m21 m22 m23 m31 m32 m33] in S.
      assert (G : forall x y z, (-2 <= x <= 2)%Z -> (-2 <= y <= 2)%Z -> (-2 <= z <= 2)%Z -> hq A C (V x y z) <= 12 * A + 4 * C).
      { clear - A1 C1. intros x y z Hx Hy Hz. unfold hq. cbn [vx vy vz]. assert (Q1 : IZR (hqz x y) <= 12) by (apply (IZR_le _ 12); unfold hqz; nia). assert (Q2 : IZR (z * z) <= 4) by (apply (IZR_le _ 4); nia). nra. }
      unfold units3 in He. cbn [In] in He. destruct He as [<-|[<-|[<-|[]]]]; unfold ZMapp; cbn [vx vy vz m11 m12 m13 m21 m22 m23 m31 m32 m33]; apply G; lia. }
    pose proof hx_det as D. assert (X0 : 1 <= A * C) by nra. assert (X1 : A <= A * A * C) by nra. assert (X2 : C <= A * A * C) by nra.
    apply Rsqr_incrst_0; [|apply Rmult_le_pos; lra|apply Rabs_pos]. unfold Rsqr. rewrite <- Rabs_mult, Rabs_pos_eq by (rewrite D; lra). rewrite D.
    assert (n * n <= 16 * (A * A * C)) by lra. assert (dtol * dtol <= 1 / 24 * (1 / 24)) by (apply Rmult_le_compat; lra). assert (0 <= n * n) by (apply Rle_0_sqr).
    replace (dtol * n * (dtol * n)) with (dtol * dtol * (n * n)) by ring. apply (Rle_lt_trans _ (1 / 24 * (1 / 24) * (16 * (A * A * C)))); [apply Rmult_le_compat; try lra; apply Rle_0_sqr|lra].
  Qed.
  Lemma hx_vol : dtol < Rabs (Mdet L).
  Proof using All.
    pose proof hx_det as D. assert (X0 : 1 <= A * C) by nra. assert (X1 : A <= A * A * C) by nra. apply Rsqr_incrst_0; [|lra|apply Rabs_pos]. unfold Rsqr. rewrite <- Rabs_mult, Rabs_pos_eq by (rewrite D; lra). rewrite D. nra.
  Qed.
  Definition hex_out (W : mat Z) (n : Z) (b : bravais) : Prop := In (ZMmul ui W) hexrots /\ b = hP.
  Lemma hx_pick y1 y2 y3 : In y1 dirs26 -> In y2 dirs26 -> In y3 dirs26 -> shortest3 L y1 y2 y3 ->
    (ZMdet (zcols y1 y2 y3) = 1 \/ ZMdet (zcols y1 y2 y3) = -1)%Z -> 0 < Mdet (Mmul L (MofZ (zcols y1 y2 y3))) ->
    exists T n b T0, let Z1 := zcols y1 y2 y3 in let Q := Mmul (Mmul L (MofZ Z1)) (MofZ T) in
      @niggli_loop RNum 100 eps (gram (Mmul L (MofZ Z1)), Mid) = Ok (gram Q, MofZ T) /\
      @character_of RNum eps (m11 (gram Q)) (m22 (gram Q)) (m33 (gram Q)) (m23 (gram Q)) (m13 (gram Q)) (m12 (gram Q)) = Ok n /\
      am_get Z.eqb n LATTICE_CHAR_TO_BRAVAIS = Some b /\ am_get Z.eqb n LATTICE_CHAR_TO_CONV_TRANS = Some T0 /\ bravais_centering b = Ok CP /\ ZMdet (transpose T0) = 1%Z /\
      well_conditioned (Mmul L (MofZ Z1)) /\ well_conditioned Q /\ hex_out (ZMmul (ZMmul Z1 T) (transpose T0)) n b /\
      (forall I1, ZMmul Z1 I1 = ZMid -> apart (2 * dtol) (Mmul L (MofZ I1)) (sites_of s) /\
        (forall Ti I2, ZMmul T Ti = ZMid -> ZMmul (transpose T0) I2 = ZMid -> apart (2 * dtol) (Mmul Q (MofZ (ZMmul I2 (ZMmul Ti I1)))) (sites_of s))).
  Proof using All.
    intros J1 J2 J3 S3 DZ RH. pose proof hx_eps as HE. set (Z1 := zcols y1 y2 y3) in *.
    assert (HU : forall w, In w units3 -> In (ZMapp u w) dirs26). { apply small_dirs; auto. }
    pose proof (short_moved L u ui A C UI EL HU y1 y2 y3 S3) as SH. set (v1 := ZMapp ui y1) in *. set (v2 := ZMapp ui y2) in *. set (v3 := ZMapp ui y3) in *.
    assert (EV : ZMmul ui Z1 = zcols v1 v2 v3) by (unfold Z1, v1, v2, v3; symmetry; apply zcols_mul).
    assert (DI : (ZMdet ui = 1 \/ ZMdet ui = -1)%Z). { assert (X : (ZMdet u * ZMdet ui = 1)%Z) by (rewrite <- ZMdet_mul, UI; reflexivity). destruct DU as [E|E]; rewrite E in X; lia. }
    assert (DV : (ZMdet (zcols v1 v2 v3) = 1 \/ ZMdet (zcols v1 v2 v3) = -1)%Z) by (rewrite <- EV, ZMdet_mul; destruct DI as [-> | ->], DZ as [-> | ->]; cbn; auto).
    assert (D0 : zdet v1 v2 v3 <> 0%Z) by (unfold zdet; destruct DV as [-> | ->]; discriminate).
    assert (SZ : small 1 Z1) by (apply dirs_small_cols; assumption).
    (* what is left once the signs are known *)
    assert (FIN : forall T n T0, cell_fit (zcols v1 v2 v3) T (transpose T0) -> ZMmul T T = ZMid -> ZMdet (transpose T0) = 1%Z -> 
      well_conditioned (Mmul L (MofZ Z1)) /\ well_conditioned (Mmul (Mmul L (MofZ Z1)) (MofZ T)) /\ hex_out (ZMmul (ZMmul Z1 T) (transpose T0)) n hP /\
      (forall I1, ZMmul Z1 I1 = ZMid -> apart (2 * dtol) (Mmul L (MofZ I1)) (sites_of s) /\
        (forall Ti I2, ZMmul T Ti = ZMid -> ZMmul (transpose T0) I2 = ZMid -> apart (2 * dtol) (Mmul (Mmul (Mmul L (MofZ Z1)) (MofZ T)) (MofZ (ZMmul I2 (ZMmul Ti I1)))) (sites_of s)))).
    { intros T n T0 CF TT DT. destruct (unimodular_inverse Z1 DZ) as (I0 & HI0).
      assert (EI : ZMmul I0 u = zinv (zcols v1 v2 v3)). { apply (Zinv_unique (zcols v1 v2 v3)); [rewrite <- EV; now apply Zcompose; [exact IU|exact HI0]|now apply zinv_r]. }
      pose proof (cf_1 _ _ _ CF) as F1. pose proof (cf_2 _ _ _ CF) as F2. pose proof (cf_3 _ _ _ CF) as F3. rewrite <- EI in F1, F2, F3.
      split; [|split; [|split; [split; [|reflexivity]|]]].
      - apply (hx_conditioned Z1 I0 1); [exact HI0|lia|exact F1].
      - rewrite Mmul_assoc, <- MofZ_mul. apply (hx_conditioned (ZMmul Z1 T) (ZMmul T I0) 1); [now apply Zcompose|lia|]. rewrite Zassoc. exact F2.
      - pose proof (cf_h _ _ _ CF) as F0. rewrite <- EV in F0. rewrite <- !Zassoc. exact F0.
      - intros I1 HI1. rewrite (Zinv_unique Z1 I1 I0 HI1 HI0). split.
        + apply (hx_apart _ I0 Z1 3); [now apply zinv_comm|lia| |lra|lra]. change 3%Z with (3 * 1 * 1)%Z. apply small_mul; [lia|lia|exact SZ|exact SU].
        + intros Ti I2 HTi HI2. rewrite (Zinv_unique T Ti T HTi TT). rewrite !Mmul_assoc, <- !MofZ_mul.
          set (S0 := ZMmul (ZMmul T (transpose T0)) T).
          apply (hx_apart _ _ (ZMmul Z1 (ZMmul S0 I0)) 3); [| |rewrite Zassoc; change 3%Z with (3 * 1 * 1)%Z; apply small_mul; [lia|lia|exact SZ|]|lra|lra].
          * apply MofZ_eq_from_action. intro x. unfold S0. rewrite !MofZ_mul, !Mapp_Mmul, (app_inv I0 Z1 _ (zinv_comm _ _ HI0)), (app_inv T T _ TT), (app_inv I2 _ _ (zinv_comm _ _ HI2)), (app_inv T T _ TT), (app_inv Z1 I0 _ HI0), MofZ_id, Mapp_id. reflexivity.
          * lia.
          * rewrite Zassoc. exact F3. }
    assert (GL : gram (Mmul L (MofZ Z1)) = hexg A C v1 v2 v3) by (rewrite hx_back, EV; now apply hex_gram).
    destruct char_rows as (R1 & R2 & R3 & R4 & R5 & _). assert (AC : A <> C) by (intro E; rewrite E, Rminus_diag_eq, Rabs_R0 in SEP by reflexivity; lra).
    assert (ZZ : forall i j k, pm1 i -> pm1 j -> pm1 k -> ZMmul (zdiag i j k) (zdiag i j k) = ZMid) by (intros i j k [-> | ->] [-> | ->] [-> | ->]; reflexivity).
    destruct (Rlt_or_le A C) as [LT|LE].
    - destruct (long_c A C v1 v2 v3 ltac:(lra) ltac:(lra) SH D0 LT) as (F1 & F2 & F3).
      assert (EZ : exists z, (z = 1 \/ z = -1)%Z /\ v3 = V 0%Z 0%Z z) by (destruct F3 as [E|E]; eauto). destruct EZ as (z & Hz & E3). clearbody v1 v2 v3. subst v3.
      destruct (long_fit v1 v2 z F1 F2 Hz D0) as (B1 & B2 & B3 & B4 & B5 & FIT).
      set (sg := hb v1 v2) in *. assert (EG : hexg A C v1 v2 (V 0 0 z)%Z = M A (IZR sg * A / 2) 0 (IZR sg * A / 2) A 0 0 0 C).
      { assert (ZZ1 : IZR (z * z) = 1) by (destruct Hz as [-> | ->]; reflexivity). unfold hexg, hent. fold sg. rewrite B1, B2, B4, B5. cbn [vz]. rewrite ZZ1. unfold hb. cbn [vx vy vz]. rewrite ?Z.mul_0_r, ?Z.mul_0_l. apply (@mat_ext R); cbn [m11 m12 m13 m21 m22 m23 m31 m32 m33 Z.sub Z.add Z.opp]; field. }
      rewrite EG in GL. clear EG. set (g := M A (IZR sg * A / 2) 0 (IZR sg * A / 2) A 0 0 0 C) in *.
      assert (RC : forall i j k, pm1 i -> pm1 j -> pm1 k -> (i * j * k = 1)%Z -> (k * sg = -1)%Z -> rcongr (MofZ (zdiag i j k)) g = hexm A C).
      { intros i j k Hi Hj Hk Hp Hs. assert (IJ : (i * j = k)%Z) by (destruct Hi as [-> | ->], Hj as [-> | ->], Hk as [-> | ->]; try reflexivity; discriminate Hp).
        assert (I2 : IZR i * IZR i = 1) by (destruct Hi as [-> | ->]; lra). assert (J2' : IZR j * IZR j = 1) by (destruct Hj as [-> | ->]; lra). assert (K2 : IZR k * IZR k = 1) by (destruct Hk as [-> | ->]; lra).
        assert (IJS : IZR i * IZR j * IZR sg = -1) by (rewrite <- !mult_IZR, IJ, Hs; reflexivity).
        unfold rcongr, g, hexm, zdiag, MofZ, mmap, Mmul, Mtr. apply (@mat_ext R); cbn [m11 m12 m13 m21 m22 m23 m31 m32 m33]; nra. }
      assert (SG : forall i j k, pm1 i -> pm1 j -> pm1 k -> (i * j * k = 1)%Z -> ((eps <= IZR i * (2 * m23 g) /\ eps <= IZR j * (2 * m13 g) /\ eps <= IZR k * (2 * m12 g)) \/ (IZR i * (2 * m23 g) <= eps /\ IZR j * (2 * m13 g) <= eps /\ IZR k * (2 * m12 g) <= eps)) -> (k * sg = -1)%Z).
      { intros i j k Hi Hj Hk Hp Hs. unfold g in Hs. cbn [m11 m12 m13 m21 m22 m23 m31 m32 m33] in Hs. destruct Hs as [(X & _)|(_ & _ & X)]; [rewrite !Rmult_0_r in X; lra|].
        destruct Hk as [-> | ->], B3 as [-> | ->]; try reflexivity; exfalso; lra. }
      destruct (loop_signs eps g ltac:(lra)) as (i & j & k & Hi & Hj & Hk & Hp & Hs & NL).
      { apply a1_false. unfold g. cbn [m11 m12 m13 m21 m22 m23 m31 m32 m33]. rewrite !Rmult_0_r, Rabs_R0. split; [lra|intros _; lra]. }
      { apply a2_false. unfold g. cbn [m11 m12 m13 m21 m22 m23 m31 m32 m33]. rewrite !Rmult_0_r, Rabs_R0. split; [lra|intros _]. pose proof (Rabs_pos (2 * (IZR sg * A / 2))). lra. }
      { intros i j k Hi Hj Hk Hp Hs. rewrite (RC i j k Hi Hj Hk Hp (SG i j k Hi Hj Hk Hp Hs)). apply hexm_niggli; lra. }
      pose proof (SG i j k Hi Hj Hk Hp Hs) as KS. exists (zdiag i j k), 12%Z, hP, ZMid. cbv zeta.
      assert (GQ : gram (Mmul (Mmul L (MofZ Z1)) (MofZ (zdiag i j k))) = hexm A C) by (rewrite <- rcongr_gram, GL; now apply RC).
      split; [rewrite GQ, GL, NL; f_equal; f_equal; now apply RC|]. split; [rewrite GQ; unfold hexm; cbn [m11 m12 m13 m21 m22 m23 m31 m32 m33]; apply hex_character; lra|].
      split; [exact R1|]. split; [exact R2|]. split; [exact R5|]. split; [reflexivity|]. apply (FIN (zdiag i j k) 12%Z ZMid); [apply FIT; assumption|now apply ZZ|reflexivity].
    - assert (LT : C < A) by lra. destruct (short_c A C v1 v2 v3 ltac:(lra) ltac:(lra) SH D0 LT) as (F3 & F1 & F2).
      assert (EZ : exists z, (z = 1 \/ z = -1)%Z /\ v1 = V 0%Z 0%Z z) by (destruct F3 as [E|E]; eauto). destruct EZ as (z & Hz & E3). clearbody v1 v2 v3. subst v1.
      destruct (short_fit v2 v3 z F1 F2 Hz D0) as (B1 & B2 & B3 & B4 & B5 & FIT).
      set (sg := hb v2 v3) in *. assert (EG : hexg A C (V 0 0 z)%Z v2 v3 = M C 0 0 0 A (IZR sg * A / 2) 0 (IZR sg * A / 2) A).
      { assert (ZZ1 : IZR (z * z) = 1) by (destruct Hz as [-> | ->]; reflexivity). unfold hexg, hent. fold sg. rewrite B1, B2, B4, B5. cbn [vz]. rewrite ZZ1. unfold hb. cbn [vx vy vz]. rewrite ?Z.mul_0_r, ?Z.mul_0_l. apply (@mat_ext R); cbn [m11 m12 m13 m21 m22 m23 m31 m32 m33 Z.sub Z.add Z.opp]; field. }
      rewrite EG in GL. clear EG. set (g := M C 0 0 0 A (IZR sg * A / 2) 0 (IZR sg * A / 2) A) in *.
      assert (RC : forall i j k, pm1 i -> pm1 j -> pm1 k -> (i * j * k = 1)%Z -> (i * sg = -1)%Z -> rcongr (MofZ (zdiag i j k)) g = hexm' A C).
      { intros i j k Hi Hj Hk Hp Hs. assert (IJ : (j * k = i)%Z) by (destruct Hi as [-> | ->], Hj as [-> | ->], Hk as [-> | ->]; try reflexivity; discriminate Hp).
        assert (I2 : IZR i * IZR i = 1) by (destruct Hi as [-> | ->]; lra). assert (J2' : IZR j * IZR j = 1) by (destruct Hj as [-> | ->]; lra). assert (K2 : IZR k * IZR k = 1) by (destruct Hk as [-> | ->]; lra).
        assert (IJS : IZR j * IZR k * IZR sg = -1) by (rewrite <- !mult_IZR, IJ, Hs; reflexivity).
        unfold rcongr, g, hexm', zdiag, MofZ, mmap, Mmul, Mtr. apply (@mat_ext R); cbn [m11 m12 m13 m21 m22 m23 m31 m32 m33]; nra. }
      assert (SG : forall i j k, pm1 i -> pm1 j -> pm1 k -> (i * j * k = 1)%Z -> ((eps <= IZR i * (2 * m23 g) /\ eps <= IZR j * (2 * m13 g) /\ eps <= IZR k * (2 * m12 g)) \/ (IZR i * (2 * m23 g) <= eps /\ IZR j * (2 * m13 g) <= eps /\ IZR k * (2 * m12 g) <= eps)) -> (i * sg = -1)%Z).
      { intros i j k Hi Hj Hk Hp Hs. unfold g in Hs. cbn [m11 m12 m13 m21 m22 m23 m31 m32 m33] in Hs. destruct Hs as [(_ & X & _)|(X & _ & _)]; [rewrite !Rmult_0_r in X; lra|].
        destruct Hi as [-> | ->], B3 as [-> | ->]; try reflexivity; exfalso; lra. }
      destruct (loop_signs eps g ltac:(lra)) as (i & j & k & Hi & Hj & Hk & Hp & Hs & NL).
      { apply a1_false. unfold g. cbn [m11 m12 m13 m21 m22 m23 m31 m32 m33]. rewrite !Rmult_0_r, Rabs_R0. split; [lra|]. intro X. exfalso. rewrite Rabs_minus_sym in X. lra. }
      { apply a2_false. unfold g. cbn [m11 m12 m13 m21 m22 m23 m31 m32 m33]. rewrite !Rmult_0_r, Rabs_R0. split; [lra|intros _; lra]. }
      { intros i j k Hi Hj Hk Hp Hs. rewrite (RC i j k Hi Hj Hk Hp (SG i j k Hi Hj Hk Hp Hs)). apply hexm'_niggli; lra. }
      pose proof (SG i j k Hi Hj Hk Hp Hs) as KS. exists (zdiag i j k), 22%Z, hP, T22. cbv zeta.
      assert (GQ : gram (Mmul (Mmul L (MofZ Z1)) (MofZ (zdiag i j k))) = hexm' A C) by (rewrite <- rcongr_gram, GL; now apply RC).
      split; [rewrite GQ, GL, NL; f_equal; f_equal; now apply RC|]. split; [rewrite GQ; unfold hexm'; cbn [m11 m12 m13 m21 m22 m23 m31 m32 m33]; apply hex_character'; lra|].
      split; [exact R3|]. split; [exact R4|]. split; [exact R5|]. split; [reflexivity|]. apply (FIN (zdiag i j k) 22%Z T22); [apply FIT; assumption|now apply ZZ|reflexivity].
  Qed.
End Hex.
