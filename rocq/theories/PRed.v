(** Strictly reduced cells: their shortest vectors, their isometries and their lattice character (analyzer.rs 363-551) *)
From Coq Require Import ZArith Reals String Ascii List Bool Lia Lra Psatz Permutation.
From Flocq Require Import Core.
From Verif Require Import Num Mat Utils DataCore DataPG DataSG SymmOp PointGroup SpaceGroup Structure Reduce Analyzer RInst Spec Spec2 Spec3 Spec5 Spec6 Spec8 Spec10 RFacts
  PUtils PSymmOp PStructure PStructure2 PStructure3 PNiggli PDelaunay PPrim PPrim2 PLattice PAnalyzer PAnalyzer2 PPointGroup PPointGroup2 PSpaceGroup PSpaceGroup2 PCode PTables PIdentify
  PSearch PSearch3 PSearch4 PSearch6 PSearch7 PEnd PEnd2 PEnd3 PEnd4 PEnd11 PEnd12 PEnd13 PEnd14 PEnd15 Prop5 PRun PRun2 PHex PHex2 PHex3.
Import ListNotations.
Open Scope R_scope.

(** ** The quadratic form *)
Definition rq (A B C D E F : R) (v : vec Z) : R :=
  A * IZR (vx v * vx v) + B * IZR (vy v * vy v) + C * IZR (vz v * vz v) + 2 * D * IZR (vy v * vz v) + 2 * E * IZR (vx v * vz v) + 2 * F * IZR (vx v * vy v).
Lemma metric_nrm L A B C D E F v : gram L = metric A B C D E F -> nrm L v = rq A B C D E F v.
Proof.
  intro EL. assert (G : m11 (gram L) = A /\ m22 (gram L) = B /\ m33 (gram L) = C /\ m23 (gram L) = D /\ m13 (gram L) = E /\ m12 (gram L) = F) by (rewrite EL; repeat split; reflexivity).
  destruct G as (<- & <- & <- & <- & <- & <-). clear EL. destruct L as [a b c d e f g h i], v as [x y z]. unfold nrm, col, rq, gram, Mmul, Mtr, Mapp, Vdot, VofZ. cbn [vx vy vz m11 m12 m13 m21 m22 m23 m31 m32 m33].
  rewrite !mult_IZR. ring.
Qed.
(** weak form of the conditions, enough for the shortest vectors *)
Definition reduced (A B C D E F : R) : Prop := 0 < A < B /\ B < C /\
  ((0 < D /\ 0 < E /\ 0 < F /\ 2 * D < B /\ 2 * E < A /\ 2 * F < A) \/
   (D <= 0 /\ E <= 0 /\ F <= 0 /\ - 2 * D < B /\ - 2 * E < A /\ - 2 * F < A /\ 0 < A + B + 2 * (D + E + F))).
Lemma strictly_weak e A B C D E F : 0 <= e -> 0 < A -> strictly_reduced e A B C D E F -> reduced A B C D E F.
Proof.
  intros He HA [S1 S2 S3]. unfold reduced. split; [lra|]. split; [lra|]. unfold zero_or_below in S3. destruct S3 as [S|(H1 & H2 & H3 & S)]; [left; lra|right].
  assert (D <= 0) by (destruct H1; lra). assert (E <= 0) by (destruct H2; lra). assert (F <= 0) by (destruct H3; lra). lra.
Qed.
Lemma sq1 (z : Z) : z <> 0%Z -> 1 <= IZR (z * z). Proof. intro H. apply (IZR_le 1). nia. Qed.
Lemma sq0 (z : Z) : 0 <= IZR (z * z). Proof. apply (IZR_le 0). nia. Qed.
Lemma sq_pm (z : Z) : IZR (z * z) <= 1 -> z <> 0%Z -> (z = 1 \/ z = -1)%Z.
Proof. intros H N. apply (le_IZR _ 1) in H. assert (z <= 1)%Z by nia. assert (-1 <= z)%Z by nia. lia. Qed.
Lemma sq_z (z : Z) (k : R) : 0 < k -> k * IZR (z * z) <= 0 -> z = 0%Z.
Proof. intros Hk H. destruct (Z.eq_dec z 0) as [E|E]; [exact E|]. pose proof (sq1 z E). nra. Qed.
Section Shortest.
  Context (A B C D E F : R).
  Hypothesis R0 : reduced A B C D E F.
  Notation Q := (rq A B C D E F).
  Lemma third v : vz v <> 0%Z -> Q v <= C -> v = V 0%Z 0%Z 1%Z \/ v = V 0%Z 0%Z (-1)%Z.
  Proof using R0.
    destruct v as [x y z]. cbn [vz]. intros Hz H. destruct R0 as (H1 & H2 & [T|T]); unfold rq in H; cbn [vx vy vz] in H.
    - assert (EQ : Q (V x y z) - C = D * (IZR ((y + z) * (y + z)) - 1) + E * (IZR ((x + z) * (x + z)) - 1) + F * IZR ((x + y) * (x + y)) + (A - E - F) * IZR (x * x) + (B - D - F) * IZR (y * y) + (C - D - E) * (IZR (z * z) - 1)).
      { unfold rq. cbn [vx vy vz]. rewrite !mult_IZR, !plus_IZR. ring. }
      unfold rq in EQ. cbn [vx vy vz] in EQ. pose proof (sq0 x) as X0. pose proof (sq0 y) as Y0. pose proof (sq1 z Hz) as Z0. pose proof (sq0 (x + y)) as S0.
      assert (P3 : 0 <= (C - D - E) * (IZR (z * z) - 1)) by (apply Rmult_le_pos; lra).
      destruct (Z.eq_dec (y + z) 0) as [E1|E1].
      + assert (Y1 : 1 <= IZR (y * y)) by (apply sq1; lia). rewrite E1 in EQ. cbn [Z.mul] in EQ. assert (P2 : B - D - F <= (B - D - F) * IZR (y * y)) by nra.
        destruct (Z.eq_dec (x + z) 0) as [E2|E2].
        * exfalso. assert (X1 : 1 <= IZR (x * x)) by (apply sq1; lia). assert (S4 : 4 <= IZR ((x + y) * (x + y))) by (apply (IZR_le 4); nia). rewrite E2 in EQ. cbn [Z.mul] in EQ.
          assert (A - E - F <= (A - E - F) * IZR (x * x)) by nra. assert (F * 4 <= F * IZR ((x + y) * (x + y))) by nra. lra.
        * exfalso. pose proof (sq1 _ E2) as W1. assert (0 <= E * (IZR ((x + z) * (x + z)) - 1)) by (apply Rmult_le_pos; lra). assert (0 <= (A - E - F) * IZR (x * x)) by (apply Rmult_le_pos; lra).
          destruct (Z.eq_dec (x + y) 0) as [E3|E3].
          -- assert (X1 : 1 <= IZR (x * x)) by (apply sq1; lia). assert (W4 : 4 <= IZR ((x + z) * (x + z))) by (apply (IZR_le 4); nia). assert (A - E - F <= (A - E - F) * IZR (x * x)) by nra. assert (0 <= F * IZR ((x + y) * (x + y))) by (apply Rmult_le_pos; lra).
             assert (E * 3 <= E * (IZR ((x + z) * (x + z)) - 1)) by nra. lra.
          -- pose proof (sq1 _ E3). assert (F <= F * IZR ((x + y) * (x + y))) by nra. lra.
      + pose proof (sq1 _ E1) as W1. assert (P1 : 0 <= D * (IZR ((y + z) * (y + z)) - 1)) by (apply Rmult_le_pos; lra). assert (P2 : 0 <= (B - D - F) * IZR (y * y)) by (apply Rmult_le_pos; lra).
        destruct (Z.eq_dec (x + z) 0) as [E2|E2].
        * exfalso. assert (X1 : 1 <= IZR (x * x)) by (apply sq1; lia). rewrite E2 in EQ. cbn [Z.mul] in EQ. assert (A - E - F <= (A - E - F) * IZR (x * x)) by nra.
          destruct (Z.eq_dec (x + y) 0) as [E3|E3].
          -- assert (Y1 : 1 <= IZR (y * y)) by (apply sq1; lia). assert (W4 : 4 <= IZR ((y + z) * (y + z))) by (apply (IZR_le 4); nia). assert (B - D - F <= (B - D - F) * IZR (y * y)) by nra. assert (0 <= F * IZR ((x + y) * (x + y))) by (apply Rmult_le_pos; lra).
             assert (D * 3 <= D * (IZR ((y + z) * (y + z)) - 1)) by nra. lra.
          -- pose proof (sq1 _ E3). assert (F <= F * IZR ((x + y) * (x + y))) by nra. lra.
        * pose proof (sq1 _ E2) as W2. assert (0 <= E * (IZR ((x + z) * (x + z)) - 1)) by (apply Rmult_le_pos; lra). assert (0 <= (A - E - F) * IZR (x * x)) by (apply Rmult_le_pos; lra). assert (0 <= F * IZR ((x + y) * (x + y))) by (apply Rmult_le_pos; lra).
          assert (x = 0%Z) as -> by (apply (sq_z x (A - E - F)); lra). assert (y = 0%Z) as -> by (apply (sq_z y (B - D - F)); lra).
          assert (Z1 : IZR (z * z) <= 1) by (apply Rnot_lt_le; intro; assert (0 < (C - D - E) * (IZR (z * z) - 1)) by (apply Rmult_lt_0_compat; lra); lra). destruct (sq_pm z Z1 Hz) as [-> | ->]; auto.
    - assert (EQ : Q (V x y z) - C = (- D) * (IZR ((y - z) * (y - z)) - 1) + (- E) * (IZR ((x - z) * (x - z)) - 1) + (- F) * IZR ((x - y) * (x - y)) + (A + E + F) * IZR (x * x) + (B + D + F) * IZR (y * y) + (C + D + E) * (IZR (z * z) - 1)).
      { unfold rq. cbn [vx vy vz]. rewrite !mult_IZR, !minus_IZR. ring. }
      unfold rq in EQ. cbn [vx vy vz] in EQ. pose proof (sq0 x) as X0. pose proof (sq0 y) as Y0. pose proof (sq1 z Hz) as Z0. pose proof (sq0 (x - y)) as S0.
      assert (P3 : 0 <= (C + D + E) * (IZR (z * z) - 1)) by (apply Rmult_le_pos; lra). assert (P4 : 0 <= (- F) * IZR ((x - y) * (x - y))) by (apply Rmult_le_pos; lra).
      destruct (Z.eq_dec (y - z) 0) as [E1|E1].
      + assert (Y1 : 1 <= IZR (y * y)) by (apply sq1; lia). rewrite E1 in EQ. cbn [Z.mul] in EQ. assert (P2 : B + D + F <= (B + D + F) * IZR (y * y)) by nra.
        destruct (Z.eq_dec (x - z) 0) as [E2|E2].
        * exfalso. assert (X1 : 1 <= IZR (x * x)) by (apply sq1; lia). rewrite E2 in EQ. cbn [Z.mul] in EQ. assert (A + E + F <= (A + E + F) * IZR (x * x)) by nra. lra.
        * exfalso. pose proof (sq1 _ E2) as W1. assert (0 <= (- E) * (IZR ((x - z) * (x - z)) - 1)) by (apply Rmult_le_pos; lra). assert (0 <= (A + E + F) * IZR (x * x)) by (apply Rmult_le_pos; lra).
          assert (E3 : (x - y <> 0)%Z) by lia. pose proof (sq1 _ E3). assert (- F <= (- F) * IZR ((x - y) * (x - y))) by nra. lra.
      + pose proof (sq1 _ E1) as W1. assert (P1 : 0 <= (- D) * (IZR ((y - z) * (y - z)) - 1)) by (apply Rmult_le_pos; lra). assert (P2 : 0 <= (B + D + F) * IZR (y * y)) by (apply Rmult_le_pos; lra).
        destruct (Z.eq_dec (x - z) 0) as [E2|E2].
        * exfalso. assert (X1 : 1 <= IZR (x * x)) by (apply sq1; lia). rewrite E2 in EQ. cbn [Z.mul] in EQ. assert (A + E + F <= (A + E + F) * IZR (x * x)) by nra.
          assert (E3 : (x - y <> 0)%Z) by lia. pose proof (sq1 _ E3). assert (- F <= (- F) * IZR ((x - y) * (x - y))) by nra. lra.
        * pose proof (sq1 _ E2) as W2. assert (0 <= (- E) * (IZR ((x - z) * (x - z)) - 1)) by (apply Rmult_le_pos; lra). assert (0 <= (A + E + F) * IZR (x * x)) by (apply Rmult_le_pos; lra).
          assert (x = 0%Z) as -> by (apply (sq_z x (A + E + F)); lra). assert (y = 0%Z) as -> by (apply (sq_z y (B + D + F)); lra).
          assert (Z1 : IZR (z * z) <= 1) by (apply Rnot_lt_le; intro; assert (0 < (C + D + E) * (IZR (z * z) - 1)) by (apply Rmult_lt_0_compat; lra); lra). destruct (sq_pm z Z1 Hz) as [-> | ->]; auto.
  Qed.
  Lemma second v : vz v = 0%Z -> vy v <> 0%Z -> Q v <= B -> v = V 0%Z 1%Z 0%Z \/ v = V 0%Z (-1)%Z 0%Z.
  Proof using R0.
    destruct v as [x y z]. cbn [vy vz]. intros -> Hy H. assert (K : - A < 2 * F < A) by (destruct R0 as (H1 & H2 & [T|T]); lra). destruct R0 as (H1 & H2 & _). unfold rq in H. cbn [vx vy vz] in H. rewrite !Z.mul_0_r in H.
    pose proof (sq0 x) as X0. pose proof (sq1 y Hy) as Y0. destruct (Rle_or_lt 0 F) as [S|S].
    - assert (EQ : A * IZR (x * x) + B * IZR (y * y) + 2 * F * IZR (x * y) - B = F * (IZR ((x + y) * (x + y)) - 1) + (A - F) * IZR (x * x) + (B - F) * (IZR (y * y) - 1)) by (rewrite !mult_IZR, !plus_IZR; ring).
      assert (P3 : 0 <= (B - F) * (IZR (y * y) - 1)) by (apply Rmult_le_pos; lra). destruct (Z.eq_dec (x + y) 0) as [E1|E1].
      + exfalso. assert (X1 : 1 <= IZR (x * x)) by (apply sq1; lia). rewrite E1 in EQ. cbn [Z.mul] in EQ. assert (A - F <= (A - F) * IZR (x * x)) by nra. lra.
      + pose proof (sq1 _ E1). assert (0 <= F * (IZR ((x + y) * (x + y)) - 1)) by (apply Rmult_le_pos; lra). assert (0 <= (A - F) * IZR (x * x)) by (apply Rmult_le_pos; lra).
        assert (x = 0%Z) as -> by (apply (sq_z x (A - F)); lra).
        assert (Z1 : IZR (y * y) <= 1) by (apply Rnot_lt_le; intro; assert (0 < (B - F) * (IZR (y * y) - 1)) by (apply Rmult_lt_0_compat; lra); lra). destruct (sq_pm y Z1 Hy) as [-> | ->]; auto.
    - assert (EQ : A * IZR (x * x) + B * IZR (y * y) + 2 * F * IZR (x * y) - B = (- F) * (IZR ((x - y) * (x - y)) - 1) + (A + F) * IZR (x * x) + (B + F) * (IZR (y * y) - 1)) by (rewrite !mult_IZR, !minus_IZR; ring).
      assert (P3 : 0 <= (B + F) * (IZR (y * y) - 1)) by (apply Rmult_le_pos; lra). destruct (Z.eq_dec (x - y) 0) as [E1|E1].
      + exfalso. assert (X1 : 1 <= IZR (x * x)) by (apply sq1; lia). rewrite E1 in EQ. cbn [Z.mul] in EQ. assert (A + F <= (A + F) * IZR (x * x)) by nra. lra.
      + pose proof (sq1 _ E1). assert (0 <= (- F) * (IZR ((x - y) * (x - y)) - 1)) by (apply Rmult_le_pos; lra). assert (0 <= (A + F) * IZR (x * x)) by (apply Rmult_le_pos; lra).
        assert (x = 0%Z) as -> by (apply (sq_z x (A + F)); lra).
        assert (Z1 : IZR (y * y) <= 1) by (apply Rnot_lt_le; intro; assert (0 < (B + F) * (IZR (y * y) - 1)) by (apply Rmult_lt_0_compat; lra); lra). destruct (sq_pm y Z1 Hy) as [-> | ->]; auto.
  Qed.
  Lemma first v : vz v = 0%Z -> vy v = 0%Z -> vx v <> 0%Z -> Q v <= A -> v = V 1%Z 0%Z 0%Z \/ v = V (-1)%Z 0%Z 0%Z.
  Proof using R0.
    destruct v as [x y z]. cbn [vx vy vz]. intros -> -> Hx H. destruct R0 as (H1 & H2 & _). unfold rq in H. cbn [vx vy vz] in H. rewrite !Z.mul_0_r in H. cbn [Z.mul] in H.
    assert (X1 : IZR (x * x) <= 1) by (apply (Rmult_le_reg_l A); lra). destruct (sq_pm x X1 Hx) as [-> | ->]; auto.
  Qed.
  Lemma q_e1 : Q (V 1 0 0)%Z = A. Proof using. unfold rq. cbn. ring. Qed.
  Lemma q_e2 : Q (V 0 1 0)%Z = B. Proof using. unfold rq. cbn. ring. Qed.
  Lemma q_e3 : Q (V 0 0 1)%Z = C. Proof using. unfold rq. cbn. ring. Qed.
  Lemma q_e2' : Q (V 0 (-1) 0)%Z = B. Proof using. unfold rq. cbn. ring. Qed.
  Lemma q_e3' : Q (V 0 0 (-1))%Z = C. Proof using. unfold rq. cbn. ring. Qed.
  (** any non-zero vector no longer than the shortest edge *)
  Lemma shortest_first v : v <> V 0%Z 0%Z 0%Z -> Q v <= A -> exists i, pm1 i /\ v = V i 0%Z 0%Z.
  Proof using R0.
    intros N H. destruct R0 as (H1 & H2 & _). destruct (Z.eq_dec (vz v) 0) as [Ez|Ez].
    - destruct (Z.eq_dec (vy v) 0) as [Ey|Ey].
      + assert (Hx : vx v <> 0%Z) by (intro Ex; apply N; destruct v as [x y z]; cbn [vx vy vz] in *; now subst). destruct (first v Ez Ey Hx H) as [-> | ->]; eexists; (split; [|reflexivity]); [now left|now right].
      + exfalso. destruct (second v Ez Ey ltac:(lra)) as [-> | ->]; rewrite ?q_e2, ?q_e2' in H; lra.
    - exfalso. destruct (third v Ez ltac:(lra)) as [-> | ->]; rewrite ?q_e3, ?q_e3' in H; lra.
  Qed.
  Lemma shortest_second v : v <> V 0%Z 0%Z 0%Z -> Q v <= B -> ~ (vy v = 0%Z /\ vz v = 0%Z) -> exists j, pm1 j /\ v = V 0%Z j 0%Z.
  Proof using R0.
    intros N H NP. destruct R0 as (H1 & H2 & _). destruct (Z.eq_dec (vz v) 0) as [Ez|Ez].
    - assert (Ey : vy v <> 0%Z) by tauto. destruct (second v Ez Ey H) as [-> | ->]; eexists; (split; [|reflexivity]); [now left|now right].
    - exfalso. destruct (third v Ez ltac:(lra)) as [-> | ->]; rewrite ?q_e3, ?q_e3' in H; lra.
  Qed.
  Lemma shortest_third v : vz v <> 0%Z -> Q v <= C -> exists k, pm1 k /\ v = V 0%Z 0%Z k.
  Proof using R0. intros Ez H. destruct (third v Ez H) as [-> | ->]; eexists; (split; [|reflexivity]); [now left|now right]. Qed.
End Shortest.

(** ** The vectors chosen *)
Section Transport.
  Context (L : mat R) (u ui : mat Z) (A B C D E F : R).
  Hypothesis (UI : ZMmul u ui = ZMid) (EL : gram (Mmul L (MofZ u)) = metric A B C D E F) (HU : forall w, In w units3 -> In (ZMapp u w) dirs26).
  Hypothesis R0 : reduced A B C D E F.
  Lemma chosen y1 y2 y3 : shortest3 L y1 y2 y3 -> (ZMdet (zcols y1 y2 y3) = 1 \/ ZMdet (zcols y1 y2 y3) = -1)%Z ->
    exists i j k, pm1 i /\ pm1 j /\ pm1 k /\ ZMmul ui (zcols y1 y2 y3) = zdiag i j k.
  Proof using All.
    intros (S1 & S2 & S3) DY. pose proof (zinv_comm _ _ UI) as IU. set (Q := rq A B C D E F).
    assert (G : forall y, Q (ZMapp ui y) = nrm L y) by (intro y; unfold Q; rewrite <- (metric_nrm _ _ _ _ _ _ _ _ EL), nrm_mul, (Zapp_inv u ui _ UI); reflexivity).
    assert (G' : forall w, Q w = nrm L (ZMapp u w)) by (intro w; unfold Q; rewrite <- (metric_nrm _ _ _ _ _ _ _ _ EL), nrm_mul; reflexivity).
    assert (T1 : forall w, In w units3 -> Q (ZMapp ui y1) <= Q w) by (intros w Hw; rewrite G, G'; apply S1; now apply HU).
    assert (T2 : forall w, In w units3 -> ZVcross (ZMapp ui y1) w <> V 0%Z 0%Z 0%Z -> Q (ZMapp ui y2) <= Q w).
    { intros w Hw X. rewrite G, G'. apply S2; [now apply HU|]. intro Z0. apply X. apply (cross_mul ui) in Z0. now rewrite (Zapp_inv ui u _ IU) in Z0. }
    assert (T3 : forall w, In w units3 -> zdet (ZMapp ui y1) (ZMapp ui y2) w <> 0%Z -> Q (ZMapp ui y3) <= Q w).
    { intros w Hw X. rewrite G, G'. apply S3; [now apply HU|]. intro Z0. apply X. rewrite <- (Zapp_inv ui u w IU), zdet_mul, Z0. ring. }
    assert (DI : (ZMdet u * ZMdet ui = 1)%Z) by (rewrite <- ZMdet_mul, UI; reflexivity).
    assert (DV : zdet (ZMapp ui y1) (ZMapp ui y2) (ZMapp ui y3) <> 0%Z). { rewrite zdet_mul. unfold zdet. intro X. destruct DY as [Y|Y]; rewrite Y in X; assert (ZMdet ui = 0%Z) by lia; nia. }
    rewrite <- zcols_mul. set (v1 := ZMapp ui y1) in *. set (v2 := ZMapp ui y2) in *. set (v3 := ZMapp ui y3) in *. clearbody v1 v2 v3. clear S1 S2 S3 G G' DY.
    destruct (shortest_first A B C D E F R0 v1) as (i & Hi & E1); [intros ->; apply DV; unfold zdet, ZMdet, zcols; cbn; ring|exact (eq_rect _ (fun t => Q v1 <= t) (T1 (V 1 0 0)%Z (or_introl eq_refl)) _ (q_e1 A B C D E F))|]. subst v1.
    assert (I0 : i <> 0%Z) by (destruct Hi as [-> | ->]; discriminate).
    destruct (shortest_second A B C D E F R0 v2) as (j & Hj & E2); [intros ->; apply DV; unfold zdet, ZMdet, zcols; cbn; ring| | |].
    { refine (eq_rect _ (fun t => Q v2 <= t) (T2 (V 0 1 0)%Z (or_intror (or_introl eq_refl)) _) _ (q_e2 A B C D E F)). unfold ZVcross. cbn [vx vy vz]. intro X. injection X. intros. lia. }
    { intros [Ey Ez]. apply DV. destruct v2 as [x y z]. cbn [vy vz] in Ey, Ez. subst y z. unfold zdet, ZMdet, zcols. cbn [vx vy vz m11 m12 m13 m21 m22 m23 m31 m32 m33]. ring. } subst v2.
    assert (J0 : j <> 0%Z) by (destruct Hj as [-> | ->]; discriminate).
    destruct (shortest_third A B C D E F R0 v3) as (k & Hk & E3).
    { intro Ez. apply DV. destruct v3 as [x y z]. cbn [vz] in Ez. subst z. unfold zdet, ZMdet, zcols. cbn [vx vy vz m11 m12 m13 m21 m22 m23 m31 m32 m33]. ring. }
    { refine (eq_rect _ (fun t => Q v3 <= t) (T3 (V 0 0 1)%Z (or_intror (or_intror (or_introl eq_refl))) _) _ (q_e3 A B C D E F)). unfold zdet, ZMdet, zcols. cbn [vx vy vz m11 m12 m13 m21 m22 m23 m31 m32 m33]. nia. } subst v3.
    exists i, j, k. split; [exact Hi|]. split; [exact Hj|]. split; [exact Hk|]. reflexivity.
  Qed.
End Transport.

(** ** Isometries *)
Definition keeps_signs (D E F : R) (i j k : Z) : Prop := IZR (j * k) * D = D /\ IZR (i * k) * E = E /\ IZR (i * j) * F = F.
Lemma signs_metric A B C D E F i j k : pm1 i -> pm1 j -> pm1 k -> rcongr (MofZ (zdiag i j k)) (metric A B C D E F) = metric A B C (IZR (j * k) * D) (IZR (i * k) * E) (IZR (i * j) * F).
Proof.
  intros Hi Hj Hk. assert (I2 : IZR i * IZR i = 1) by (destruct Hi as [-> | ->]; lra). assert (J2 : IZR j * IZR j = 1) by (destruct Hj as [-> | ->]; lra). assert (K2 : IZR k * IZR k = 1) by (destruct Hk as [-> | ->]; lra).
  unfold rcongr, zdiag, metric, MofZ, mmap, Mmul, Mtr. rewrite !mult_IZR. apply (@mat_ext R); cbn [m11 m12 m13 m21 m22 m23 m31 m32 m33]; try ring.
  - transitivity (A * (IZR i * IZR i)); [ring|rewrite I2; ring].
  - transitivity (B * (IZR j * IZR j)); [ring|rewrite J2; ring].
  - transitivity (C * (IZR k * IZR k)); [ring|rewrite K2; ring].
Qed.
Lemma reduced_iso L A B C D E F : Mdet L <> 0 -> gram L = metric A B C D E F -> reduced A B C D E F ->
  forall r, lattice_isometry L r <-> exists i j k, pm1 i /\ pm1 j /\ pm1 k /\ keeps_signs D E F i j k /\ r = zdiag i j k.
Proof.
  intros DL EL R0 r. rewrite isometry_gram. split.
  - intro H. assert (N : forall v, rq A B C D E F (ZMapp r v) = rq A B C D E F v).
    { intro v. rewrite <- !(metric_nrm _ _ _ _ _ _ _ _ EL), <- nrm_mul. rewrite EL in H. rewrite !(metric_nrm _ _ _ _ _ _ _ _ H), (metric_nrm _ _ _ _ _ _ _ _ EL). reflexivity. }
    assert (DR : ZMdet r <> 0%Z).
    { intro X. assert (Y : Mdet (gram (Mmul L (MofZ r))) = Mdet (gram L)) by now rewrite H. unfold gram in Y. rewrite !Mdet_mul, !Mdet_tr, !Mdet_mul, MofZ_det, X in Y. apply DL. nra. }
    rewrite (zcols_of r) in *. set (c1 := V (m11 r) (m21 r) (m31 r)) in *. set (c2 := V (m12 r) (m22 r) (m32 r)) in *. set (c3 := V (m13 r) (m23 r) (m33 r)) in *. clearbody c1 c2 c3. clear r.
    assert (M1 : ZMapp (zcols c1 c2 c3) (V 1 0 0)%Z = c1) by (destruct c1 as [x1 y1 z1], c2 as [x2 y2 z2], c3 as [x3 y3 z3]; unfold ZMapp, zcols; cbn [Mat.vx Mat.vy Mat.vz m11 m12 m13 m21 m22 m23 m31 m32 m33]; f_equal; ring).
    assert (M2 : ZMapp (zcols c1 c2 c3) (V 0 1 0)%Z = c2) by (destruct c1 as [x1 y1 z1], c2 as [x2 y2 z2], c3 as [x3 y3 z3]; unfold ZMapp, zcols; cbn [Mat.vx Mat.vy Mat.vz m11 m12 m13 m21 m22 m23 m31 m32 m33]; f_equal; ring).
    assert (M3 : ZMapp (zcols c1 c2 c3) (V 0 0 1)%Z = c3) by (destruct c1 as [x1 y1 z1], c2 as [x2 y2 z2], c3 as [x3 y3 z3]; unfold ZMapp, zcols; cbn [Mat.vx Mat.vy Mat.vz m11 m12 m13 m21 m22 m23 m31 m32 m33]; f_equal; ring).
    pose proof (N (V 1 0 0)%Z) as N1. pose proof (N (V 0 1 0)%Z) as N2. pose proof (N (V 0 0 1)%Z) as N3. rewrite M1, q_e1 in N1. rewrite M2, q_e2 in N2. rewrite M3, q_e3 in N3. clear N M1 M2 M3.
    destruct (shortest_first A B C D E F R0 c1) as (i & Hi & E1); [intros ->; apply DR; unfold ZMdet, zcols; cbn; ring|lra|]. subst c1. assert (I0 : i <> 0%Z) by (destruct Hi as [-> | ->]; discriminate).
    destruct (shortest_second A B C D E F R0 c2) as (j & Hj & E2); [intros ->; apply DR; unfold ZMdet, zcols; cbn; ring|lra| |].
    { intros [Ey Ez]. apply DR. destruct c2 as [x y z]. cbn [vy vz] in Ey, Ez. subst y z. unfold ZMdet, zcols. cbn [vx vy vz m11 m12 m13 m21 m22 m23 m31 m32 m33]. ring. } subst c2.
    destruct (shortest_third A B C D E F R0 c3) as (k & Hk & E3); [|lra|].
    { intro Ez. apply DR. destruct c3 as [x y z]. cbn [vz] in Ez. subst z. unfold ZMdet, zcols. cbn [vx vy vz m11 m12 m13 m21 m22 m23 m31 m32 m33]. ring. } subst c3.
    exists i, j, k. split; [exact Hi|]. split; [exact Hj|]. split; [exact Hk|]. split; [|reflexivity].
    change (zcols (V i 0%Z 0%Z) (V 0%Z j 0%Z) (V 0%Z 0%Z k)) with (zdiag i j k) in H. rewrite <- rcongr_gram, EL, (signs_metric A B C D E F i j k Hi Hj Hk) in H. unfold metric in H. injection H. intros. unfold keeps_signs. repeat split; assumption.
  - intros (i & j & k & Hi & Hj & Hk & (K1 & K2 & K3) & ->). rewrite <- rcongr_gram, EL, (signs_metric A B C D E F i j k Hi Hj Hk), K1, K2, K3. reflexivity.
Qed.
