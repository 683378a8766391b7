(** Hexagonal lattices: the shortest vectors, the reduced cell, the lattice character (reduce.rs, analyzer.rs 363-515) *)
From Coq Require Import ZArith Reals String Ascii List Bool Lia Lra Psatz Permutation.
From Flocq Require Import Core.
From Verif Require Import Num Mat Utils DataCore DataPG DataSG SymmOp PointGroup SpaceGroup Structure Reduce Analyzer RInst Spec Spec2 Spec3 Spec5 Spec6 RFacts
  PUtils PSymmOp PStructure PStructure2 PStructure3 PNiggli PDelaunay PPrim PPrim2 PLattice PAnalyzer PAnalyzer2 PPointGroup PPointGroup2 PSpaceGroup PSpaceGroup2 PCode PTables PIdentify
  PSearch PSearch3 PSearch4 PSearch6 PSearch7 PEnd PEnd2 PEnd3 PEnd4 PEnd11 PEnd12 PEnd13 PEnd14 PEnd15 Prop5 PRun PRun2.
Import ListNotations.
Open Scope R_scope.

Definition hexm (A C : R) : mat R := M A (- A / 2) 0 (- A / 2) A 0 0 0 C.
Definition hqz (x y : Z) : Z := (x * x - x * y + y * y)%Z.
Definition hq (A C : R) (v : vec Z) : R := A * IZR (hqz (vx v) (vy v)) + C * IZR (vz v * vz v).
Lemma hqz_nn x y : (0 <= hqz x y)%Z. Proof. unfold hqz. nia. Qed.
Lemma hqz_0 x y : hqz x y = 0%Z -> x = 0%Z /\ y = 0%Z. Proof. unfold hqz. intro H. assert (x = 0)%Z by nia. subst. nia. Qed.
Lemma hqz_pos x y : ~ (x = 0%Z /\ y = 0%Z) -> (1 <= hqz x y)%Z.
Proof. intro H. pose proof (hqz_nn x y). destruct (Z.eq_dec (hqz x y) 0) as [E|E]; [destruct (H (hqz_0 _ _ E))|lia]. Qed.
Definition six : list (vec Z) := [V 1 0 0; V (-1) 0 0; V 0 1 0; V 0 (-1) 0; V 1 1 0; V (-1) (-1) 0]%Z.
Lemma six_in x y : hqz x y = 1%Z -> In (V x y 0%Z) six.
Proof.
  unfold hqz. intro H. assert (Hx : (-1 <= x <= 1)%Z) by nia. assert (Hy : (-1 <= y <= 1)%Z) by nia.
  assert (x = -1 \/ x = 0 \/ x = 1)%Z as [-> | [-> | ->]] by lia; assert (y = -1 \/ y = 0 \/ y = 1)%Z as [-> | [-> | ->]] by lia; try (exfalso; lia); cbn; tauto.
Qed.
Lemma hex_dot L A C v w : gram L = hexm A C -> Vdot (Mapp L v) (Mapp L w) = A * (vx v * vx w + vy v * vy w) - A / 2 * (vx v * vy w + vy v * vx w) + C * (vz v * vz w).
Proof.
  intro E. assert (G : Vdot (Mapp L v) (Mapp L w) = Vdot v (Mapp (gram L) w)).
  { clear. unfold gram, Vdot, Mapp, Mmul, Mtr. cbn [vx vy vz m11 m12 m13 m21 m22 m23 m31 m32 m33]. ring. }
  rewrite G, E. unfold hexm, Vdot, Mapp. cbn [vx vy vz m11 m12 m13 m21 m22 m23 m31 m32 m33]. field.
Qed.
Lemma hex_nrm L A C v : gram L = hexm A C -> nrm L v = hq A C v.
Proof.
  intro E. unfold nrm, col. rewrite (hex_dot L A C _ _ E). unfold hq, hqz, VofZ. cbn [vx vy vz]. rewrite plus_IZR, minus_IZR, !mult_IZR. field.
Qed.
Lemma nrm_mul L u v : nrm (Mmul L (MofZ u)) v = nrm L (ZMapp u v).
Proof. unfold nrm, col. now rewrite MofZ_app, Mapp_Mmul. Qed.

(** ** Parallel and coplanar vectors in other axes *)
Lemma cross_mul (m : mat Z) a b : ZVcross a b = V 0%Z 0%Z 0%Z -> ZVcross (ZMapp m a) (ZMapp m b) = V 0%Z 0%Z 0%Z.
Proof.
  destruct m as [p q r s t u v w x], a as [a1 a2 a3], b as [b1 b2 b3]. unfold ZVcross, ZMapp. cbn [vx vy vz m11 m12 m13 m21 m22 m23 m31 m32 m33]. intro E. injection E as E1 E2 E3. f_equal.
  - transitivity ((t * x - u * w) * (a2 * b3 - a3 * b2) + (u * v - s * x) * (a3 * b1 - a1 * b3) + (s * w - t * v) * (a1 * b2 - a2 * b1))%Z; [ring|]. rewrite E1, E2, E3. ring.
  - transitivity ((r * w - q * x) * (a2 * b3 - a3 * b2) + (p * x - r * v) * (a3 * b1 - a1 * b3) + (q * v - p * w) * (a1 * b2 - a2 * b1))%Z; [ring|]. rewrite E1, E2, E3. ring.
  - transitivity ((q * u - r * t) * (a2 * b3 - a3 * b2) + (r * s - p * u) * (a3 * b1 - a1 * b3) + (p * t - q * s) * (a1 * b2 - a2 * b1))%Z; [ring|]. rewrite E1, E2, E3. ring.
Qed.
Lemma zdet_mul (m : mat Z) a b c : zdet (ZMapp m a) (ZMapp m b) (ZMapp m c) = (ZMdet m * zdet a b c)%Z.
Proof. destruct m as [p q r s t u v w x], a as [a1 a2 a3], b as [b1 b2 b3], c as [c1 c2 c3]. unfold zdet, ZMdet, zcols, ZMapp. cbn [vx vy vz m11 m12 m13 m21 m22 m23 m31 m32 m33]. ring. Qed.
Lemma zcols_mul (m : mat Z) a b c : zcols (ZMapp m a) (ZMapp m b) (ZMapp m c) = ZMmul m (zcols a b c).
Proof. destruct m as [p q r s t u v w x], a as [a1 a2 a3], b as [b1 b2 b3], c as [c1 c2 c3]. unfold zcols, ZMapp, ZMmul. cbn [vx vy vz m11 m12 m13 m21 m22 m23 m31 m32 m33]. f_equal; ring. Qed.
Lemma Zapp_inv a b v : ZMmul a b = ZMid -> ZMapp a (ZMapp b v) = v.
Proof. intro H. apply VofZ_inj. rewrite !MofZ_app. now apply app_inv. Qed.

(** ** The shortest vectors *)
Definition units3 : list (vec Z) := [V 1 0 0; V 0 1 0; V 0 0 1]%Z.
Record short3 (A C : R) (v1 v2 v3 : vec Z) : Prop := {
  sh1 : forall w, In w units3 -> hq A C v1 <= hq A C w;
  sh2 : forall w, In w units3 -> ZVcross v1 w <> V 0%Z 0%Z 0%Z -> hq A C v2 <= hq A C w;
  sh3 : forall w, In w units3 -> zdet v1 v2 w <> 0%Z -> hq A C v3 <= hq A C w }.
Section Transport.
  Context (L : mat R) (u ui : mat Z) (A C : R).
  Hypothesis (UI : ZMmul u ui = ZMid) (EL : gram (Mmul L (MofZ u)) = hexm A C) (HU : forall w, In w units3 -> In (ZMapp u w) dirs26).
  Lemma short_moved y1 y2 y3 : shortest3 L y1 y2 y3 -> short3 A C (ZMapp ui y1) (ZMapp ui y2) (ZMapp ui y3).
  Proof using All.
    intros (S1 & S2 & S3). pose proof (zinv_comm _ _ UI) as IU.
    assert (G : forall y, hq A C (ZMapp ui y) = nrm L y) by (intro y; rewrite <- (hex_nrm _ A C _ EL), nrm_mul, (Zapp_inv u ui _ UI); reflexivity).
    assert (G' : forall w, hq A C w = nrm L (ZMapp u w)) by (intro w; rewrite <- (hex_nrm _ A C _ EL), nrm_mul; reflexivity).
    constructor; intros w Hw; rewrite G, G'.
    - apply S1. now apply HU.
    - intro X. apply S2; [now apply HU|]. intro Q. apply X. apply (cross_mul ui) in Q. now rewrite (Zapp_inv ui u _ IU) in Q.
    - intro X. apply S3; [now apply HU|]. intro Q. apply X. rewrite <- (Zapp_inv ui u w IU), zdet_mul, Q. ring.
  Qed.
End Transport.
Section Pick.
  Context (A C : R) (v1 v2 v3 : vec Z).
  Hypothesis (HA : 0 < A) (HC : 0 < C) (S : short3 A C v1 v2 v3) (D : zdet v1 v2 v3 <> 0%Z).
  Let q1 : hq A C (V 1 0 0)%Z = A. Proof. unfold hq, hqz. cbn. ring. Qed.
  Let q2 : hq A C (V 0 1 0)%Z = A. Proof. unfold hq, hqz. cbn. ring. Qed.
  Let q3 : hq A C (V 0 0 1)%Z = C. Proof. unfold hq, hqz. cbn. ring. Qed.
  Let n1 : v1 <> V 0%Z 0%Z 0%Z. Proof using D. clear - D. intros ->. apply D. unfold zdet, ZMdet, zcols. cbn. ring. Qed.
  Let n2 : v2 <> V 0%Z 0%Z 0%Z. Proof using D. clear - D. intros ->. apply D. unfold zdet, ZMdet, zcols. cbn. ring. Qed.
  (** a vector no longer than the edge of the hexagon *)
  Lemma flat v : A < C -> v <> V 0%Z 0%Z 0%Z -> hq A C v <= A -> In v six.
  Proof using HA HC.
    clear S D n1 n2 q1 q2 q3. intros AC N H. destruct v as [x y z]. unfold hq in H. cbn [vx vy vz] in H. pose proof (hqz_nn x y) as P. assert (P' : 0 <= IZR (hqz x y)) by (apply (IZR_le 0), P).
    assert (z = 0%Z) as ->. { destruct (Z.eq_dec z 0) as [E|E]; [exact E|]. exfalso. assert (1 <= IZR (z * z)) by (apply (IZR_le 1); nia). nra. }
    assert (hqz x y = 1%Z). { assert (IZR (hqz x y) < 2). { cbn in H. nra. } apply (lt_IZR _ 2) in H0. assert (hqz x y <> 0)%Z; [|lia]. intro E. apply hqz_0 in E. destruct E as [-> ->]. now apply N. }
    now apply six_in.
  Qed.
  Lemma flat_other v : In v six -> exists w, (w = V 1 0 0 \/ w = V 0 1 0)%Z /\ In w units3 /\ ZVcross v w <> V 0%Z 0%Z 0%Z.
  Proof using.
    intro H. assert (E : ((vy v =? 0) || negb (vy v =? 0))%Z = true) by (destruct (vy v =? 0)%Z; reflexivity).
    destruct (vy v =? 0)%Z eqn:Q; [exists (V 0 1 0)%Z|exists (V 1 0 0)%Z]; (split; [tauto|]); (split; [cbn; tauto|]); cbn [In six] in H;
      repeat (destruct H as [<-|H]; [try discriminate Q; discriminate|]); destruct H.
  Qed.
  Lemma long_c : A < C -> In v1 six /\ In v2 six /\ (v3 = V 0 0 1 \/ v3 = V 0 0 (-1))%Z.
  Proof using All.
    intro AC. assert (F1 : In v1 six). { apply flat; [exact AC|exact n1|]. pose proof (sh1 _ _ _ _ _ S (V 1 0 0)%Z ltac:(cbn; tauto)) as Y. rewrite q1 in Y. exact Y. }
    assert (F2 : In v2 six). { apply flat; [exact AC|exact n2|]. destruct (flat_other v1 F1) as (w & E & Hw & X). pose proof (sh2 _ _ _ _ _ S w Hw X) as Y. destruct E as [-> | ->]; rewrite ?q1, ?q2 in Y; exact Y. }
    split; [exact F1|]. split; [exact F2|].
    assert (Z1 : vz v1 = 0%Z) by (clear - F1; cbn [In six] in F1; repeat (destruct F1 as [<-|F1]; [reflexivity|]); destruct F1).
    assert (Z2 : vz v2 = 0%Z) by (clear - F2; cbn [In six] in F2; repeat (destruct F2 as [<-|F2]; [reflexivity|]); destruct F2).
    assert (ED : forall w, zdet v1 v2 w = ((vx v1 * vy v2 - vx v2 * vy v1) * vz w)%Z).
    { intro w. unfold zdet, ZMdet, zcols. cbn [m11 m12 m13 m21 m22 m23 m31 m32 m33]. rewrite Z1, Z2. ring. }
    assert (Y : hq A C v3 <= C). { pose proof (sh3 _ _ _ _ _ S (V 0 0 1)%Z ltac:(cbn; tauto)) as Y. rewrite q3 in Y. apply Y. rewrite ED in D |- *. cbn [vz]. rewrite Z.mul_1_r. intro Q. apply D. rewrite Q. ring. }
    rewrite ED in D. clear S q1 q2 q3 n1 n2 F1 F2. destruct v3 as [x y z]. unfold hq in Y. cbn [vx vy vz] in *. assert (z <> 0)%Z by (intros ->; apply D; ring).
    pose proof (hqz_nn x y) as P. assert (P' : 0 <= IZR (hqz x y)) by (apply (IZR_le 0), P). assert (Q : 1 <= IZR (z * z)) by (apply (IZR_le 1); nia).
    assert (Hz : (z * z = 1)%Z). { assert (IZR (z * z) < 2). { nra. } apply (lt_IZR _ 2) in H0. nia. }
    assert (Hq : hqz x y = 0%Z). { rewrite Hz in Y. destruct (Z.eq_dec (hqz x y) 0) as [E|E]; [exact E|]. exfalso. assert (1 <= IZR (hqz x y)) by (apply (IZR_le 1); lia). nra. }
    apply hqz_0 in Hq. destruct Hq as [-> ->]. assert (z = 1 \/ z = -1)%Z as [-> | ->] by nia; auto.
  Qed.
  Lemma short_c : C < A -> (v1 = V 0 0 1 \/ v1 = V 0 0 (-1))%Z /\ In v2 six /\ In v3 six.
  Proof using All.
    intro CA. assert (F1 : (v1 = V 0 0 1 \/ v1 = V 0 0 (-1))%Z).
    { assert (Y : hq A C v1 <= C) by (pose proof (sh1 _ _ _ _ _ S (V 0 0 1)%Z ltac:(cbn; tauto)) as Y; rewrite q3 in Y; exact Y). pose proof n1 as N. clear S q1 q2 q3 n1 n2 D. destruct v1 as [x y z]. unfold hq in Y. cbn [vx vy vz] in *.
      pose proof (hqz_nn x y) as P. assert (P' : 0 <= IZR (hqz x y)) by (apply (IZR_le 0), P). assert (Pz : 0 <= IZR (z * z)) by (apply (IZR_le 0); nia).
      assert (Hq : hqz x y = 0%Z). { destruct (Z.eq_dec (hqz x y) 0) as [E|E]; [exact E|]. exfalso. assert (1 <= IZR (hqz x y)) by (apply (IZR_le 1); lia). nra. }
      rewrite Hq in Y. apply hqz_0 in Hq. destruct Hq as [-> ->]. assert (Hz : (z * z < 2)%Z). { apply lt_IZR. nra. }
      assert (z <> 0)%Z by (intros ->; now apply N). assert (z = 1 \/ z = -1)%Z as [-> | ->] by nia; auto. }
    assert (G : forall v, ~ (vx v = 0%Z /\ vy v = 0%Z) -> hq A C v <= A -> In v six).
    { clear S q1 q2 q3 n1 n2 D F1. intros [x y z] N Y. unfold hq in Y. cbn [vx vy vz] in *. pose proof (hqz_pos x y N) as P. assert (P' : 1 <= IZR (hqz x y)) by (apply (IZR_le 1), P). assert (Pz : 0 <= IZR (z * z)) by (apply (IZR_le 0); nia).
      assert (z = 0%Z) as ->. { destruct (Z.eq_dec z 0) as [E|E]; [exact E|]. exfalso. assert (1 <= IZR (z * z)) by (apply (IZR_le 1); nia). nra. }
      apply six_in. assert (IZR (hqz x y) < 2) by nra. apply (lt_IZR _ 2) in H. lia. }
    assert (ED : forall w, zdet v1 v2 w = (vz v1 * (vx v2 * vy w - vy v2 * vx w))%Z).
    { intro w. unfold zdet, ZMdet, zcols. cbn [m11 m12 m13 m21 m22 m23 m31 m32 m33]. destruct F1 as [-> | ->]; cbn [vx vy vz]; ring. }
    assert (Z1 : vz v1 <> 0%Z) by (destruct F1 as [-> | ->]; discriminate).
    assert (F2 : In v2 six).
    { apply G; [intros [X Y]; apply D; rewrite ED, X, Y; ring|]. pose proof (sh2 _ _ _ _ _ S (V 1 0 0)%Z ltac:(cbn; tauto)) as Y. rewrite q1 in Y. apply Y. destruct F1 as [-> | ->]; discriminate. }
    split; [exact F1|]. split; [exact F2|]. apply G; [intros [X Y]; apply D; rewrite ED, X, Y; ring|].
    assert (W : exists w, (w = V 1 0 0 \/ w = V 0 1 0)%Z /\ In w units3 /\ zdet v1 v2 w <> 0%Z).
    { destruct (flat_other v2 F2) as (w & E & Hw & X). exists w. split; [exact E|]. split; [exact Hw|]. rewrite ED. intro Q. apply X.
      assert (Z2 : vz v2 = 0%Z) by (clear - F2; cbn [In six] in F2; repeat (destruct F2 as [<-|F2]; [reflexivity|]); destruct F2).
      assert (Q2 : (vx v2 * vy w - vy v2 * vx w = 0)%Z) by nia. unfold ZVcross. rewrite Z2. destruct E as [-> | ->]; cbn [vx vy vz] in *; f_equal; lia. }
    destruct W as (w & E & Hw & X). pose proof (sh3 _ _ _ _ _ S w Hw X) as Y. destruct E as [-> | ->]; rewrite ?q1, ?q2 in Y; exact Y.
  Qed.
End Pick.
