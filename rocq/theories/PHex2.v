(** Hexagonal lattices: one pass of the Niggli loop, the two lattice characters, the isometries *)
From Coq Require Import ZArith Reals String Ascii List Bool Lia Lra Psatz Permutation.
From Flocq Require Import Core.
From Verif Require Import Num Mat Utils DataCore DataPG DataSG SymmOp PointGroup SpaceGroup Structure Reduce Analyzer RInst Spec Spec2 Spec3 Spec5 Spec6 RFacts
  PUtils PSymmOp PStructure PStructure2 PStructure3 PNiggli PDelaunay PPrim PPrim2 PLattice PAnalyzer PAnalyzer2 PPointGroup PPointGroup2 PSpaceGroup PSpaceGroup2 PCode PTables PIdentify
  PSearch PSearch3 PSearch4 PSearch6 PSearch7 PEnd PEnd2 PEnd3 PEnd4 PEnd11 PEnd12 PEnd13 PEnd14 PEnd15 Prop5 PRun PRun2 PHex.
Import ListNotations.
Open Scope R_scope.

(** ** One pass of the loop, when only signs change *)
Lemma loop_signs (eps : R) (g : mat R) : 0 <= eps < 1 -> @a1_cond RNum eps g = false -> @a2_cond RNum eps g = false ->
  (forall i j k, pm1 i -> pm1 j -> pm1 k -> (i * j * k = 1)%Z ->
    ((eps <= IZR i * (2 * m23 g) /\ eps <= IZR j * (2 * m13 g) /\ eps <= IZR k * (2 * m12 g)) \/
     (IZR i * (2 * m23 g) <= eps /\ IZR j * (2 * m13 g) <= eps /\ IZR k * (2 * m12 g) <= eps)) -> niggli_within eps (rcongr (MofZ (zdiag i j k)) g)) ->
  exists i j k, pm1 i /\ pm1 j /\ pm1 k /\ (i * j * k = 1)%Z /\
    ((eps <= IZR i * (2 * m23 g) /\ eps <= IZR j * (2 * m13 g) /\ eps <= IZR k * (2 * m12 g)) \/
     (IZR i * (2 * m23 g) <= eps /\ IZR j * (2 * m13 g) <= eps /\ IZR k * (2 * m12 g) <= eps)) /\
    @niggli_loop RNum 100 eps (g, Mid) = Ok (rcongr (MofZ (zdiag i j k)) g, MofZ (zdiag i j k)).
Proof.
  intros He A1 A2 NW. destruct (c34_spec eps g He) as (i & j & k & Hi & Hj & Hk & Hp & E & S). exists i, j, k. do 5 (split; [assumption|]).
  specialize (NW i j k Hi Hj Hk Hp S). destruct NW.
  change 100%nat with (Datatypes.S 99). cbn [niggli_loop]. rewrite step_eq.
  assert (Ep : pre eps (g, Mid) = (g, Mid)) by (unfold pre; cbn [fst]; now rewrite A1). rewrite Ep. cbn [fst]. rewrite A2.
  assert (Em : mid eps (g, Mid) = (rcongr (MofZ (zdiag i j k)) g, MofZ (zdiag i j k))).
  { unfold mid. rewrite congr_R. cbn [fst snd]. change (mat (@num RNum)) with (mat R) in *. rewrite E, Mmul_id_l. reflexivity. }
  rewrite Em. unfold post. cbn [fst].
  set (g' := rcongr (MofZ (zdiag i j k)) g) in *.
  assert (A5 : @a5_cond RNum eps g' = false) by (apply a5_false; auto).
  assert (A6 : @a6_cond RNum eps g' = false) by (apply a6_false; auto).
  assert (A7 : @a7_cond RNum eps g' = false) by (apply a7_false; auto).
  assert (A8 : @a8_cond RNum eps g' = false) by (apply a8_false; auto).
  rewrite A5, A6, A7, A8. reflexivity.
Qed.
Lemma rcongr_gram X (T : mat Z) : rcongr (MofZ T) (gram X) = gram (Mmul X (MofZ T)).
Proof. rewrite gram_app. unfold rcongr. now rewrite Mmul_assoc. Qed.
Definition hexm' (A C : R) : mat R := M C 0 0 0 A (- A / 2) 0 (- A / 2) A.
Lemma hexm_niggli eps A C : 0 <= eps -> eps < A -> A <= C -> eps < Rabs (A - C) -> niggli_within eps (hexm A C).
Proof.
  intros He HA HC HS. rewrite Rabs_left1 in HS by lra. unfold hexm. assert (E1 : Rabs (2 * (- A / 2)) = A) by (rewrite Rabs_left1; lra).
  constructor; cbn [m11 m12 m13 m21 m22 m23 m31 m32 m33]; rewrite ?Rmult_0_r, ?Rabs_R0, ?E1; try lra; try (right; repeat split; lra); intro Q; try apply Rabs_le_inv in Q; lra.
Qed.
Lemma hexm'_niggli eps A C : 0 <= eps -> eps < A -> eps < C -> C <= A -> eps < Rabs (A - C) -> niggli_within eps (hexm' A C).
Proof.
  intros He HA HC HB HS. rewrite Rabs_pos_eq in HS by lra. unfold hexm'. assert (E1 : Rabs (2 * (- A / 2)) = A) by (rewrite Rabs_left1; lra).
  constructor; cbn [m11 m12 m13 m21 m22 m23 m31 m32 m33]; rewrite ?Rmult_0_r, ?Rabs_R0, ?E1; try lra; try (right; repeat split; lra); intro Q; try apply Rabs_le_inv in Q; lra.
Qed.

(** ** The lattice characters *)
Lemma cust_true (x y eps : R) : Rabs (x - y) <= eps -> @cust_eq RNum x y eps = true. Proof. intro H. now apply cust_eq_spec. Qed.
Lemma cust_same (x eps : R) : 0 <= eps -> @cust_eq RNum x x eps = true. Proof. intro H. apply cust_true. rewrite Rminus_diag_eq, Rabs_R0 by reflexivity. exact H. Qed.
Lemma hex_character eps A C : 0 < eps -> eps < A / 2 -> eps < Rabs (A - C) -> @character_of RNum eps A A C 0 0 (- A / 2) = Ok 12%Z.
Proof.
  intros He HA HS. unfold character_of.
  assert (EN : @num_negative_zero RNum [0; 0; - A / 2] eps = (1, 2)%Z).
  { rewrite num_negative_zero_spec by (cbn; lia). unfold countb. cbn [filter].
    rewrite !(Rlt_bool_false 0 (- eps)), !(Rlt_bool_true 0 eps) by lra. rewrite (Rlt_bool_true (- A / 2) (- eps)) by lra. reflexivity. }
  match goal with |- context [@num_negative_zero RNum ?l eps] => change (@num_negative_zero RNum l eps) with (@num_negative_zero RNum [0; 0; - A / 2] eps) end.
  rewrite EN. change ((Z.rem 1 2 =? 0)%Z && (2 =? 0)%Z) with false.
  rewrite (cust_same A eps) by lra. replace (@cust_eq RNum A C eps) with false by (symmetry; now apply cust_eq_false). cbn [andb].
  unfold get_second_set. unfold vdivs, vmap. cbn [app first_match vx vy vz]. change (@f0 RNum) with 0.
  rewrite (cust_same 0 eps) by lra. replace (@cust_eq RNum 0 (- A / 2) eps) with false by (symmetry; apply cust_eq_false; rewrite Rabs_right; lra). cbn [andb].
  change (@fdiv RNum 0 (@fofZ RNum (-2))) with (0 / -2). change (@fdiv RNum A (@fofZ RNum (-2))) with (A / -2).
  replace (0 / -2) with 0 by field. replace (A / -2) with (- A / 2) by field. rewrite (cust_same 0 eps), (cust_same (- A / 2) eps) by lra. reflexivity.
Qed.
Lemma hex_character' eps A C : 0 < eps -> eps < A / 2 -> eps < Rabs (A - C) -> @character_of RNum eps C A A (- A / 2) 0 0 = Ok 22%Z.
Proof.
  intros He HA HS. unfold character_of.
  assert (EN : @num_negative_zero RNum [- A / 2; 0; 0] eps = (1, 2)%Z).
  { rewrite num_negative_zero_spec by (cbn; lia). unfold countb. cbn [filter].
    rewrite !(Rlt_bool_false 0 (- eps)), !(Rlt_bool_true 0 eps) by lra. rewrite (Rlt_bool_true (- A / 2) (- eps)) by lra. reflexivity. }
  match goal with |- context [@num_negative_zero RNum ?l eps] => change (@num_negative_zero RNum l eps) with (@num_negative_zero RNum [- A / 2; 0; 0] eps) end.
  rewrite EN. change ((Z.rem 1 2 =? 0)%Z && (2 =? 0)%Z) with false.
  rewrite (cust_same A eps) by lra. replace (@cust_eq RNum C A eps) with false by (symmetry; apply cust_eq_false; now rewrite Rabs_minus_sym). cbn [andb].
  unfold get_third_set. unfold vdivs, vmap. cbn [app first_match vx vy vz]. change (@f0 RNum) with 0.
  rewrite (cust_same 0 eps) by lra. replace (@cust_eq RNum 0 (- A / 2) eps) with false by (symmetry; apply cust_eq_false; rewrite Rabs_right; lra). cbn [andb].
  change (@fdiv RNum 0 (@fofZ RNum (-2))) with (0 / -2). change (@fdiv RNum A (@fofZ RNum (-2))) with (A / -2).
  replace (0 / -2) with 0 by field. replace (A / -2) with (- A / 2) by field. rewrite (cust_same 0 eps), (cust_same (- A / 2) eps) by lra. reflexivity.
Qed.

(** ** The metric in other axes *)
Definition hb (v w : vec Z) : Z := (2 * vx v * vx w + 2 * vy v * vy w - vx v * vy w - vy v * vx w)%Z.
Definition hent (A C : R) (v w : vec Z) : R := A / 2 * IZR (hb v w) + C * IZR (vz v * vz w).
Definition hexg (A C : R) (v1 v2 v3 : vec Z) : mat R :=
  M (hent A C v1 v1) (hent A C v1 v2) (hent A C v1 v3) (hent A C v1 v2) (hent A C v2 v2) (hent A C v2 v3) (hent A C v1 v3) (hent A C v2 v3) (hent A C v3 v3).
Lemma hex_gram L A C v1 v2 v3 : gram L = hexm A C -> gram (Mmul L (MofZ (zcols v1 v2 v3))) = hexg A C v1 v2 v3.
Proof.
  intro E. rewrite gram_app, E. destruct v1 as [a1 a2 a3], v2 as [b1 b2 b3], v3 as [c1 c2 c3]. unfold hexg, hent, hb, hexm, zcols, MofZ, mmap, Mmul, Mtr.
  cbn [vx vy vz m11 m12 m13 m21 m22 m23 m31 m32 m33]. rewrite !minus_IZR, !plus_IZR, !mult_IZR. apply (@mat_ext R); cbn [m11 m12 m13 m21 m22 m23 m31 m32 m33]; field.
Qed.
Lemma zcols_of (m : mat Z) : m = zcols (V (m11 m) (m21 m) (m31 m)) (V (m12 m) (m22 m) (m32 m)) (V (m13 m) (m23 m) (m33 m)).
Proof. now destruct m. Qed.

(** ** The isometries *)
Lemma hex_tested : let l := holo_rots hP in forallb (fun v => forallb (fun w => forallb (fun z => let r := zcols v w (V 0 0 z)%Z in if (hb v w =? -1)%Z then mem_rot r l else true) [1; -1]%Z) six) six = true.
Proof. vm_compute. reflexivity. Qed.
Lemma holo_hex_checked : forallb (fun r => let c1 := V (m11 r) (m21 r) (m31 r) in let c2 := V (m12 r) (m22 r) (m32 r) in let c3 := V (m13 r) (m23 r) (m33 r) in
  if (hb c1 c1 =? 2)%Z then if (hb c2 c2 =? 2)%Z then if (hb c3 c3 =? 0)%Z then if (hb c1 c2 =? -1)%Z then if (hb c1 c3 =? 0)%Z then if (hb c2 c3 =? 0)%Z then
  if (vz c1 =? 0)%Z then if (vz c2 =? 0)%Z then (vz c3 * vz c3 =? 1)%Z else false else false else false else false else false else false else false else false) (holo_rots hP) = true.
Proof. vm_compute. reflexivity. Qed.
Lemma half_scale (A : R) (x y : Z) : 0 < A -> A / 2 * IZR x = A / 2 * IZR y -> x = y.
Proof. intros HA E. apply eq_IZR. apply (Rmult_eq_reg_l (A / 2)); lra. Qed.
Lemma hb_self v : hb v v = (2 * hqz (vx v) (vy v))%Z. Proof. unfold hb, hqz. ring. Qed.
Lemma hex_iso L A C : gram L = hexm A C -> 0 < A -> 0 < C -> forall r, In r (holo_rots hP) <-> lattice_isometry L r.
Proof.
  intros E HA HC r. rewrite isometry_gram, E. split.
  - intro H. pose proof (proj1 (forallb_forall _ _) holo_hex_checked r H) as Q. cbv beta zeta in Q. rewrite (zcols_of r) at 1. rewrite (hex_gram L A C _ _ _ E).
    set (c1 := V (m11 r) (m21 r) (m31 r)) in *. set (c2 := V (m12 r) (m22 r) (m32 r)) in *. set (c3 := V (m13 r) (m23 r) (m33 r)) in *. clearbody c1 c2 c3. clear H.
    repeat match type of Q with (if (?x =? ?y)%Z then _ else false) = true => let X := fresh "X" in destruct (x =? y)%Z eqn:X; [apply Z.eqb_eq in X|discriminate Q] end. apply Z.eqb_eq in Q.
    unfold hexg, hent, hexm. rewrite X, X0, X1, X2, X3, X4, X5, X6, Q. cbn [Z.mul]. apply (@mat_ext R); cbn [m11 m12 m13 m21 m22 m23 m31 m32 m33]; field.
  - intro H. rewrite (zcols_of r), (hex_gram L A C _ _ _ E) in H. rewrite (zcols_of r).
    set (c1 := V (m11 r) (m21 r) (m31 r)) in *. set (c2 := V (m12 r) (m22 r) (m32 r)) in *. set (c3 := V (m13 r) (m23 r) (m33 r)) in *. clearbody c1 c2 c3.
    unfold hexg, hexm, hent in H. injection H as E11 E12 E13 _ E22 E23 _ _ E33. rewrite !hb_self in *. rewrite !mult_IZR in *.
    destruct c1 as [x1 y1 z1], c2 as [x2 y2 z2], c3 as [x3 y3 z3]. cbn [vx vy vz] in *.
    pose proof (hqz_nn x1 y1) as P1. pose proof (hqz_nn x2 y2) as P2. pose proof (hqz_nn x3 y3) as P3.
    assert (R1 : 0 <= IZR (hqz x1 y1)) by (apply (IZR_le 0), P1). assert (R2 : 0 <= IZR (hqz x2 y2)) by (apply (IZR_le 0), P2). assert (R3 : 0 <= IZR (hqz x3 y3)) by (apply (IZR_le 0), P3).
    assert (SQ : forall z, z <> 0%Z -> 1 <= IZR z * IZR z) by (intros z Hz; rewrite <- mult_IZR; apply (IZR_le 1); nia). assert (NN : forall z, 0 <= IZR z * IZR z) by (intro z; apply Rle_0_sqr).
    assert (F33 : A * IZR (hqz x3 y3) + C * (IZR z3 * IZR z3) = C) by lra. assert (F11 : A * IZR (hqz x1 y1) + C * (IZR z1 * IZR z1) = A) by lra. assert (F22 : A * IZR (hqz x2 y2) + C * (IZR z2 * IZR z2) = A) by lra.
    destruct (Z.eq_dec z3 0) as [Z3|Z3].
    + exfalso. subst z3. replace (0 * 0) with 0 in * by ring. rewrite Rmult_0_r, Rplus_0_r in F33. rewrite !Rmult_0_r, ?Rplus_0_r in E13, E23.
      assert (Q3 : (1 <= hqz x3 y3)%Z). { destruct (Z.eq_dec (hqz x3 y3) 0) as [Q|Q]; [rewrite Q in F33; lra|lia]. }
      assert (Q3' : 1 <= IZR (hqz x3 y3)) by (apply (IZR_le 1), Q3). assert (AC : A <= C) by nra.
      assert (K : forall x y z, z <> 0%Z -> 0 <= IZR (hqz x y) -> A * IZR (hqz x y) + C * (IZR z * IZR z) = A -> x = 0%Z /\ y = 0%Z /\ C = A).
      { intros x y z Hz Hq F. specialize (SQ z Hz). assert (C * 1 <= C * (IZR z * IZR z)) by (apply Rmult_le_compat_l; lra). assert (A * IZR (hqz x y) = 0) by nra.
        assert (IZR (hqz x y) = 0) by nra. apply eq_IZR in H1. apply hqz_0 in H1. destruct H1. repeat split; auto; nra. }
      assert (DIS : z1 <> 0%Z \/ z2 <> 0%Z).
      { destruct (Z.eq_dec z1 0) as [->|]; [|now left]. destruct (Z.eq_dec z2 0) as [->|]; [|now right]. exfalso.
        assert (D3 : hb (V x1 y1 0)%Z (V x3 y3 0)%Z = 0%Z). { apply (half_scale A); [exact HA|]. rewrite E13. ring. }
        assert (D4 : hb (V x2 y2 0)%Z (V x3 y3 0)%Z = 0%Z). { apply (half_scale A); [exact HA|]. rewrite E23. ring. }
        assert (D1 : hqz x1 y1 = 1%Z). { apply eq_IZR. apply (Rmult_eq_reg_l A); lra. } assert (D5 : hqz x2 y2 = 1%Z). { apply eq_IZR. apply (Rmult_eq_reg_l A); lra. }
        assert (D6 : hb (V x1 y1 0)%Z (V x2 y2 0)%Z = (-1)%Z). { apply (half_scale A); [exact HA|]. lra. }
        pose proof (six_in _ _ D1) as S1. pose proof (six_in _ _ D5) as S2. unfold hb in D3, D4, D6. cbn [vx vy vz] in D3, D4, D6. clear - S1 S2 D3 D4 D6 Q3.
        assert (x3 = 0%Z /\ y3 = 0%Z) as [-> ->]; [|discriminate (proj2 (Z.compare_le_iff _ _) Q3) || (unfold hqz in Q3; lia)].
        unfold six in S1, S2. cbn [In] in S1, S2.
        repeat (destruct S1 as [S1|S1]; [injection S1 as <- <-; repeat (destruct S2 as [S2|S2]; [injection S2 as <- <-; lia|]); destruct S2|]). destruct S1. }
      destruct DIS as [N1|N2].
      * destruct (K x1 y1 z1 N1 R1 F11) as (-> & -> & ->). unfold hb in E12. cbn [vx vy vz] in E12. replace (2 * 0 * x2 + 2 * 0 * y2 - 0 * y2 - 0 * x2)%Z with 0%Z in E12 by ring.
        assert (X : 2 * (IZR z1 * IZR z2) = -1) by nra. rewrite <- mult_IZR in X. assert (Y : IZR (2 * (z1 * z2)) = IZR (-1)) by (rewrite mult_IZR; exact X). apply eq_IZR in Y. lia.
      * destruct (K x2 y2 z2 N2 R2 F22) as (-> & -> & ->). unfold hb in E12. cbn [vx vy vz] in E12. replace (2 * x1 * 0 + 2 * y1 * 0 - x1 * 0 - y1 * 0)%Z with 0%Z in E12 by ring.
        assert (X : 2 * (IZR z1 * IZR z2) = -1) by nra. rewrite <- mult_IZR in X. assert (Y : IZR (2 * (z1 * z2)) = IZR (-1)) by (rewrite mult_IZR; exact X). apply eq_IZR in Y. lia.
    + pose proof (SQ z3 Z3) as B3. assert (X0 : A * IZR (hqz x3 y3) = 0) by nra. assert (X1 : IZR (hqz x3 y3) = 0) by nra. apply eq_IZR in X1. pose proof X1 as X1'. apply hqz_0 in X1'. destruct X1' as [-> ->].
      assert (U3 : IZR z3 * IZR z3 = 1) by nra. assert (V3 : (z3 * z3 = 1)%Z) by (apply eq_IZR; rewrite mult_IZR; exact U3).
      unfold hb in E13, E23. cbn [vx vy vz] in E13, E23. replace (2 * x1 * 0 + 2 * y1 * 0 - x1 * 0 - y1 * 0)%Z with 0%Z in E13 by ring. replace (2 * x2 * 0 + 2 * y2 * 0 - x2 * 0 - y2 * 0)%Z with 0%Z in E23 by ring.
      rewrite Rmult_0_r, Rplus_0_l in E13, E23.
      assert (W1 : z1 = 0%Z). { assert (Y : IZR z1 * IZR z3 = 0) by nra. rewrite <- mult_IZR in Y. apply (eq_IZR _ 0) in Y. nia. }
      assert (W2 : z2 = 0%Z). { assert (Y : IZR z2 * IZR z3 = 0) by nra. rewrite <- mult_IZR in Y. apply (eq_IZR _ 0) in Y. nia. }
      subst z1 z2. assert (D1 : hqz x1 y1 = 1%Z). { apply eq_IZR. apply (Rmult_eq_reg_l A); lra. } assert (D5 : hqz x2 y2 = 1%Z). { apply eq_IZR. apply (Rmult_eq_reg_l A); lra. }
      assert (D6 : hb (V x1 y1 0)%Z (V x2 y2 0)%Z = (-1)%Z). { apply (half_scale A); [exact HA|]. lra. }
      pose proof (proj1 (forallb_forall _ _) hex_tested _ (six_in _ _ D1)) as T. cbv beta zeta in T. pose proof (proj1 (forallb_forall _ _) T _ (six_in _ _ D5)) as T2. cbv beta zeta in T2.
      assert (I3 : In z3 [1; -1]%Z) by (assert (z3 = 1 \/ z3 = -1)%Z as [-> | ->] by nia; cbn; tauto).
      pose proof (proj1 (forallb_forall _ _) T2 _ I3) as T3. cbv beta in T3. rewrite D6 in T3. apply mem_rot_In. exact T3.
Qed.
