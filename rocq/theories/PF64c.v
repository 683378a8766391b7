(** The closure of a tabulated list of operations in binary64; the comparisons of utils.rs *)
From Coq Require Import ZArith Reals String Ascii List Bool Lia Lra Psatz Permutation.
From Flocq Require Import Core IEEE754.BinarySingleNaN.
From Verif Require Import Num Mat Utils SymmOp SpaceGroup DataSG Analyzer FInst RInst Spec Spec2 Spec7 RFacts PFloat PUtils PSymmOp PSpaceGroup PSpaceGroup2 PAnalyzer2 PCode PTables PIdentify PSearch6 PF64 PF64b.
Import ListNotations.
Open Scope R_scope.

Section F.
  Context {L : Libm}.
  Local Notation fop := (@symmop FNum).
  Lemma fdiff_back16 x y t : fin x -> fin y -> fin t -> Rabs (B2R x) <= 2 -> Rabs (B2R y) <= 16 -> B2R t <= 1 / 4 -> near1 (B2R t - margin) (B2R x) (B2R y) -> fdiff_within x y t = true.
  Proof.
    intros Fx Fy Ft Bx By Ht (z & Hz). unfold fdiff_within. cbn [flt fabs fsub FNum]. unfold margin in *.
    assert (S : Rabs (B2R x - B2R y) <= pw 5) by (change (pw 5) with 32; apply Rabs_le_inv in Bx, By; apply Rabs_le; lra).
    destruct (sub_ok x y 5 ltac:(lia) Fx Fy S) as (Fd & Ed). pose proof (RN_err _ 5 ltac:(lia) S) as Q. rewrite <- Ed in Q. set (d := Bminus mode_NE x y) in *. change (5 - 53)%Z with (-48)%Z in Q.
    pose proof pw48. assert (P52 : pw (-52) <= pw (-48)) by (apply bpow_le; lia). pose proof (bpow_gt_0 radix2 (-52)). pose proof (Rabs_pos (B2R x - B2R y - IZR z)).
    assert (N : Rabs (B2R (@normalize1 FNum d t)) < B2R t).
    { apply (normalize1_F_small d t z Fd Ft Ht). apply Rabs_def2 in Hz. apply Rabs_le_inv in Q. apply Rabs_def1; lra. }
    destruct (normalize1_F_range d t Fd Ft ltac:(lra)) as (Fn & _).
    rewrite Bltb_correct by (try rewrite is_finite_Babs; assumption). rewrite B2R_Babs. apply Rlt_bool_true. exact N.
  Qed.
  Lemma group_entries ls order n codes sym c : In (ls, order, n, codes) sg_entries -> In c (group_ops sym codes) -> entries_within (-1) 1 (fst c).
  Proof.
    intros HI Hc. apply in_map_iff in Hc. destruct Hc as (code & <- & Hcode). apply sg_entries_In in HI. destruct HI as (bk & g & H1 & H2 & H3).
    pose proof (codes_range _ _ _ _ _ _ _ H1 H2 H3 Hcode) as R. pose proof (code_entries code ltac:(lia)) as Q. unfold code_op. destruct (has_char "A"%char sym); cbn [fst]; [|exact Q].
    unfold entries_within, cycled_mat in *. cbn [m11 m12 m13 m21 m22 m23 m31 m32 m33]. tauto.
  Qed.
  Lemma fold_unchanged_F tols (ops gen : list fop) pairs :
    (forall p, In p pairs -> exists s, In s ops /\ @is_approx_eq FNum s (@op_mul FNum (fst p) (snd p)) tols = true) ->
    fold_left (@sg_pair_step FNum tols) pairs (ops, gen) = (ops, gen).
  Proof.
    induction pairs as [|p pairs IH]; intro Hp; [reflexivity|]. cbn [fold_left]. unfold sg_pair_step at 2.
    replace (existsb _ ops) with true; [apply IH; intros q Hq; apply Hp; now right|]. symmetry. apply existsb_exists. destruct (Hp p (or_introl eq_refl)) as (s & H1 & H2). eauto.
  Qed.
  (** a row with entries -1, 0, 1 magnifies errors at most three times *)
  Lemma row_err (a b c : Z) x y z n1 n2 n3 k1 k2 k3 eta : (-1 <= a <= 1)%Z -> (-1 <= b <= 1)%Z -> (-1 <= c <= 1)%Z ->
    Rabs (x - k1 - n1) < eta -> Rabs (y - k2 - n2) < eta -> Rabs (z - k3 - n3) < eta ->
    Rabs (IZR a * x + IZR b * y + IZR c * z - (IZR a * (k1 + n1) + IZR b * (k2 + n2) + IZR c * (k3 + n3))) <= 3 * eta.
  Proof.
    intros Ha Hb Hc X Y W. replace (_ - _) with (IZR a * (x - k1 - n1) + IZR b * (y - k2 - n2) + IZR c * (z - k3 - n3)) by ring.
    assert (Q : forall (u : Z) w, (-1 <= u <= 1)%Z -> Rabs w < eta -> Rabs (IZR u * w) <= eta).
    { intros u w Hu Hw. rewrite Rabs_mult. assert (Rabs (IZR u) <= 1) by (rewrite <- abs_IZR; apply IZR_le; lia). pose proof (Rabs_pos w). pose proof (Rabs_pos (IZR u)). nra. }
    pose proof (Q a _ Ha X). pose proof (Q b _ Hb Y). pose proof (Q c _ Hc W). pose proof (Rabs_triang (IZR a * (x - k1 - n1) + IZR b * (y - k2 - n2)) (IZR c * (z - k3 - n3))). pose proof (Rabs_triang (IZR a * (x - k1 - n1)) (IZR b * (y - k2 - n2))). lra.
  Qed.
  Lemma comp_err (a b c u1 u2 u3 v w q k1 k2 k3 kb ks : Z) (x y z tb s p t e eta : R) :
    Rabs (IZR a * x + IZR b * y + IZR c * z - (IZR a * (IZR k1 / 12 + IZR u1) + IZR b * (IZR k2 / 12 + IZR u2) + IZR c * (IZR k3 / 12 + IZR u3))) <= 3 * eta ->
    Rabs (p - (IZR a * x + IZR b * y + IZR c * z + tb)) <= 2 * e -> e <= 4 / 1000000000000000 -> Rabs (tb - IZR kb / 12 - IZR v) < eta -> Rabs (s - IZR ks / 12 - IZR w) < eta ->
    (ks = a * k1 + b * k2 + c * k3 + kb + 12 * q)%Z -> 5 * eta + 2 * margin <= t -> near1 (t - margin) s p.
  Proof.
    intros D P E B S K T. unfold margin in *. apply (f_equal IZR) in K. rewrite !plus_IZR, !mult_IZR in K.
    exists (w + q - v - (a * u1 + b * u2 + c * u3))%Z. rewrite !minus_IZR, !plus_IZR, !mult_IZR. apply Rabs_le_inv in D, P. apply Rabs_def2 in B, S. apply Rabs_def1; lra.
  Qed.
  Lemma if4 (p q r s : bool) : p = true -> q = true -> r = true -> s = true -> (if p then if q then if r then s else false else false else false) = true.
  Proof. intros -> -> -> ->. reflexivity. Qed.
  Lemma approx_intro (a b : fop) t : zmat_eqb (rotation a) (rotation b) = true -> fdiff_within (vx (translation a)) (vx (translation b)) (vx t) = true ->
    fdiff_within (vy (translation a)) (vy (translation b)) (vy t) = true -> fdiff_within (vz (translation a)) (vz (translation b)) (vz t) = true -> @is_approx_eq FNum a b t = true.
  Proof. intros H1 H2 H3 H4. rewrite is_approx_eq_F. exact (if4 _ _ _ _ H1 H2 H3 H4). Qed.
  Lemma mod12 x y : ((x - y) mod 12 = 0)%Z -> exists q, (x = y + 12 * q)%Z.
  Proof. intro H. exists ((x - y) / 12)%Z. pose proof (Z_div_mod_eq_full (x - y) 12). lia. Qed.
  Lemma closed_F eta tols (l : list (mat Z * vec Z)) (ops : list fop) fuel : tolF tols -> zclosed l = true -> (forall c, In c l -> entries_within (-1) 1 (fst c)) ->
    5 * eta + 2 * margin <= B2R (vx tols) -> 5 * eta + 2 * margin <= B2R (vy tols) -> 5 * eta + 2 * margin <= B2R (vz tols) ->
    (forall o, In o ops -> ok2 o /\ exists c, In c l /\ rotation o = fst c /\ near3 (V eta eta eta) (real3 (translation o)) (in_twelfths (snd c))) ->
    (forall c, In c l -> exists o, In o ops /\ rotation o = fst c /\ near3 (V eta eta eta) (real3 (translation o)) (in_twelfths (snd c))) ->
    @from_generators FNum (S fuel) ops tols = Ok ops.
  Proof.
    intros TT ZC EN H1 H2 H3 HO HL. unfold from_generators. destruct ops as [|x ops']; [reflexivity|]. set (ops := x :: ops') in *. cbn [sg_rounds].
    rewrite (fold_unchanged_F tols); [destruct fuel; reflexivity|]. intros [a b] Hp. apply In_iproduct in Hp. destruct Hp as [Ia Ib]. cbn [fst snd].
    destruct (HO a Ia) as ((FA & BA) & ca & Hca & Ra & Na). destruct (HO b Ib) as ((FB & BB) & cb & Hcb & Rb & Nb).
    unfold zclosed in ZC. rewrite forallb_forall in ZC. specialize (ZC ca Hca). rewrite forallb_forall in ZC. specialize (ZC cb Hcb). cbv zeta in ZC. rewrite ex_if_existsb in ZC. apply existsb_exists in ZC. destruct ZC as (cs & Hcs & E).
    destruct (HL cs Hcs) as (s & Is & Rs & Ns). exists s. split; [exact Is|]. rewrite zop_eq_and in E. unfold eq12 in E. rewrite !andb_true_iff, zmat_eqb_spec, !Z.eqb_eq in E. destruct E as (ER & (E1 & E2) & E3).
    destruct (HO s Is) as (((FS1 & FS2 & FS3) & (BS1 & BS2 & BS3)) & _).
    pose proof (EN cb Hcb) as EB. assert (SI : small_ints 0 (rotation b)) by (rewrite Rb; exact EB).
    destruct (op_apply_ok b (translation a) 0 1 ltac:(lia) ltac:(lia) SI FB FA BB BA) as (P1 & P2 & P3). rewrite <- op_mul_apply in P1, P2, P3. set (p := @op_mul FNum a b) in *.
    assert (RP : rotation p = i8_mmul (fst ca) (fst cb)) by (unfold p, op_mul; cbn [rotation]; now rewrite Ra, Rb).
    unfold zop_mul in ER, E1, E2, E3. cbn [fst snd] in ER, E1, E2, E3. apply mod12 in E1, E2, E3. destruct E1 as (q1 & E1), E2 as (q2 & E2), E3 as (q3 & E3).
    rewrite Rb in P3. change (0 + 1 - 48)%Z with (-48 + 1)%Z in P3. rewrite pw_S in P3. pose proof pw48 as P48. clearbody p. clear SI.
    destruct TT as ((FT1 & FT2 & FT3) & BT1 & BT2 & BT3). destruct P1 as (FP1 & FP2 & FP3), P2 as (BP1 & BP2 & BP3). change (pw (0 + 1 + 3)) with 16 in BP1, BP2, BP3.
    destruct Na as ((u1 & Na1) & (u2 & Na2) & (u3 & Na3)), Nb as ((v1 & Nb1) & (v2 & Nb2) & (v3 & Nb3)), Ns as ((w1 & Ns1) & (w2 & Ns2) & (w3 & Ns3)).
    destruct P3 as (P31 & P32 & P33). destruct ca as [ra ta], cb as [rb tb], cs as [rs ts]. cbn [fst snd] in *.
    destruct EB as (K1 & K2 & K3 & K4 & K5 & K6 & K7 & K8 & K9).
    cbn [in_twelfths Vadd Mapp MofZ mmap vx vy vz m11 m12 m13 m21 m22 m23 m31 m32 m33 ZMapp ZVadd] in *.
    pose proof (row_err _ _ _ _ _ _ _ _ _ _ _ _ _ K1 K2 K3 Na1 Na2 Na3) as D1. pose proof (row_err _ _ _ _ _ _ _ _ _ _ _ _ _ K4 K5 K6 Na1 Na2 Na3) as D2. pose proof (row_err _ _ _ _ _ _ _ _ _ _ _ _ _ K7 K8 K9 Na1 Na2 Na3) as D3.
    assert (ZE : zmat_eqb (rotation s) (rotation p) = true) by (apply zmat_eqb_spec; congruence).
    pose proof (comp_err _ _ _ _ _ _ _ _ q1 _ _ _ _ _ _ _ _ _ _ _ _ _ _ D1 P31 P48 Nb1 Ns1 E1 H1) as N1.
    pose proof (comp_err _ _ _ _ _ _ _ _ q2 _ _ _ _ _ _ _ _ _ _ _ _ _ _ D2 P32 P48 Nb2 Ns2 E2 H2) as N2.
    pose proof (comp_err _ _ _ _ _ _ _ _ q3 _ _ _ _ _ _ _ _ _ _ _ _ _ _ D3 P33 P48 Nb3 Ns3 E3 H3) as N3.
    exact (approx_intro s p tols ZE (fdiff_back16 _ _ _ FS1 FP1 FT1 BS1 BP1 (proj2 BT1) N1) (fdiff_back16 _ _ _ FS2 FP2 FT2 BS2 BP2 (proj2 BT2) N2) (fdiff_back16 _ _ _ FS3 FP3 FT3 BS3 BP3 (proj2 BT3) N3)).
  Qed.

  (** ** cust_eq and approx_equal *)
  Lemma cust_eq_F (a b eps : f64) : fin a -> fin b -> fin eps -> Rabs (B2R b - B2R eps) <= pw 1000 -> Rabs (B2R a - B2R eps) <= pw 1000 ->
    (@cust_eq FNum a b eps = true <-> RN (B2R b - B2R eps) <= B2R a /\ RN (B2R a - B2R eps) <= B2R b).
  Proof.
    intros Fa Fb Fe S1 S2. unfold cust_eq. cbn [flt fsub FNum]. destruct (sub_ok b eps 1000 ltac:(lia) Fb Fe S1) as (F1 & E1). destruct (sub_ok a eps 1000 ltac:(lia) Fa Fe S2) as (F2 & E2).
    rewrite !Bltb_correct, E1, E2 by assumption. rewrite negb_true_iff, orb_false_iff.
    destruct (Rlt_bool_spec (B2R a) (RN (B2R b - B2R eps))), (Rlt_bool_spec (B2R b) (RN (B2R a - B2R eps))); split; intros [? ?]; try discriminate; try lra; split; auto; lra.
  Qed.
  Lemma approx_equal_F (a b tol : f64) : fin a -> fin b -> fin tol -> Rabs (B2R a - B2R b) <= pw 1000 ->
    (@approx_equal FNum a b tol = true <-> Rabs (RN (B2R a - B2R b)) < B2R tol).
  Proof.
    intros Fa Fb Ft S. unfold approx_equal. cbn [flt fsub fabs FNum]. destruct (sub_ok a b 1000 ltac:(lia) Fa Fb S) as (F1 & E1).
    rewrite Bltb_correct by (try rewrite is_finite_Babs; assumption). rewrite B2R_Babs, E1. destruct (Rlt_bool_spec (Rabs (RN (B2R a - B2R b))) (B2R tol)); split; intro; try discriminate; try reflexivity; lra.
  Qed.
  Lemma RN_abs x : Rabs (RN x) = RN (Rabs x). Proof. symmetry. apply round_NE_abs. typeclasses eauto. Qed.
End F.
