(** Rounding errors of the small vector operations in IEEE binary64 *)
From Coq Require Import ZArith Reals List Bool Lia Lra Psatz.
From Flocq Require Import Core IEEE754.BinarySingleNaN.
From Verif Require Import Num Mat Utils SymmOp FInst Spec RFacts PFloat.
Import ListNotations.
Open Scope R_scope.

Notation pw := (bpow radix2).
(** half a unit in the last place *)
Lemma RN_err x k : (-1000 <= k)%Z -> Rabs x <= pw k -> Rabs (RN x - x) <= pw (k - 53).
Proof.
  intros Hk Hx. apply (Rle_trans _ (/ 2 * ulp radix2 fexp64 x)); [apply error_le_half_ulp; typeclasses eauto|].
  apply (Rle_trans _ (/ 2 * ulp radix2 fexp64 (pw k))).
  - apply Rmult_le_compat_l; [lra|]. rewrite <- (ulp_abs _ _ x). apply ulp_le_pos; [typeclasses eauto|apply (fexp_monotone 53 1024)|apply Rabs_pos|exact Hx].
  - rewrite ulp_bpow. replace (fexp64 (k + 1)) with (k - 53 + 1)%Z by (unfold SpecFloat.fexp, SpecFloat.emin; lia). rewrite bpow_plus. change (pw 1) with 2. lra.
Qed.
Lemma fmt_pw k : (-1000 <= k)%Z -> generic_format radix2 fexp64 (pw k).
Proof. intro H. apply generic_format_bpow. unfold SpecFloat.fexp, SpecFloat.emin. lia. Qed.
Lemma RN_pw x k : (-1000 <= k)%Z -> Rabs x <= pw k -> Rabs (RN x) <= pw k.
Proof.
  intros Hk Hx. apply Rabs_le_inv in Hx. apply Rabs_le. pose proof (RN_le x (pw k) ltac:(lra)) as A. pose proof (RN_le (- pw k) x ltac:(lra)) as B.
  rewrite (RN_fmt (pw k)) in A by now apply fmt_pw. rewrite (RN_fmt (- pw k)) in B by now apply generic_format_opp, fmt_pw. lra.
Qed.
Lemma RN_fits x k : (-1000 <= k <= 1000)%Z -> Rabs x <= pw k -> Rlt_bool (Rabs (RN x)) (pw 1024) = true.
Proof. intros Hk Hx. apply Rlt_bool_true. apply (Rle_lt_trans _ (pw k)); [apply RN_pw; [lia|exact Hx]|apply bpow_lt; lia]. Qed.

(** [x] is a finite number with value [r] up to [e], at most [2^k] in magnitude *)
Definition fin (x : f64) : Prop := is_finite x = true.
Lemma add_ok (x y : f64) k : (-1000 <= k <= 1000)%Z -> fin x -> fin y -> Rabs (B2R x + B2R y) <= pw k ->
  fin (Bplus mode_NE x y) /\ B2R (Bplus mode_NE x y) = RN (B2R x + B2R y).
Proof. intros Hk Fx Fy H. pose proof (Bplus_correct 53 1024 Hprec Hmax mode_NE x y Fx Fy) as C. rewrite (RN_fits _ k Hk H) in C. unfold fin. tauto. Qed.
Lemma sub_ok (x y : f64) k : (-1000 <= k <= 1000)%Z -> fin x -> fin y -> Rabs (B2R x - B2R y) <= pw k ->
  fin (Bminus mode_NE x y) /\ B2R (Bminus mode_NE x y) = RN (B2R x - B2R y).
Proof. intros Hk Fx Fy H. pose proof (Bminus_correct 53 1024 Hprec Hmax mode_NE x y Fx Fy) as C. rewrite (RN_fits _ k Hk H) in C. unfold fin. tauto. Qed.
Lemma mul_ok (x y : f64) k : (-1000 <= k <= 1000)%Z -> fin x -> fin y -> Rabs (B2R x * B2R y) <= pw k ->
  fin (Bmult mode_NE x y) /\ B2R (Bmult mode_NE x y) = RN (B2R x * B2R y).
Proof. intros Hk Fx Fy H. pose proof (Bmult_correct 53 1024 Hprec Hmax mode_NE x y) as C. rewrite (RN_fits _ k Hk H) in C. destruct C as (C1 & C2 & _). unfold fin in *. rewrite C2, Fx, Fy. auto. Qed.
Lemma div_ok (x y : f64) k : (-1000 <= k <= 1000)%Z -> fin x -> B2R y <> 0 -> Rabs (B2R x / B2R y) <= pw k ->
  fin (Bdiv mode_NE x y) /\ B2R (Bdiv mode_NE x y) = RN (B2R x / B2R y).
Proof. intros Hk Fx Ny H. pose proof (Bdiv_correct 53 1024 Hprec Hmax mode_NE x y Ny) as C. rewrite (RN_fits _ k Hk H) in C. destruct C as (C1 & C2 & _). unfold fin in *. rewrite C2, Fx. auto. Qed.

Lemma pw_mul a b : pw a * pw b = pw (a + b). Proof. symmetry. apply bpow_plus. Qed.
Lemma pw_S k : pw (k + 1) = 2 * pw k. Proof. rewrite bpow_plus. change (pw 1) with 2. ring. Qed.
Lemma Rabs_mul_le a b x y : Rabs x <= a -> Rabs y <= b -> Rabs (x * y) <= a * b.
Proof. intros A B. rewrite Rabs_mult. apply Rmult_le_compat; auto using Rabs_pos. Qed.

(** a row of a matrix times a vector *)
Lemma dot_ok {L : Libm} (a b c x y z : f64) j e : (0 <= j <= 100)%Z -> (-200 <= e <= 100)%Z ->
  fin a -> fin b -> fin c -> fin x -> fin y -> fin z -> Rabs (B2R a) <= pw j -> Rabs (B2R b) <= pw j -> Rabs (B2R c) <= pw j -> Rabs (B2R x) <= pw e -> Rabs (B2R y) <= pw e -> Rabs (B2R z) <= pw e ->
  let r := @fadd FNum (@fadd FNum (@fmul FNum a x) (@fmul FNum b y)) (@fmul FNum c z) in
  fin r /\ Rabs (B2R r) <= pw (j + e + 2) /\ Rabs (B2R r - (B2R a * B2R x + B2R b * B2R y + B2R c * B2R z)) <= pw (j + e - 49).
Proof.
  intros Hj He Fa Fb Fc Fx Fy Fz Ba Bb Bc Bx By Bz. cbn [fadd fmul FNum]. set (k := (j + e)%Z) in *.
  pose proof (Rabs_mul_le _ _ _ _ Ba Bx) as P1. pose proof (Rabs_mul_le _ _ _ _ Bb By) as P2. pose proof (Rabs_mul_le _ _ _ _ Bc Bz) as P3. rewrite pw_mul in P1, P2, P3. fold k in P1, P2, P3.
  assert (Hk : (-200 <= k <= 200)%Z) by lia.
  destruct (mul_ok a x k ltac:(lia) Fa Fx P1) as (F1 & E1). destruct (mul_ok b y k ltac:(lia) Fb Fy P2) as (F2 & E2). destruct (mul_ok c z k ltac:(lia) Fc Fz P3) as (F3 & E3).
  pose proof (RN_err _ k ltac:(lia) P1) as R1. pose proof (RN_err _ k ltac:(lia) P2) as R2. pose proof (RN_err _ k ltac:(lia) P3) as R3.
  pose proof (RN_pw _ k ltac:(lia) P1) as Q1. pose proof (RN_pw _ k ltac:(lia) P2) as Q2. pose proof (RN_pw _ k ltac:(lia) P3) as Q3. rewrite <- E1 in R1, Q1. rewrite <- E2 in R2, Q2. rewrite <- E3 in R3, Q3.
  set (p := Bmult mode_NE a x) in *. set (q := Bmult mode_NE b y) in *. set (w := Bmult mode_NE c z) in *.
  assert (S1 : Rabs (B2R p + B2R q) <= pw (k + 1)) by (apply (Rle_trans _ _ _ (Rabs_triang _ _)); rewrite pw_S; lra).
  destruct (add_ok p q (k + 1) ltac:(lia) F1 F2 S1) as (F4 & E4). pose proof (RN_err _ (k + 1) ltac:(lia) S1) as R4. pose proof (RN_pw _ (k + 1) ltac:(lia) S1) as Q4. rewrite <- E4 in R4, Q4. set (s := Bplus mode_NE p q) in *.
  assert (S2 : Rabs (B2R s + B2R w) <= pw (k + 2)).
  { apply (Rle_trans _ _ _ (Rabs_triang _ _)). replace (k + 2)%Z with (k + 1 + 1)%Z by lia. rewrite (pw_S (k + 1)). pose proof (pw_S k). pose proof (bpow_gt_0 radix2 k). lra. }
  destruct (add_ok s w (k + 2) ltac:(lia) F4 F3 S2) as (F5 & E5). pose proof (RN_err _ (k + 2) ltac:(lia) S2) as R5. pose proof (RN_pw _ (k + 2) ltac:(lia) S2) as Q5. rewrite <- E5 in R5, Q5. set (r := Bplus mode_NE s w) in *.
  split; [exact F5|]. split; [exact Q5|].
  replace (k + 1 - 53)%Z with (k - 53 + 1)%Z in R4 by lia. replace (k + 2 - 53)%Z with (k - 53 + 1 + 1)%Z in R5 by lia. replace (k - 49)%Z with (k - 53 + 1 + 1 + 1 + 1)%Z by lia. rewrite !pw_S in *. pose proof (bpow_gt_0 radix2 (k - 53)) as PP.
  apply Rabs_le_inv in R1, R2, R3, R4, R5. apply Rabs_le. lra.
Qed.

(** ** [normalize1] *)
Lemma normalize1_F_near {L : Libm} (x t : f64) : fin x -> fin t -> 0 <= B2R t <= 1 ->
  exists z : Z, Rabs (B2R (@normalize1 FNum x t) - (B2R x - IZR z)) <= pw (-53).
Proof.
  intros Fx Ft Ht. rewrite normalize1_F_unfold. destruct (F_rem1_correct x Fx) as (Fy & Ey & _). pose proof (F_rem1_bound x Fx) as By. set (y := F_rem1 x) in *. pose proof (bpow_gt_0 radix2 (-53)) as PP.
  destruct (Bneg1_mul t Ft) as [En Fn]; [apply Rabs_le; lra|]. destruct (upper_correct t Ft Ht) as (Fu & Eu & Bu). fold (upper t).
  rewrite Bltb_correct, En by auto. destruct (Rlt_bool_spec (B2R y) (- B2R t)) as [H1|H1].
  - assert (S : Rabs (B2R y + B2R F1) <= pw 0) by (rewrite B2R_F1; change (pw 0) with 1; apply Rabs_le; lra). destruct (add_ok y F1 0 ltac:(lia) Fy fin_F1 S) as (_ & E). pose proof (RN_err _ 0 ltac:(lia) S) as Q.
    exists (Ztrunc (B2R x) - 1)%Z. rewrite E. replace (B2R x - IZR (Ztrunc (B2R x) - 1)) with (B2R y + B2R F1) by (rewrite Ey, B2R_F1, minus_IZR; ring). exact Q.
  - rewrite Bltb_correct by auto. destruct (Rlt_bool_spec (B2R (upper t)) (B2R y)) as [H2|H2].
    + assert (S : Rabs (B2R y - B2R F1) <= pw 0) by (rewrite B2R_F1; change (pw 0) with 1; apply Rabs_le; lra). destruct (sub_ok y F1 0 ltac:(lia) Fy fin_F1 S) as (_ & E). pose proof (RN_err _ 0 ltac:(lia) S) as Q.
      exists (Ztrunc (B2R x) + 1)%Z. rewrite E. replace (B2R x - IZR (Ztrunc (B2R x) + 1)) with (B2R y - B2R F1) by (rewrite Ey, B2R_F1, plus_IZR; ring). exact Q.
    + exists (Ztrunc (B2R x)). rewrite <- Ey. replace (B2R y - B2R y) with 0 by ring. rewrite Rabs_R0. lra.
Qed.
(** a number within [t - 2^-52] of an integer is reduced to less than [t] *)
Lemma normalize1_F_small {L : Libm} (x t : f64) (z : Z) : fin x -> fin t -> B2R t <= 1 / 4 -> Rabs (B2R x - IZR z) < B2R t - pw (-52) -> Rabs (B2R (@normalize1 FNum x t)) < B2R t.
Proof.
  intros Fx Ft Ht Hz. pose proof (bpow_gt_0 radix2 (-53)) as PP. assert (P2 : pw (-52) = 2 * pw (-53)) by (change (-52)%Z with (-53 + 1)%Z; apply pw_S).
  assert (T0 : 0 < B2R t) by (pose proof (Rabs_pos (B2R x - IZR z)); lra).
  rewrite normalize1_F_unfold. destruct (F_rem1_correct x Fx) as (Fy & Ey & _). pose proof (F_rem1_bound x Fx) as By. set (y := F_rem1 x) in *.
  destruct (Bneg1_mul t Ft) as [En Fn]; [apply Rabs_le; lra|]. destruct (upper_correct t Ft ltac:(lra)) as (Fu & Eu & Bu). fold (upper t).
  assert (UE : Rabs (B2R (upper t) - (1 - B2R t)) <= pw (-53)) by (rewrite Eu; apply (RN_err _ 0 ltac:(lia)); change (pw 0) with 1; apply Rabs_le; lra).
  set (w := (z - Ztrunc (B2R x))%Z). assert (Hw : Rabs (B2R y - IZR w) < B2R t - pw (-52)) by (unfold w; rewrite Ey, minus_IZR; replace (B2R x - IZR (Ztrunc (B2R x)) - (IZR z - IZR (Ztrunc (B2R x)))) with (B2R x - IZR z) by ring; exact Hz).
  clearbody w. clear Hz Ey. apply Rabs_def2 in Hw. apply Rabs_le_inv in UE.
  assert (W : (-2 < w < 2)%Z) by (split; apply lt_IZR; lra). assert (w = -1 \/ w = 0 \/ w = 1)%Z as [-> | [-> | ->]] by lia.
  - rewrite Bltb_correct, En by auto. rewrite Rlt_bool_true by lra.
    assert (S : Rabs (B2R y + B2R F1) <= pw 0) by (rewrite B2R_F1; change (pw 0) with 1; apply Rabs_le; lra). destruct (add_ok y F1 0 ltac:(lia) Fy fin_F1 S) as (_ & E). pose proof (RN_err _ 0 ltac:(lia) S) as Q. change (0 - 53)%Z with (-53)%Z in Q.
    rewrite E. rewrite B2R_F1 in *. apply Rabs_le_inv in Q. apply Rabs_def1; lra.
  - rewrite Bltb_correct, En by auto. rewrite Rlt_bool_false by lra. rewrite Bltb_correct by auto. rewrite Rlt_bool_false by lra. apply Rabs_def1; lra.
  - rewrite Bltb_correct, En by auto. rewrite Rlt_bool_false by lra. rewrite Bltb_correct by auto. rewrite Rlt_bool_true by lra.
    assert (S : Rabs (B2R y - B2R F1) <= pw 0) by (rewrite B2R_F1; change (pw 0) with 1; apply Rabs_le; lra). destruct (sub_ok y F1 0 ltac:(lia) Fy fin_F1 S) as (_ & E). pose proof (RN_err _ 0 ltac:(lia) S) as Q. change (0 - 53)%Z with (-53)%Z in Q.
    rewrite E. rewrite B2R_F1 in *. apply Rabs_le_inv in Q. apply Rabs_def1; lra.
Qed.

(** ** One component of [is_approx_eq] *)
Lemma pw50 : pw (-50) < 1 / 1000000000000000. Proof. unfold pw, bpow. cbn -[Rdiv]. lra. Qed.
Definition fdiff_within {L : Libm} (x y t : f64) : bool := @flt FNum (@fabs FNum (@normalize1 FNum (@fsub FNum x y) t)) t.
Lemma fdiff_true {L : Libm} x y t : fin x -> fin y -> fin t -> Rabs (B2R x) <= 2 -> Rabs (B2R y) <= 2 -> 0 <= B2R t <= 1 -> fdiff_within x y t = true -> near1 (B2R t + 1 / 1000000000000000) (B2R x) (B2R y).
Proof.
  intros Fx Fy Ft Bx By Ht H. unfold fdiff_within in H. cbn [flt fabs fsub FNum] in H.
  assert (S : Rabs (B2R x - B2R y) <= pw 2) by (change (pw 2) with 4; apply Rabs_le_inv in Bx, By; apply Rabs_le; lra).
  destruct (sub_ok x y 2 ltac:(lia) Fx Fy S) as (Fd & Ed). pose proof (RN_err _ 2 ltac:(lia) S) as Q. rewrite <- Ed in Q. set (d := Bminus mode_NE x y) in *.
  destruct (normalize1_F_near d t Fd Ft Ht) as (z & Hz). destruct (normalize1_F_range d t Fd Ft Ht) as (Fn & _). set (n := @normalize1 FNum d t) in *.
  rewrite Bltb_correct in H by (try rewrite is_finite_Babs; assumption). rewrite B2R_Babs in H. destruct (Rlt_bool_spec (Rabs (B2R n)) (B2R t)) as [H1|]; [|discriminate].
  exists z. pose proof pw50. assert (P3 : pw (-50) = 8 * pw (-53)) by (change (-50)%Z with (-53 + 1 + 1 + 1)%Z; rewrite !pw_S; ring). change (2 - 53)%Z with (-53 + 1 + 1)%Z in Q. rewrite !pw_S in Q.
  pose proof (bpow_gt_0 radix2 (-53)). apply Rabs_def2 in H1. apply Rabs_le_inv in Q, Hz. apply Rabs_def1; lra.
Qed.
Lemma fdiff_back {L : Libm} x y t : fin x -> fin y -> fin t -> Rabs (B2R x) <= 2 -> Rabs (B2R y) <= 2 -> B2R t <= 1 / 4 -> near1 (B2R t - 1 / 1000000000000000) (B2R x) (B2R y) -> fdiff_within x y t = true.
Proof.
  intros Fx Fy Ft Bx By Ht (z & Hz). unfold fdiff_within. cbn [flt fabs fsub FNum].
  assert (S : Rabs (B2R x - B2R y) <= pw 2) by (change (pw 2) with 4; apply Rabs_le_inv in Bx, By; apply Rabs_le; lra).
  destruct (sub_ok x y 2 ltac:(lia) Fx Fy S) as (Fd & Ed). pose proof (RN_err _ 2 ltac:(lia) S) as Q. rewrite <- Ed in Q. set (d := Bminus mode_NE x y) in *.
  pose proof pw50. assert (P3 : pw (-50) = 8 * pw (-53)) by (change (-50)%Z with (-53 + 1 + 1 + 1)%Z; rewrite !pw_S; ring). assert (P2 : pw (-52) = 2 * pw (-53)) by (change (-52)%Z with (-53 + 1)%Z; apply pw_S).
  change (2 - 53)%Z with (-53 + 1 + 1)%Z in Q. rewrite !pw_S in Q. pose proof (bpow_gt_0 radix2 (-53)). pose proof (Rabs_pos (B2R x - B2R y - IZR z)).
  assert (N : Rabs (B2R (@normalize1 FNum d t)) < B2R t).
  { apply (normalize1_F_small d t z Fd Ft Ht). apply Rabs_def2 in Hz. apply Rabs_le_inv in Q. apply Rabs_def1; lra. }
  destruct (normalize1_F_range d t Fd Ft ltac:(lra)) as (Fn & _).
  rewrite Bltb_correct by (try rewrite is_finite_Babs; assumption). rewrite B2R_Babs. apply Rlt_bool_true. exact N.
Qed.
