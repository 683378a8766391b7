(** Proofs about [normalize_frac_vectors] in IEEE binary64. *)
From Coq Require Import ZArith Reals List Bool Lia Lra Psatz.
From Flocq Require Import Core IEEE754.BinarySingleNaN.
From Verif Require Import Num Mat Utils FInst Spec RFacts.
Import ListNotations.
Open Scope R_scope.

Notation fexp64 := (SpecFloat.fexp 53 1024).
Notation RN := (round radix2 fexp64 (round_mode mode_NE)).

#[global] Instance valid64 : Valid_exp fexp64 := fexp_correct 53 1024 Hprec.
#[global] Instance validrnd : Valid_rnd (round_mode mode_NE) := valid_rnd_round_mode mode_NE.

Definition F1 : f64 := F_of_Z 1.
Definition Fm1 : f64 := F_of_Z (-1).

Lemma bpow_big : 4 <= bpow radix2 1024.
Proof. change 4 with (bpow radix2 2). apply bpow_le. lia. Qed.

Lemma RN_le x y : x <= y -> RN x <= RN y. Proof. apply round_le; typeclasses eauto. Qed.
Lemma RN_fmt x : generic_format radix2 fexp64 x -> RN x = x. Proof. apply round_generic; typeclasses eauto. Qed.
Lemma fmt_B (x : f64) : generic_format radix2 fexp64 (B2R x). Proof. apply generic_format_B2R. Qed.

(** integers below 2^53 are representable *)
Lemma fmt_IZR z : (Z.abs z <= 2 ^ 53)%Z -> generic_format radix2 fexp64 (IZR z).
Proof.
  intro H. destruct (Z.eq_dec (Z.abs z) (2 ^ 53)) as [E|E].
  - assert (z = 2 ^ 53 \/ z = - 2 ^ 53)%Z as [-> | ->] by lia.
    + change (IZR (2 ^ 53)) with (bpow radix2 53). apply generic_format_bpow. cbn. unfold SpecFloat.fexp, SpecFloat.emin. lia.
    + rewrite opp_IZR. apply generic_format_opp.
      change (IZR (2 ^ 53)) with (bpow radix2 53). apply generic_format_bpow. cbn. unfold SpecFloat.fexp, SpecFloat.emin. lia.
  - apply (generic_format_FLT radix2 (SpecFloat.emin 53 1024) 53).
    apply (FLT_spec _ _ _ _ (Float radix2 z 0)).
    + unfold F2R; cbn. ring.
    + cbn [Fnum]. change (radix2 ^ 53)%Z with (2 ^ 53)%Z. lia.
    + cbn. unfold SpecFloat.emin. lia.
Qed.

Lemma F_of_Z_exact z : (Z.abs z <= 2 ^ 53)%Z -> B2R (F_of_Z z) = IZR z /\ is_finite (F_of_Z z) = true.
Proof.
  intro H. unfold F_of_Z.
  pose proof (binary_normalize_correct 53 1024 Hprec Hmax mode_NE z 0 false) as C. cbv zeta in C.
  replace (F2R {| Fnum := z; Fexp := 0 |}) with (IZR z) in C by (unfold F2R; cbn; ring).
  rewrite RN_fmt in C by now apply fmt_IZR.
  rewrite Rlt_bool_true in C.
  - destruct C as (C1 & C2 & _). auto.
  - rewrite <- abs_IZR. apply Rle_lt_trans with (IZR (2 ^ 53)); [now apply IZR_le|].
    change (IZR (2 ^ 53)) with (bpow radix2 53). apply bpow_lt. lia.
Qed.
Lemma B2R_F1 : B2R F1 = 1. Proof. apply F_of_Z_exact. cbn; lia. Qed.
Lemma fin_F1 : is_finite F1 = true. Proof. apply F_of_Z_exact. cbn; lia. Qed.
Lemma B2R_Fm1 : B2R Fm1 = -1. Proof. apply F_of_Z_exact. cbn; lia. Qed.
Lemma fin_Fm1 : is_finite Fm1 = true. Proof. apply F_of_Z_exact. cbn; lia. Qed.

(** addition and subtraction of small finite numbers *)
Lemma RN_bound x : Rabs x <= 2 -> Rabs (RN x) <= 2.
Proof.
  intro H. apply Rabs_le_inv in H. apply Rabs_le.
  assert (E2 : RN 2 = 2) by (apply RN_fmt, (fmt_IZR 2); cbn; lia).
  assert (E3 : RN (-2) = -2) by (apply RN_fmt, (fmt_IZR (-2)); cbn; lia).
  pose proof (RN_le x 2). pose proof (RN_le (-2) x). lra.
Qed.
Lemma RN_nooverflow x : Rabs x <= 2 -> Rlt_bool (Rabs (RN x)) (bpow radix2 1024) = true.
Proof. intro H. apply Rlt_bool_true. pose proof (RN_bound x H). pose proof bpow_big. lra. Qed.

Lemma Bplus_small (x y : f64) : is_finite x = true -> is_finite y = true -> Rabs (B2R x + B2R y) <= 2 ->
  B2R (Bplus mode_NE x y) = RN (B2R x + B2R y) /\ is_finite (Bplus mode_NE x y) = true.
Proof.
  intros Hx Hy H. pose proof (Bplus_correct 53 1024 Hprec Hmax mode_NE x y Hx Hy) as C.
  rewrite RN_nooverflow in C by auto. tauto.
Qed.
Lemma Bminus_small (x y : f64) : is_finite x = true -> is_finite y = true -> Rabs (B2R x - B2R y) <= 2 ->
  B2R (Bminus mode_NE x y) = RN (B2R x - B2R y) /\ is_finite (Bminus mode_NE x y) = true.
Proof.
  intros Hx Hy H. pose proof (Bminus_correct 53 1024 Hprec Hmax mode_NE x y Hx Hy) as C.
  rewrite RN_nooverflow in C by auto. tauto.
Qed.
Lemma Bneg1_mul (t : f64) : is_finite t = true -> Rabs (B2R t) <= 2 ->
  B2R (Bmult mode_NE Fm1 t) = - B2R t /\ is_finite (Bmult mode_NE Fm1 t) = true.
Proof.
  intros Ht H. pose proof (Bmult_correct 53 1024 Hprec Hmax mode_NE Fm1 t) as C.
  rewrite B2R_Fm1, fin_Fm1, Ht in C. replace (-1 * B2R t) with (- B2R t) in C by ring.
  rewrite RN_nooverflow in C by now rewrite Rabs_Ropp.
  destruct C as (C1 & C2 & _). split; auto. rewrite C1. apply RN_fmt, generic_format_opp, fmt_B.
Qed.

(** ** [x % 1.0] is exact *)
Lemma Ztrunc_opp' x : Ztrunc (- x) = (- Ztrunc x)%Z. Proof. apply Ztrunc_opp. Qed.

Lemma F_rem1_finite (s : bool) (m : positive) (e : Z) (H : SpecFloat.bounded 53 1024 m e = true) :
  let x : f64 := B754_finite s m e H in
  is_finite (F_rem1 x) = true /\ B2R (F_rem1 x) = B2R x - IZR (Ztrunc (B2R x)) /\
  (B2R (F_rem1 x) = 0 -> Bsign (F_rem1 x) = s).
Proof.
  intro x. unfold x, F_rem1. destruct (Z.leb_spec 0 e) as [He|He].
  - cbn [is_finite B2R Bsign]. repeat split; auto.
    unfold F2R. cbn [Fnum Fexp].
    replace (IZR (cond_Zopp s (Z.pos m)) * bpow radix2 e) with (IZR (cond_Zopp s (Z.pos m) * 2 ^ e)).
    + rewrite Ztrunc_IZR. ring.
    + rewrite mult_IZR. f_equal. change 2%Z with (radix_val radix2). apply IZR_Zpower. auto.
  - set (r := (Z.pos m mod 2 ^ (- e))%Z).
    assert (P2 : (0 < 2 ^ (- e))%Z) by (apply Z.pow_pos_nonneg; lia).
    assert (Br : (0 <= r < 2 ^ (- e))%Z) by (apply Z.mod_pos_bound; auto).
    assert (Brm : (r <= Z.pos m)%Z) by (apply Z.mod_le; lia).
    assert (HB : (Z.pos m < 2 ^ 53)%Z /\ (SpecFloat.emin 53 1024 <= e)%Z).
    { clear -H. unfold SpecFloat.bounded, SpecFloat.canonical_mantissa in H.
      apply andb_prop in H. destruct H as [H _]. apply Zeq_bool_eq in H.
      unfold SpecFloat.fexp in H. split; [|lia].
      assert (D : (Z.pos (SpecFloat.digits2_pos m) <= 53)%Z).
      { unfold SpecFloat.emin in *. lia. }
      rewrite Digits.Zpos_digits2_pos in D. apply (Digits.Zpower_gt_Zdigits radix2 53 (Z.pos m)) in D.
      change (Z.abs (Z.pos m)) with (Z.pos m) in D. exact D. }
    destruct HB as [Hm Hemin].
    assert (Ebp : bpow radix2 (- e) = IZR (2 ^ (- e))).
    { symmetry. change 2%Z with (radix_val radix2). apply IZR_Zpower. lia. }
    assert (Ebp' : bpow radix2 e * IZR (2 ^ (- e)) = 1).
    { rewrite <- Ebp, <- bpow_plus. replace (e + - e)%Z with 0%Z by ring. reflexivity. }
    pose proof (bpow_gt_0 radix2 e) as Hpos.
    (* truncation *)
    assert (T : IZR (Z.pos m) * bpow radix2 e - IZR (Ztrunc (IZR (Z.pos m) * bpow radix2 e)) = IZR r * bpow radix2 e).
    { rewrite Ztrunc_floor by (apply Rmult_le_pos; [apply IZR_le; lia|lra]).
      replace (Zfloor (IZR (Z.pos m) * bpow radix2 e)) with (Z.pos m / 2 ^ (- e))%Z.
      - pose proof (Z.div_mod (Z.pos m) (2 ^ (- e)) ltac:(lia)) as E. fold r in E.
        rewrite E at 1. rewrite plus_IZR, mult_IZR.
        replace ((IZR (2 ^ (- e)) * IZR (Z.pos m / 2 ^ (- e)) + IZR r) * bpow radix2 e)
          with (IZR (Z.pos m / 2 ^ (- e)) * (bpow radix2 e * IZR (2 ^ (- e))) + IZR r * bpow radix2 e) by ring.
        rewrite Ebp'. ring.
      - symmetry. apply Zfloor_imp.
        pose proof (Z.div_mod (Z.pos m) (2 ^ (- e)) ltac:(lia)) as E. fold r in E.
        assert (E' : IZR (Z.pos m) * bpow radix2 e = IZR (Z.pos m / 2 ^ (- e)) + IZR r * bpow radix2 e).
        { rewrite E at 1. rewrite plus_IZR, mult_IZR.
          replace ((IZR (2 ^ (- e)) * IZR (Z.pos m / 2 ^ (- e)) + IZR r) * bpow radix2 e)
            with (IZR (Z.pos m / 2 ^ (- e)) * (bpow radix2 e * IZR (2 ^ (- e))) + IZR r * bpow radix2 e) by ring.
          rewrite Ebp'. ring. }
        rewrite E'. rewrite plus_IZR.
        assert (0 <= IZR r * bpow radix2 e) by (apply Rmult_le_pos; [apply IZR_le; lia|lra]).
        assert (IZR r * bpow radix2 e < 1).
        { rewrite <- Ebp'. rewrite Rmult_comm. apply Rmult_lt_compat_l; auto. apply IZR_lt. lia. }
        lra. }
    pose proof (binary_normalize_correct 53 1024 Hprec Hmax mode_NE (cond_Zopp s r) e s) as C. cbv zeta in C.
    assert (Fm : generic_format radix2 fexp64 (F2R (Float radix2 (cond_Zopp s r) e))).
    { apply (generic_format_FLT radix2 (SpecFloat.emin 53 1024) 53).
      apply (FLT_spec _ _ _ _ (Float radix2 (cond_Zopp s r) e)); auto.
      cbn [Fnum]. rewrite abs_cond_Zopp. change (radix2 ^ 53)%Z with (2 ^ 53)%Z. lia. }
    rewrite RN_fmt in C by exact Fm.
    assert (Ev : F2R (Float radix2 (cond_Zopp s r) e) = (if s then -1 else 1) * (IZR r * bpow radix2 e)).
    { unfold F2R; cbn [Fnum Fexp]. destruct s; cbn [cond_Zopp]; rewrite ?opp_IZR; ring. }
    assert (E0 : 0 <= IZR r * bpow radix2 e) by (apply Rmult_le_pos; [apply IZR_le; lia|lra]).
    assert (E1 : IZR r * bpow radix2 e < 1).
    { rewrite <- Ebp'. rewrite Rmult_comm. apply Rmult_lt_compat_l; auto. apply IZR_lt. lia. }
    rewrite Rlt_bool_true in C.
    + destruct C as (C1 & C2 & C3). split; [exact C2|]. split.
      * rewrite C1, Ev. cbn [B2R]. unfold F2R. cbn [Fnum Fexp]. rewrite <- T.
        destruct s; cbn [cond_Zopp].
        -- rewrite opp_IZR. replace (- IZR (Z.pos m) * bpow radix2 e) with (- (IZR (Z.pos m) * bpow radix2 e)) by ring.
           rewrite Ztrunc_opp', opp_IZR. ring.
        -- ring.
      * rewrite C1. intro Z0. rewrite C3, Z0, Rcompare_Eq by reflexivity. reflexivity.
    + rewrite Ev. pose proof bpow_big. destruct s; apply Rabs_lt; lra.
Qed.

Lemma F_rem1_correct (x : f64) : is_finite x = true ->
  is_finite (F_rem1 x) = true /\ B2R (F_rem1 x) = B2R x - IZR (Ztrunc (B2R x)) /\
  (B2R (F_rem1 x) = 0 -> Bsign (F_rem1 x) = Bsign x).
Proof.
  destruct x as [s|s| |s m e H]; intro Hf; try discriminate.
  - cbn. rewrite Ztrunc_IZR. repeat split; auto. ring.
  - apply (F_rem1_finite s m e H).
Qed.

(** a number below 1 in magnitude is unchanged, bit for bit *)
Lemma F_rem1_small (x : f64) : is_finite x = true -> Rabs (B2R x) < 1 -> F_rem1 x = x.
Proof.
  intros Hf Hb. destruct (F_rem1_correct x Hf) as (F & E & S).
  assert (T : Ztrunc (B2R x) = 0%Z).
  { apply Rabs_lt_inv in Hb. now apply Ztrunc_small. }
  rewrite T, Rminus_0_r in E.
  apply B2R_Bsign_inj; auto.
  destruct (Req_dec (B2R x) 0) as [Z0|N0].
  - apply S. now rewrite E.
  - destruct x as [s|s| |s m e H]; try discriminate; [now cbn in N0|].
    destruct (F_rem1 (B754_finite s m e H)) as [s'|s'| |s' m' e' H'] eqn:EF; try discriminate.
    + cbn in E. exfalso. apply N0. cbn. symmetry. exact E.
    + cbn [Bsign]. cbn [B2R] in E. destruct s, s'; auto; exfalso.
      * assert (F2R (Float radix2 (cond_Zopp true (Z.pos m)) e) < 0) by (apply F2R_lt_0; cbn; lia).
        assert (F2R (Float radix2 (cond_Zopp false (Z.pos m')) e') > 0) by (apply F2R_gt_0; cbn; lia). lra.
      * assert (F2R (Float radix2 (cond_Zopp false (Z.pos m)) e) > 0) by (apply F2R_gt_0; cbn; lia).
        assert (F2R (Float radix2 (cond_Zopp true (Z.pos m')) e') < 0) by (apply F2R_lt_0; cbn; lia). lra.
Qed.

Lemma F_rem1_bound (x : f64) : is_finite x = true -> -1 < B2R (F_rem1 x) < 1.
Proof. intro Hf. destruct (F_rem1_correct x Hf) as (_ & E & _). rewrite E. apply rem1_bounds. Qed.

Section Norm.
  Context {L : Libm}.

  Lemma normalize1_F_unfold (x t : f64) :
    @normalize1 FNum x t =
    if Bltb (F_rem1 x) (Bmult mode_NE Fm1 t) then Bplus mode_NE (F_rem1 x) F1
    else if Bltb (Bminus mode_NE F1 t) (F_rem1 x) then Bminus mode_NE (F_rem1 x) F1
    else F_rem1 x.
  Proof. reflexivity. Qed.

  (** the upper end as computed by the code *)
  Definition upper (t : f64) : f64 := Bminus mode_NE F1 t.
  Lemma upper_correct (t : f64) : is_finite t = true -> 0 <= B2R t <= 1 ->
    is_finite (upper t) = true /\ B2R (upper t) = RN (1 - B2R t) /\ 0 <= B2R (upper t) <= 1.
  Proof.
    intros Ft Ht. unfold upper. destruct (Bminus_small F1 t fin_F1 Ft) as [E F].
    - rewrite B2R_F1. apply Rabs_le. lra.
    - rewrite B2R_F1 in E. split; auto. split; auto. rewrite E.
      assert (E2 : RN 0 = 0) by (apply RN_fmt, generic_format_0).
      assert (E3 : RN 1 = 1) by (apply RN_fmt, (fmt_IZR 1); cbn; lia).
      pose proof (RN_le 0 (1 - B2R t)). pose proof (RN_le (1 - B2R t) 1). lra.
  Qed.

  Lemma normalize1_F_range (x t : f64) :
    is_finite x = true -> is_finite t = true -> 0 <= B2R t <= 1 ->
    is_finite (@normalize1 FNum x t) = true /\
    - B2R t <= B2R (@normalize1 FNum x t) <= B2R (upper t).
  Proof.
    intros Fx Ft Ht. rewrite normalize1_F_unfold.
    destruct (F_rem1_correct x Fx) as (Fy & _ & _). pose proof (F_rem1_bound x Fx) as By.
    set (y := F_rem1 x) in *.
    destruct (Bneg1_mul t Ft) as [En Fn]; [apply Rabs_le; lra|].
    destruct (upper_correct t Ft Ht) as (Fu & Eu & Bu). fold (upper t).
    rewrite Bltb_correct, En by auto. destruct (Rlt_bool_spec (B2R y) (- B2R t)) as [H1|H1].
    - destruct (Bplus_small y F1 Fy fin_F1) as [E F].
      { rewrite B2R_F1. apply Rabs_le. lra. }
      split; auto. rewrite E, B2R_F1, Eu. split.
      + apply Rle_trans with 0; [lra|]. rewrite <- (RN_fmt 0) by apply generic_format_0. apply RN_le. lra.
      + apply RN_le. lra.
    - rewrite Bltb_correct by auto. destruct (Rlt_bool_spec (B2R (upper t)) (B2R y)) as [H2|H2].
      + destruct (Bminus_small y F1 Fy fin_F1) as [E F].
        { rewrite B2R_F1. apply Rabs_le. lra. }
        split; auto. rewrite E, B2R_F1. split.
        * assert (Hy : 1 - B2R t <= B2R y).
          { destruct (Rle_or_lt (1 - B2R t) (B2R y)); auto. exfalso.
            assert (RN (B2R y) <= RN (1 - B2R t)) by (apply RN_le; lra).
            rewrite (RN_fmt (B2R y)) in H0 by apply fmt_B. lra. }
          rewrite <- (RN_fmt (- B2R t)) by (apply generic_format_opp, fmt_B). apply RN_le. lra.
        * apply Rle_trans with 0; [|lra]. rewrite <- (RN_fmt 0) by apply generic_format_0. apply RN_le. lra.
      + split; auto.
  Qed.

  Lemma normalize1_F_idem (x t : f64) :
    is_finite x = true -> is_finite t = true -> 0 <= B2R t < 1 -> B2R (upper t) < 1 ->
    @normalize1 FNum (@normalize1 FNum x t) t = @normalize1 FNum x t.
  Proof.
    intros Fx Ft Ht Hu. destruct (normalize1_F_range x t Fx Ft ltac:(lra)) as [Fz Bz].
    set (z := @normalize1 FNum x t) in *. clearbody z.
    rewrite normalize1_F_unfold. rewrite (F_rem1_small z Fz) by (apply Rabs_lt; lra).
    destruct (Bneg1_mul t Ft) as [En Fn]; [apply Rabs_le; lra|].
    destruct (upper_correct t Ft ltac:(lra)) as (Fu & Eu & Bu). fold (upper t).
    rewrite Bltb_correct, En by auto. rewrite Rlt_bool_false by lra.
    rewrite Bltb_correct by auto. rewrite Rlt_bool_false by lra. reflexivity.
  Qed.
End Norm.

(** 1 - t rounds below 1 as soon as t exceeds half an ulp below 1 *)
Lemma upper_lt_1 (t : f64) : is_finite t = true -> bpow radix2 (-54) < B2R t <= 1 -> B2R (upper t) < 1.
Proof.
  intros Ft [H1 H2]. pose proof (bpow_gt_0 radix2 (-54)).
  destruct (upper_correct t Ft ltac:(lra)) as (_ & E & _). rewrite E.
  assert (F1' : generic_format radix2 fexp64 1) by (apply (fmt_IZR 1); cbn; lia).
  assert (P1 : pred radix2 fexp64 1 = 1 - bpow radix2 (-53)).
  { change 1 with (bpow radix2 0) at 1. rewrite pred_bpow. reflexivity. }
  apply Rle_lt_trans with (pred radix2 fexp64 1).
  - apply round_N_le_midp; [typeclasses eauto|apply generic_format_pred; auto; typeclasses eauto|].
    rewrite succ_pred by (auto; typeclasses eauto). rewrite P1.
    assert (bpow radix2 (-53) = 2 * bpow radix2 (-54)).
    { change 2 with (bpow radix2 1). rewrite <- bpow_plus. reflexivity. }
    lra.
  - rewrite P1. pose proof (bpow_gt_0 radix2 (-53)). lra.
Qed.

Section NormVec.
  Context {L : Libm}.
  Lemma normalize_F_nth (vs : list (vec f64)) (ts : vec f64) i v :
    nth_error vs i = Some v ->
    nth_error (@normalize_frac_vectors FNum vs ts) i = Some (@normalize_vec FNum v ts).
  Proof. intro H. exact (map_nth_error (fun v => @normalize_vec FNum v ts) i vs H). Qed.

  Lemma normalize_vec_vnth (v ts : vec f64) k :
    Spec.vnth (@normalize_vec FNum v ts) k = @normalize1 FNum (Spec.vnth v k) (Spec.vnth ts k).
  Proof. destruct k as [|[|]]; reflexivity. Qed.

  Definition okc (x t : f64) : Prop := is_finite x = true /\ is_finite t = true /\ bpow radix2 (-54) < B2R t < 1.
  Lemma normalize_F_idem_list (vs : list (vec f64)) (ts : vec f64) :
    (forall v k, In v vs -> okc (Spec.vnth v k) (Spec.vnth ts k)) ->
    @normalize_frac_vectors FNum (@normalize_frac_vectors FNum vs ts) ts = @normalize_frac_vectors FNum vs ts.
  Proof.
    intro H. unfold normalize_frac_vectors. rewrite map_map. apply map_ext_in. intros v Hv.
    assert (Q : forall k, @normalize1 FNum (@normalize1 FNum (Spec.vnth v k) (Spec.vnth ts k)) (Spec.vnth ts k)
                          = @normalize1 FNum (Spec.vnth v k) (Spec.vnth ts k)).
    { intro k. destruct (H v k Hv) as (Fx & Ft & Bt). pose proof (bpow_gt_0 radix2 (-54)).
      apply normalize1_F_idem; auto; [lra|]. apply upper_lt_1; auto. lra. }
    unfold normalize_vec, vmap2. cbn [vx vy vz]. f_equal; [apply (Q 0%nat)|apply (Q 1%nat)|apply (Q 2%nat)].
  Qed.
End NormVec.

(** concrete dyadic numbers for the examples *)
Definition f64_of (m e : Z) : f64 := binary_normalize 53 1024 Hprec Hmax mode_NE m e false.
Lemma f64_of_exact m e : (Z.abs m < 2 ^ 53)%Z -> (-1074 <= e <= 0)%Z ->
  B2R (f64_of m e) = IZR m * bpow radix2 e /\ is_finite (f64_of m e) = true.
Proof.
  intros Hm He. unfold f64_of.
  pose proof (binary_normalize_correct 53 1024 Hprec Hmax mode_NE m e false) as C. cbv zeta in C.
  assert (Fm : generic_format radix2 fexp64 (F2R (Float radix2 m e))).
  { apply (generic_format_FLT radix2 (SpecFloat.emin 53 1024) 53).
    apply (FLT_spec _ _ _ _ (Float radix2 m e)); auto.
    cbn. unfold SpecFloat.emin. lia. }
  rewrite RN_fmt in C by exact Fm. rewrite Rlt_bool_true in C.
  - destruct C as (C1 & C2 & _). auto.
  - unfold F2R. cbn [Fnum Fexp]. rewrite Rabs_mult, <- abs_IZR, (Rabs_pos_eq (bpow _ _)) by apply bpow_ge_0.
    apply Rle_lt_trans with (IZR (2 ^ 53) * bpow radix2 0).
    + apply Rmult_le_compat; try apply bpow_ge_0; [apply IZR_le; lia|apply IZR_le; lia|apply bpow_le; lia].
    + change (IZR (2 ^ 53)) with (bpow radix2 53). rewrite <- bpow_plus. apply bpow_lt. lia.
Qed.
(** floats are equal when their proof-free forms are *)
Lemma f64_eq (x y : f64) : B2SF x = B2SF y -> x = y. Proof. apply B2SF_inj. Qed.
