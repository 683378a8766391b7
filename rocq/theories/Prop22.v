(** C104 - C110: the functions of utils.rs, symmop.rs and the last two stages of a run in IEEE binary64, with the rounding errors bounded *)
From Coq Require Import ZArith Reals String Ascii List Bool Lia Lra.
From Flocq Require Import Core IEEE754.BinarySingleNaN.
From Verif Require Import Num Mat Utils SymmOp SpaceGroup Structure DataCore DataSG Analyzer FInst RInst Spec Spec2 Spec7 RFacts PFloat PUtils PSymmOp PSpaceGroup PSpaceGroup2 PAnalyzer2 PCode PTables PIdentify PSearch6 PF64 PF64b PF64c Prop1 Prop4 Prop8.
Import ListNotations.
Open Scope R_scope.

(** C104. *)
Theorem C104_normalize_near_periods_binary64 :
  forall (L : Libm) (vs : list (vec f64)) (ts : vec f64),
    length (@normalize_frac_vectors (@FNum L) vs ts) = length vs /\
    forall i v k, nth_error vs i = Some v -> is_finite (vnth v k) = true -> is_finite (vnth ts k) = true -> 0 <= B2R (vnth ts k) <= 1 ->
      exists w z, nth_error (@normalize_frac_vectors (@FNum L) vs ts) i = Some w /\ is_finite (vnth w k) = true /\
        Rabs (B2R (vnth w k) - (B2R (vnth v k) - IZR z)) <= bpow radix2 (-53).
Proof.
  intros L vs ts. split; [unfold normalize_frac_vectors; apply map_length|]. intros i v k Hi Fv Ft Ht.
  destruct (C01_normalize_range_binary64 L vs ts i k v Hi Fv Ft Ht) as (w & Ew & Fw & _). destruct (normalize1_F_near (vnth v k) (vnth ts k) Fv Ft Ht) as (z & Hz).
  exists w, z. split; [exact Ew|]. split; [exact Fw|]. assert (E : vnth w k = @normalize1 (@FNum L) (vnth v k) (vnth ts k)); [|now rewrite E].
  rewrite (normalize_F_nth vs ts i v Hi) in Ew. injection Ew as <-. apply normalize_vec_vnth.
Qed.
Print Assumptions C104_normalize_near_periods_binary64.

(** C105. *)
Theorem C105_apply_accurate_binary64 :
  forall (L : Libm) (op : @symmop (@FNum L)) (x : vec f64) (j e : Z),
    (0 <= j <= 50)%Z -> (-200 <= e <= 100)%Z -> entries_within (- 2 ^ j) (2 ^ j) (rotation op) ->
    finite3 (translation op) -> finite3 x -> within3 (bpow radix2 e) (real3 (translation op)) -> within3 (bpow radix2 e) (real3 x) ->
    finite3 (@op_apply (@FNum L) op x) /\
    close3 (bpow radix2 (j + e - 48)) (real3 (@op_apply (@FNum L) op x)) (@op_apply RNum (real_op op) (real3 x)).
Proof.
  intros L op x j e Hj He HR Ft Fx Bt Bx. destruct (op_apply_ok op x j e Hj He HR Ft Fx Bt Bx) as (A & _ & B). split; [exact A|].
  rewrite op_apply_R. exact B.
Qed.
Print Assumptions C105_apply_accurate_binary64.
Theorem C105_product_accurate_binary64 :
  forall (L : Libm) (a b : @symmop (@FNum L)) (j e : Z),
    (0 <= j <= 50)%Z -> (-200 <= e <= 100)%Z -> entries_within (- 2 ^ j) (2 ^ j) (rotation b) ->
    finite3 (translation a) -> finite3 (translation b) -> within3 (bpow radix2 e) (real3 (translation a)) -> within3 (bpow radix2 e) (real3 (translation b)) ->
    rotation (@op_mul (@FNum L) a b) = rotation (@op_mul RNum (real_op a) (real_op b)) /\ finite3 (translation (@op_mul (@FNum L) a b)) /\
    close3 (bpow radix2 (j + e - 48)) (real3 (translation (@op_mul (@FNum L) a b))) (translation (@op_mul RNum (real_op a) (real_op b))).
Proof.
  intros L a b j e Hj He HR Fa Fb Ba Bb. destruct (op_apply_ok b (translation a) j e Hj He HR Fb Fa Bb Ba) as (A & _ & B). split; [reflexivity|]. split; [exact A|].
  rewrite op_mul_apply. exact B.
Qed.
Print Assumptions C105_product_accurate_binary64.
Theorem C105_cartesian_accurate_binary64 :
  forall (L : Libm) (lat : mat f64) (fc : list (vec f64)) (j e : Z),
    (0 <= j <= 100)%Z -> (-200 <= e <= 100)%Z -> finite9 lat -> within9 (bpow radix2 j) (real9 lat) ->
    (forall v, In v fc -> finite3 v /\ within3 (bpow radix2 e) (real3 v)) ->
    length (@get_cart_coords (@FNum L) lat fc) = length fc /\
    forall i v, nth_error fc i = Some v -> exists w, nth_error (@get_cart_coords (@FNum L) lat fc) i = Some w /\ finite3 w /\
      close3 (bpow radix2 (j + e - 49)) (real3 w) (Mapp (real9 lat) (real3 v)).
Proof.
  intros L lat fc j e Hj He FL BL HV. split; [unfold get_cart_coords; apply map_length|]. intros i v Hi. destruct (HV v (nth_error_In _ _ Hi)) as (Fv & Bv).
  destruct (mvmul_ok lat v j e Hj He FL Fv BL Bv) as (A & _ & B). exists (@mvmul (@FNum L) lat v). split; [unfold get_cart_coords; exact (map_nth_error _ _ _ Hi)|]. split; assumption.
Qed.
Print Assumptions C105_cartesian_accurate_binary64.

(** C106. *)
Theorem C106_is_approx_eq_binary64 :
  forall (L : Libm) (a b : @symmop (@FNum L)) (tols : vec f64),
    finite3 (translation a) -> finite3 (translation b) -> within3 2 (real3 (translation a)) -> within3 2 (real3 (translation b)) -> finite3 tols ->
    0 <= B2R (vx tols) <= 1 / 4 -> 0 <= B2R (vy tols) <= 1 / 4 -> 0 <= B2R (vz tols) <= 1 / 4 ->
    (@is_approx_eq (@FNum L) a b tols = true ->
       rotation a = rotation b /\ near3 (raised (1 / 1000000000000000) (real3 tols)) (real3 (translation a)) (real3 (translation b))) /\
    (rotation a = rotation b -> near3 (raised (- (1 / 1000000000000000)) (real3 tols)) (real3 (translation a)) (real3 (translation b)) ->
       @is_approx_eq (@FNum L) a b tols = true).
Proof.
  intros L a b tols Fa Fb Ba Bb FT T1 T2 T3. assert (T : tolF tols) by (split; [exact FT|lra]). split; [apply approx_true|apply approx_back]; try exact T; split; assumption.
Qed.
Print Assumptions C106_is_approx_eq_binary64.

(** C107. *)
Theorem C107_cust_eq_binary64 :
  forall (L : Libm) (a b eps : f64) (k : Z),
    is_finite a = true -> is_finite b = true -> is_finite eps = true -> (-1000 <= k < 1000)%Z -> Rabs (B2R a) <= bpow radix2 k -> Rabs (B2R b) <= bpow radix2 k -> Rabs (B2R eps) <= bpow radix2 k ->
    (Rabs (B2R a - B2R b) <= B2R eps -> @cust_eq (@FNum L) a b eps = true) /\
    (@cust_eq (@FNum L) a b eps = true -> Rabs (B2R a - B2R b) <= B2R eps + bpow radix2 (k - 52)).
Proof.
  intros L a b eps k Fa Fb Fe Hk Ba Bb Be. assert (PK : bpow radix2 (k + 1) <= bpow radix2 1000) by (apply bpow_le; lia).
  assert (S1 : Rabs (B2R b - B2R eps) <= bpow radix2 (k + 1)) by (rewrite pw_S; apply Rabs_le_inv in Bb, Be; apply Rabs_le; lra).
  assert (S2 : Rabs (B2R a - B2R eps) <= bpow radix2 (k + 1)) by (rewrite pw_S; apply Rabs_le_inv in Ba, Be; apply Rabs_le; lra).
  pose proof (cust_eq_F a b eps Fa Fb Fe ltac:(lra) ltac:(lra)) as C. split; intro H.
  - apply C. apply Rabs_le_inv in H. split; [rewrite <- (RN_fmt (B2R a)) by apply fmt_B|rewrite <- (RN_fmt (B2R b)) by apply fmt_B]; apply RN_le; lra.
  - apply C in H. pose proof (RN_err _ (k + 1) ltac:(lia) S1) as E1. pose proof (RN_err _ (k + 1) ltac:(lia) S2) as E2. replace (k + 1 - 53)%Z with (k - 52)%Z in E1, E2 by lia.
    apply Rabs_le_inv in E1, E2. apply Rabs_le. lra.
Qed.
Print Assumptions C107_cust_eq_binary64.
Theorem C107_approx_equal_binary64 :
  forall (L : Libm) (a b tol : f64),
    is_finite a = true -> is_finite b = true -> is_finite tol = true -> Rabs (B2R a - B2R b) <= bpow radix2 1000 ->
    (@approx_equal (@FNum L) a b tol = true -> Rabs (B2R a - B2R b) < B2R tol) /\
    (forall y : f64, is_finite y = true -> Rabs (B2R a - B2R b) <= B2R y < B2R tol -> @approx_equal (@FNum L) a b tol = true).
Proof.
  intros L a b tol Fa Fb Ft S. pose proof (approx_equal_F a b tol Fa Fb Ft S) as C. rewrite RN_abs in C. split.
  - intro H. apply C in H. destruct (Rlt_le_dec (Rabs (B2R a - B2R b)) (B2R tol)) as [|Q]; [assumption|exfalso]. apply RN_le in Q. rewrite (RN_fmt (B2R tol)) in Q by apply fmt_B. lra.
  - intros y Fy [H1 H2]. apply C. apply RN_le in H1. rewrite (RN_fmt (B2R y)) in H1 by apply fmt_B. lra.
Qed.
Print Assumptions C107_approx_equal_binary64.
(** C110.  The strict comparison is not decided exactly: 1 and 2^-60 differ by less than 1, but the difference is rounded to 1 *)
Theorem C110_approx_equal_exact_refuted :
  exists a b tol : f64, is_finite a = true /\ is_finite b = true /\ is_finite tol = true /\ Rabs (B2R a - B2R b) < B2R tol /\
    forall L : Libm, @approx_equal (@FNum L) a b tol = false.
Proof.
  exists (f64_of 1 0), (f64_of 1 (-60)), (f64_of 1 0). destruct (f64_of_exact 1 0) as [E1 F1]; try lia. destruct (f64_of_exact 1 (-60)) as [E2 F2]; try lia.
  split; [exact F1|]. split; [exact F2|]. split; [exact F1|]. split.
  - rewrite E1, E2. pose proof (bpow_gt_0 radix2 (-60)). assert (bpow radix2 (-60) < bpow radix2 0) by (apply bpow_lt; lia). change (bpow radix2 0) with 1 in *. apply Rabs_def1; lra.
  - intro L. vm_compute. reflexivity.
Qed.
Print Assumptions C110_approx_equal_exact_refuted.

(** C108. *)
Theorem C108_identify_sound_binary64 :
  forall (L : Libm) (HO : HashOrd) path (ops : list (@symmop (@FNum L))) ls (tols : vec f64) n sym,
    let lo := 1 / 100000000000000 in
    finite3 tols -> lo < B2R (vx tols) <= 1 / 24 - lo -> lo < B2R (vy tols) <= 1 / 24 - lo -> lo < B2R (vz tols) <= 1 / 24 - lo ->
    (forall op, In op ops -> finite3 (translation op) /\ within3 2 (real3 (translation op))) ->
    @identify_space_group (@FNum L) HO path ops ls tols = Ok (Some (n, sym)) ->
    exists order codes, tabulated ls order n codes /\ order = (Z.of_nat (List.length ops) mod 256)%Z /\ am_get Z.eqb n SG_NUM_TO_SYMBOL = Some sym /\
      forall op, In op ops -> exists code, In code codes /\ rotation op = fst (code_op (has_char "A"%char sym) code) /\
        near3 (raised lo (real3 tols)) (real3 (translation op)) (in_twelfths (snd (code_op (has_char "A"%char sym) code))).
Proof.
  intros L HO path ops ls tols n sym lo FT T1 T2 T3 HK E. destruct (identify_sound_F tols FT T1 T2 T3 HO path ops ls n sym HK E) as (codes & HI & ES & HF).
  exists (Z.of_nat (List.length ops) mod 256)%Z, codes. split; [now apply sg_entries_In|]. split; [reflexivity|]. split; [exact ES|]. intros op Hop. destruct (HF op Hop) as (c & Hc & Q).
  apply in_map_iff in Hc. destruct Hc as (code & <- & Hcode). eauto.
Qed.
Print Assumptions C108_identify_sound_binary64.
Theorem C108_identify_complete_binary64 :
  forall (L : Libm) (HO : HashOrd) path (ops : list (@symmop (@FNum L))) ls order n codes sym (tols : vec f64),
    let lo := 1 / 100000000000000 in
    finite3 tols -> lo < B2R (vx tols) <= 1 / 24 - lo -> lo < B2R (vy tols) <= 1 / 24 - lo -> lo < B2R (vz tols) <= 1 / 24 - lo ->
    (forall op, In op ops -> finite3 (translation op) /\ within3 2 (real3 (translation op))) ->
    tabulated ls order n codes -> am_get Z.eqb n SG_NUM_TO_SYMBOL = Some sym ->
    NoDup (map (@rotation (@FNum L)) ops) -> List.length ops = List.length codes ->
    (forall op, In op ops -> exists code, In code codes /\ rotation op = fst (code_op (has_char "A"%char sym) code) /\
       near3 (raised (- lo) (real3 tols)) (real3 (translation op)) (in_twelfths (snd (code_op (has_char "A"%char sym) code)))) ->
    @identify_space_group (@FNum L) HO path ops ls tols = Ok (Some (n, sym)).
Proof.
  intros L HO path ops ls order n codes sym tols lo FT T1 T2 T3 HK HT ES HN HL HF.
  apply (identify_complete_F tols FT T1 T2 T3 HO path ops ls order n codes sym); auto; [now apply sg_entries_In|].
  intros op Hop. destruct (HF op Hop) as (code & Hc & E1 & E2). exists (code_op (has_char "A"%char sym) code). split; [unfold group_ops; now apply in_map|auto].
Qed.
Print Assumptions C108_identify_complete_binary64.
Theorem C108_identify_order_independent_binary64 :
  forall (L : Libm) (HO HO' : HashOrd) path path' (ops : list (@symmop (@FNum L))) ls (tols : vec f64),
    let lo := 1 / 100000000000000 in
    finite3 tols -> lo < B2R (vx tols) <= 1 / 24 - lo -> lo < B2R (vy tols) <= 1 / 24 - lo -> lo < B2R (vz tols) <= 1 / 24 - lo ->
    (forall op, In op ops -> finite3 (translation op) /\ within3 2 (real3 (translation op))) -> NoDup (map (@rotation (@FNum L)) ops) ->
    @identify_space_group (@FNum L) HO path ops ls tols = @identify_space_group (@FNum L) HO' path' ops ls tols.
Proof. intros L HO HO' path path' ops ls tols lo FT T1 T2 T3 HK HN. now apply (identify_any_order_F tols FT T1 T2 T3). Qed.
Print Assumptions C108_identify_order_independent_binary64.

(** C109. *)
Theorem C109_closure_unchanged_binary64 :
  forall (L : Libm) (ops : list (@symmop (@FNum L))) ls order n codes sym (tols : vec f64) (eta : R) fuel,
    let entry code := code_op (has_char "A"%char sym) code in let off := 2 / 100000000000000 in
    finite3 tols -> 5 * eta + off <= B2R (vx tols) <= 1 / 4 -> 5 * eta + off <= B2R (vy tols) <= 1 / 4 -> 5 * eta + off <= B2R (vz tols) <= 1 / 4 -> 0 < eta ->
    tabulated ls order n codes -> am_get Z.eqb n SG_NUM_TO_SYMBOL = Some sym -> ~ In n not_closed -> (1 <= fuel)%nat ->
    (forall op, In op ops -> finite3 (translation op) /\ within3 2 (real3 (translation op)) /\
       exists code, In code codes /\ rotation op = fst (entry code) /\ near3 (V eta eta eta) (real3 (translation op)) (in_twelfths (snd (entry code)))) ->
    (forall code, In code codes -> exists op, In op ops /\ rotation op = fst (entry code) /\ near3 (V eta eta eta) (real3 (translation op)) (in_twelfths (snd (entry code)))) ->
    @from_generators (@FNum L) fuel ops tols = Ok ops.
Proof.
  intros L ops ls order n codes sym tols eta fuel entry off FT T1 T2 T3 He HT ES NC Hf HO HC. destruct fuel as [|fuel]; [lia|]. apply sg_entries_In in HT. unfold off in *.
  apply (closed_F eta tols (group_ops sym codes)).
  - split; [exact FT|lra].
  - exact (table_closed _ _ _ _ _ HT ES NC).
  - intros c Hc. exact (group_entries _ _ _ _ _ _ HT Hc).
  - unfold margin. lra.
  - unfold margin. lra.
  - unfold margin. lra.
  - intros o Ho. destruct (HO o Ho) as (F & B & code & Hcode & Q). split; [split; assumption|]. exists (entry code). split; [unfold group_ops; now apply in_map|exact Q].
  - intros c Hc. apply in_map_iff in Hc. destruct Hc as (code & <- & Hcode). exact (HC code Hcode).
Qed.
Print Assumptions C109_closure_unchanged_binary64.
Theorem C109_tables_run_binary64 :
  forall (L : Libm) (HO : HashOrd) path ls order n codes sym (tols : vec f64) fuel,
    let lo := 1 / 10000000000000 in
    tabulated ls order n codes -> am_get Z.eqb n SG_NUM_TO_SYMBOL = Some sym ->
    finite3 tols -> lo <= B2R (vx tols) <= 1 / 25 -> lo <= B2R (vy tols) <= 1 / 25 -> lo <= B2R (vz tols) <= 1 / 25 -> (1 <= fuel)%nat ->
    exists ops, map_res (@candidate_op (@FNum L) (has_char "A"%char sym)) codes = Ok ops /\
      @identify_space_group (@FNum L) HO path ops ls tols = Ok (Some (n, sym)) /\
      (~ In n not_closed -> @from_generators (@FNum L) fuel ops tols = Ok ops).
Proof.
  intros L HO path ls order n codes sym tols fuel lo HT ES FT T1 T2 T3 Hf. unfold lo in *. pose proof HT as HI. apply sg_entries_In in HI.
  destruct (proj1 (sg_entries_In _ _ _ _) HI) as (bk & g & I1 & I2 & I3). destruct (entry_facts _ _ _ _ HI) as (sym' & ES' & G & _). rewrite ES in ES'. injection ES' as <-.
  destruct (candidates_F (L := L) (has_char "A"%char sym) codes) as (ops & Eo & F2); [intros c Hc; apply (codes_range _ _ _ _ _ _ _ I1 I2 I3 Hc)|]. exists ops. split; [exact Eo|].
  assert (NE : forall (o : @symmop (@FNum L)) (c : mat Z * vec Z), close3 (bpow radix2 (-48)) (real3 (translation o)) (in_twelfths (snd c)) -> near3 (V (5 / 1000000000000000) (5 / 1000000000000000) (5 / 1000000000000000)) (real3 (@translation (@FNum L) o)) (in_twelfths (snd c))).
  { intros o c (Q1 & Q2 & Q3). pose proof pw48. split; [|split]; exists 0%Z; cbn [vx vy vz] in *; rewrite Rminus_0_r; lra. }
  assert (K1 : forall o, In o ops -> finite3 (translation o) /\ within3 2 (real3 (translation o)) /\
    exists code, In code codes /\ rotation o = fst (code_op (has_char "A"%char sym) code) /\ near3 (V (5 / 1000000000000000) (5 / 1000000000000000) (5 / 1000000000000000)) (real3 (translation o)) (in_twelfths (snd (code_op (has_char "A"%char sym) code)))).
  { intros o Ho. destruct (Forall2_in_r _ _ _ _ F2 Ho) as (c & Hc & (R & (A & B) & D)). apply in_map_iff in Hc. destruct Hc as (code & <- & Hcode). split; [exact A|]. split; [exact B|]. exists code. auto. }
  split.
  - apply (C108_identify_complete_binary64 L HO path ops ls order n codes sym tols); auto; try lra.
    + intros o Ho. destruct (K1 o Ho) as (A & B & _). auto.
    + replace (map (@rotation (@FNum L)) ops) with (map fst (map (code_op (has_char "A"%char sym)) codes)); [exact (og_rotations _ G)|]. clear - F2. induction F2 as [|c o l m H F IH]; [reflexivity|]. cbn [map]. rewrite IH. f_equal. symmetry. apply H.
    + pose proof (Forall2_len _ _ _ F2) as Q. rewrite map_length in Q. congruence.
    + intros o Ho. destruct (K1 o Ho) as (_ & _ & code & Hc & R & (N1 & N2 & N3)). exists code. split; [exact Hc|]. split; [exact R|].
      assert (W : forall a b x y, a <= b -> near1 a x y -> near1 b x y) by (intros a b x y Hab (z & Hz); exists z; lra).
      split; [|split]; (eapply W; [|eassumption]); cbn [raised real3 vx vy vz]; lra.
  - intro NC. apply (C109_closure_unchanged_binary64 L ops ls order n codes sym tols (5 / 1000000000000000)); auto; try lra.
    intros code Hc. destruct (Forall2_in_l _ _ _ _ F2 (in_map _ _ _ Hc)) as (o & Ho & (R & _ & D)). exists o. auto.
Qed.
Print Assumptions C109_tables_run_binary64.

(** ** Examples *)
Local Ltac fe m e := let E := fresh "E" in let F := fresh "F" in destruct (f64_of_exact m e) as [E F]; [lia|lia|].
(** C104: -1/8 and -2^-70 with tolerance 2^-80; the second, reduced, is the number 1 itself, off by 2^-70 *)
Example C104_example (L : Libm) :
  @normalize_frac_vectors (@FNum L) [V (f64_of (-1) (-3)) (f64_of (-1) (-70)) (f64_of 7 (-2))] (V (f64_of 1 (-80)) (f64_of 1 (-80)) (f64_of 1 (-80))) =
    [V (f64_of 7 (-3)) (f64_of 1 0) (f64_of 3 (-2))] /\
  exists z, 0 < Rabs (B2R (f64_of 1 0) - (B2R (f64_of (-1) (-70)) - IZR z)) <= bpow radix2 (-53).
Proof.
  split.
  - unfold normalize_frac_vectors, normalize_vec, vmap2. cbn [map vx vy vz]. f_equal. f_equal; apply f64_eq; vm_compute; reflexivity.
  - exists (-1)%Z. fe 1%Z 0%Z. fe (-1)%Z (-70)%Z. rewrite E, E0. change (bpow radix2 0) with 1. pose proof (bpow_gt_0 radix2 (-70)). assert (bpow radix2 (-70) <= bpow radix2 (-53)) by (apply bpow_le; lia).
    rewrite Rabs_pos_eq; lra.
Qed.
(** C105, C106: the screw axis 4_1 applied to 1/8, 1/4, 2/3 rounded, and compared with itself *)
Definition screw {L : Libm} : @symmop (@FNum L) := SymmOp (N := @FNum L) (M 0 (-1) 0 1 0 0 0 0 1)%Z (V (f64_of 0 0) (f64_of 0 0) (f64_of 1 (-2))).
Lemma screw_ok {L : Libm} e : (-1 <= e)%Z -> finite3 (translation (@screw L)) /\ within3 (bpow radix2 e) (real3 (translation (@screw L))).
Proof.
  intro He. fe 0%Z 0%Z. fe 1%Z (-2)%Z. split; [repeat split; assumption|]. pose proof (bpow_gt_0 radix2 e). assert (bpow radix2 (-2) <= bpow radix2 e) by (apply bpow_le; lia). pose proof (bpow_gt_0 radix2 (-2)).
  repeat split; cbn [screw translation real3 vx vy vz]; rewrite ?E, ?E0, ?Rmult_0_l, ?Rmult_1_l, ?Rabs_R0, ?Rabs_pos_eq; lra.
Qed.
Definition third_point : vec f64 := V (f64_of 1 (-3)) (f64_of 1 (-2)) (f64_of 6004799503160661 (-53)).
Lemma third_point_ok : finite3 third_point /\ within3 (bpow radix2 0) (real3 third_point).
Proof.
  fe 1%Z (-3)%Z. fe 1%Z (-2)%Z. fe 6004799503160661%Z (-53)%Z. split; [repeat split; assumption|].
  repeat split; cbn [third_point real3 vx vy vz]; rewrite ?E, ?E0, ?E1; change (bpow radix2 0) with 1; unfold bpow; cbn -[Rinv]; apply Rabs_le; lra.
Qed.
Example C105_example (L : Libm) :
  finite3 (@op_apply (@FNum L) screw third_point) /\
  close3 (bpow radix2 (-48)) (real3 (@op_apply (@FNum L) screw third_point)) (@op_apply RNum (real_op screw) (real3 third_point)) /\
  close3 (bpow radix2 (-48)) (real3 (translation (@op_mul (@FNum L) screw screw))) (translation (@op_mul RNum (real_op screw) (real_op screw))).
Proof.
  destruct (@screw_ok L 0 ltac:(lia)) as (A & B). destruct third_point_ok as (C & D).
  assert (EW : entries_within (- 2 ^ 0) (2 ^ 0) (rotation (@screw L))) by (unfold entries_within; cbn; lia).
  destruct (C105_apply_accurate_binary64 L screw third_point 0 0 ltac:(lia) ltac:(lia) EW A C B D) as (P & Q).
  destruct (C105_product_accurate_binary64 L screw screw 0 0 ltac:(lia) ltac:(lia) EW A A B B) as (_ & _ & R). exact (Logic.conj P (Logic.conj Q R)).
Qed.
Definition tol32 : vec f64 := V (f64_of 1 (-5)) (f64_of 1 (-5)) (f64_of 1 (-5)).
Lemma tol32_ok : finite3 tol32 /\ real3 tol32 = V (1 / 32) (1 / 32) (1 / 32).
Proof. fe 1%Z (-5)%Z. split; [repeat split; assumption|]. unfold real3, tol32. cbn [vx vy vz]. rewrite E. unfold bpow. cbn -[Rinv]. f_equal; lra. Qed.
Lemma tol32_x : B2R (vx tol32) = 1 / 32. Proof. exact (f_equal vx (proj2 tol32_ok)). Qed.
Lemma tol32_y : B2R (vy tol32) = 1 / 32. Proof. exact (f_equal vy (proj2 tol32_ok)). Qed.
Lemma tol32_z : B2R (vz tol32) = 1 / 32. Proof. exact (f_equal vz (proj2 tol32_ok)). Qed.
(** C106: the screw with its translation written as -3/4 is recognised, with 2/3 it is not *)
Example C106_example (L : Libm) :
  let other t := SymmOp (N := @FNum L) (M 0 (-1) 0 1 0 0 0 0 1)%Z (V (f64_of 0 0) (f64_of 0 0) t) in
  @is_approx_eq (@FNum L) screw (other (f64_of (-3) (-2))) tol32 = true /\ @is_approx_eq (@FNum L) screw (other (f64_of 6004799503160661 (-53))) tol32 = false.
Proof.
  intro other. fe 0%Z 0%Z. fe (-3)%Z (-2)%Z. fe 6004799503160661%Z (-53)%Z. destruct (@screw_ok L 1 ltac:(lia)) as (A & B). change (bpow radix2 1) with 2 in B.
  assert (W : forall t, is_finite t = true -> Rabs (B2R t) <= 2 -> finite3 (V (f64_of 0 0) (f64_of 0 0) t) /\ within3 2 (real3 (V (f64_of 0 0) (f64_of 0 0) t))).
  { intros t Ft Bt. split; [repeat split; assumption|]. repeat split; cbn [real3 vx vy vz]; [rewrite E, Rmult_0_l, Rabs_R0; lra|rewrite E, Rmult_0_l, Rabs_R0; lra|exact Bt]. }
  split.
  - destruct (W (f64_of (-3) (-2)) F0) as (C & D); [rewrite E0; unfold bpow; cbn -[Rinv]; apply Rabs_le; lra|].
    apply (proj2 (C106_is_approx_eq_binary64 L screw (other (f64_of (-3) (-2))) tol32 A C B D (proj1 tol32_ok) ltac:(rewrite tol32_x; lra) ltac:(rewrite tol32_y; lra) ltac:(rewrite tol32_z; lra))); [reflexivity|].
    rewrite (proj2 tol32_ok). unfold other. split; [|split]; cbn [screw translation real3 raised vx vy vz]; [exists 0%Z|exists 0%Z|exists 1%Z]; fe 1%Z (-2)%Z; rewrite ?E, ?E0, ?E2, ?Rmult_0_l; unfold bpow; cbn -[Rinv]; apply Rabs_def1; lra.
  - destruct (W (f64_of 6004799503160661 (-53)) F1) as (C & D); [rewrite E1; unfold bpow; cbn -[Rinv]; apply Rabs_le; lra|].
    apply not_true_is_false. intro H. apply (C106_is_approx_eq_binary64 L screw (other (f64_of 6004799503160661 (-53))) tol32 A C B D (proj1 tol32_ok)) in H; [|rewrite tol32_x; lra|rewrite tol32_y; lra|rewrite tol32_z; lra].
    destruct H as (_ & _ & _ & (z & Hz)). rewrite (proj2 tol32_ok) in Hz. unfold other in Hz. cbn [screw translation real3 raised vx vy vz] in Hz. fe 1%Z (-2)%Z. rewrite E1, E2 in Hz. unfold bpow in Hz. cbn -[Rinv] in Hz. apply Rabs_def2 in Hz.
    assert (-1 < z < 0)%Z by (split; apply lt_IZR; lra). lia.
Qed.
(** C107: 7/2 and 15/4 with tolerance 1/4 *)
Example C107_example (L : Libm) : @cust_eq (@FNum L) (f64_of 7 (-1)) (f64_of 15 (-2)) (f64_of 1 (-2)) = true /\
  @approx_equal (@FNum L) (f64_of 7 (-1)) (f64_of 15 (-2)) (f64_of 1 (-2)) = false /\ @approx_equal (@FNum L) (f64_of 7 (-1)) (f64_of 15 (-2)) (f64_of 3 (-3)) = true.
Proof.
  fe 7%Z (-1)%Z. fe 15%Z (-2)%Z. fe 1%Z (-2)%Z. fe 3%Z (-3)%Z. fe 5%Z (-4)%Z.
  assert (D : B2R (f64_of 7 (-1)) - B2R (f64_of 15 (-2)) = - (1 / 4)) by (rewrite E, E0; unfold bpow; cbn -[Rinv]; lra).
  assert (P : 1 <= bpow radix2 1000) by (change 1 with (bpow radix2 0); apply bpow_le; lia).
  split; [|split].
  - apply (C107_cust_eq_binary64 L _ _ _ 2 F F0 F1); [lia|rewrite E|rewrite E0|rewrite E1|rewrite D, E1]; unfold bpow; cbn -[Rinv]; apply Rabs_le; lra.
  - apply not_true_is_false. intro H. apply (C107_approx_equal_binary64 L _ _ _ F F0 F1) in H; [|rewrite D; apply Rabs_le; lra]. rewrite D, E1 in H. unfold bpow in H. cbn -[Rinv] in H. rewrite Rabs_Ropp, Rabs_pos_eq in H; lra.
  - apply (proj2 (C107_approx_equal_binary64 L _ _ _ F F0 F2 ltac:(rewrite D; apply Rabs_le; lra)) (f64_of 5 (-4)) F3). rewrite D, E2, E3, Rabs_Ropp, Rabs_pos_eq by lra. unfold bpow; cbn -[Rinv]; lra.
Qed.
(** C108, C109: all 230 groups with tolerance 1/32; and Fd-3m (227, written Fd-3m1 in the table) among them *)
Example C109_example (L : Libm) (HO : HashOrd) path : exists codes ops, tabulated Cubic 48 227 codes /\ map_res (@candidate_op (@FNum L) false) codes = Ok ops /\
  @identify_space_group (@FNum L) HO path ops Cubic tol32 = Ok (Some (227%Z, "Fd-3m1"%string)) /\ @from_generators (@FNum L) 1 ops tol32 = Ok ops.
Proof.
  destruct (find (fun e => (snd (fst e) =? 227)%Z) sg_entries) as [[[[ls order] n] codes]|] eqn:EF; [|vm_compute in EF; discriminate].
  pose proof EF as EF2. apply find_some in EF. destruct EF as [HI EN]. cbn [fst snd] in EN. apply Z.eqb_eq in EN. subst n.
  assert (EL : (ls, order) = (Cubic, 48%Z)).
  { assert (Q : option_map (fun e => fst (fst e)) (find (fun e => (snd (fst e) =? 227)%Z) sg_entries) = Some (Cubic, 48%Z)) by (vm_compute; reflexivity). rewrite EF2 in Q. cbn [option_map fst] in Q. now injection Q as -> ->. }
  injection EL as -> ->. clear EF2. apply sg_entries_In in HI. exists codes.
  destruct (C109_tables_run_binary64 L HO path Cubic 48 227 codes "Fd-3m1" tol32 1) as (ops & E1 & E2 & E3).
  - exact HI.
  - vm_compute. reflexivity.
  - exact (proj1 tol32_ok).
  - rewrite tol32_x. lra.
  - rewrite tol32_y. lra.
  - rewrite tol32_z. lra.
  - lia.
  - exists ops. split; [exact HI|]. split; [exact E1|]. split; [exact E2|]. apply E3. unfold not_closed. cbn. lia.
Qed.
