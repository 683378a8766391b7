(** C01 - C08: utils.rs *)
From Coq Require Import ZArith Reals List Bool Lia Lra Permutation.
From Flocq Require Import Core IEEE754.BinarySingleNaN.
From Verif Require Import Num Mat Utils RInst FInst Spec RFacts PUtils PFloat.
Import ListNotations.
Open Scope R_scope.

(** C01.  Component [k] of vector number [i]: if it and its tolerance are finite and 0 <= tol <= 1 then the result
    is finite and lies between -tol and the machine number 1.0 - tol. *)
Theorem C01_normalize_range_binary64 :
  forall (L : Libm) (vs : list (vec f64)) (ts : vec f64) (i k : nat) (v : vec f64),
    nth_error vs i = Some v ->
    is_finite (vnth v k) = true -> is_finite (vnth ts k) = true -> 0 <= B2R (vnth ts k) <= 1 ->
    exists w, nth_error (@normalize_frac_vectors (@FNum L) vs ts) i = Some w /\
      is_finite (vnth w k) = true /\
      - B2R (vnth ts k) <= B2R (vnth w k) <= B2R (Bminus mode_NE (F_of_Z 1) (vnth ts k)).
Proof.
  intros L vs ts i k v Hv Fx Ft Bt. exists (@normalize_vec (@FNum L) v ts).
  split; [now apply (@normalize_F_nth L)|]. rewrite (@normalize_vec_vnth L). now apply (@normalize1_F_range L).
Qed.
Print Assumptions C01_normalize_range_binary64.

(** C02.  Same number of vectors, and each is the old one plus integers; component by component, the
    tolerance of that axis decides the representative. *)
Theorem C02_normalize_whole_periods :
  forall (vs : list (vec R)) (ts : vec R),
    length (@normalize_frac_vectors RNum vs ts) = length vs /\
    forall i v, nth_error vs i = Some v ->
      exists w n, nth_error (@normalize_frac_vectors RNum vs ts) i = Some w /\ w = Vadd v (VofZ n) /\
        forall k, 0 <= vnth ts k <= 1 -> - vnth ts k <= vnth w k <= 1 - vnth ts k.
Proof.
  intros vs ts. split; [apply normalize_vecs_length|]. intros i v Hv.
  destruct (normalize_vec_shift v ts) as [n Hn].
  exists (@normalize_vec RNum v ts), n. split; [now apply normalize_nth|]. split; [exact Hn|].
  intros k Hk. rewrite normalize_vec_vnth_R. now apply normalize1_range.
Qed.
Print Assumptions C02_normalize_whole_periods.
Example C02_example : exists w,
  nth_error (@normalize_frac_vectors RNum [V (7/2) (-1/4) 0; V (1/2) (9/10) (-3)] (V (1/10) (1/20) (1/5))) 1 = Some w /\
  w = V (1/2) (9/10) 0.
Proof.
  eexists. split; [reflexivity|].
  change (V (@normalize1 RNum (1/2) (1/10)) (@normalize1 RNum (9/10) (1/20)) (@normalize1 RNum (-3) (1/5)) = V (1/2) (9/10) 0).
  rewrite (normalize1_near (-3) (1/5) 0 (-3)) by (try apply Rabs_def1; lra).
  rewrite !normalize1_fix by lra. f_equal. lra.
Qed.

(** C03.  Idempotence, bit for bit, for every tolerance with 2^-54 < tol < 1. *)
Theorem C03_normalize_idempotent_binary64 :
  forall (L : Libm) (vs : list (vec f64)) (ts : vec f64),
    (forall v k, In v vs -> is_finite (vnth v k) = true /\ is_finite (vnth ts k) = true /\
                            bpow radix2 (-54) < B2R (vnth ts k) < 1) ->
    @normalize_frac_vectors (@FNum L) (@normalize_frac_vectors (@FNum L) vs ts) ts =
    @normalize_frac_vectors (@FNum L) vs ts.
Proof. intros L vs ts H. exact (@normalize_F_idem_list L vs ts H). Qed.
Print Assumptions C03_normalize_idempotent_binary64.

(** a concrete case: 7/4, -1/8, -2^-70 with tolerance 1/16 *)
Lemma tol16 : is_finite (f64_of 1 (-4)) = true /\ bpow radix2 (-54) < B2R (f64_of 1 (-4)) < 1.
Proof.
  destruct (f64_of_exact 1 (-4)) as [E F]; try lia. rewrite E, F. split; auto. rewrite Rmult_1_l.
  split; [apply bpow_lt; lia|]. change 1 with (bpow radix2 0). apply bpow_lt. lia.
Qed.
Example C03_example (L : Libm) :
  let vs := [V (f64_of 7 (-2)) (f64_of (-1) (-3)) (f64_of (-1) (-70))] in
  let ts := V (f64_of 1 (-4)) (f64_of 1 (-4)) (f64_of 1 (-4)) in
  (forall v k, In v vs -> is_finite (vnth v k) = true /\ is_finite (vnth ts k) = true /\
                          bpow radix2 (-54) < B2R (vnth ts k) < 1) /\
  @normalize_frac_vectors (@FNum L) vs ts = [V (f64_of 3 (-2)) (f64_of 7 (-3)) (f64_of (-1) (-70))].
Proof.
  cbv zeta. split.
  - intros v k [<-|[]]. destruct k as [|[|]]; cbn [vnth vx vy vz]; (split; [apply f64_of_exact; lia|exact tol16]).
  - unfold normalize_frac_vectors, normalize_vec, vmap2. cbn [map vx vy vz].
    f_equal. f_equal; apply f64_eq; vm_compute; reflexivity.
Qed.
(** the same case for C01 *)
Example C01_example (L : Libm) : exists w,
  nth_error (@normalize_frac_vectors (@FNum L) [V (f64_of 7 (-2)) (f64_of (-1) (-3)) (f64_of (-1) (-70))]
               (V (f64_of 1 (-4)) (f64_of 1 (-4)) (f64_of 1 (-4)))) 0 = Some w /\
  - B2R (f64_of 1 (-4)) <= B2R (vx w) <= B2R (Bminus mode_NE (F_of_Z 1) (f64_of 1 (-4))).
Proof.
  pose proof tol16 as [F B]. pose proof (bpow_gt_0 radix2 (-54)).
  destruct (C01_normalize_range_binary64 L [V (f64_of 7 (-2)) (f64_of (-1) (-3)) (f64_of (-1) (-70))]
              (V (f64_of 1 (-4)) (f64_of 1 (-4)) (f64_of 1 (-4))) 0 0 _ eq_refl) as (w & E & _ & B').
  - apply f64_of_exact; lia.
  - exact F.
  - cbn [vnth vx]. lra.
  - exists w. split; auto.
Qed.

(** The unrestricted form of C03 (0 <= tol <= 1) is false: with tol = 0 a tiny negative number first becomes
    exactly 1.0 and then 0.0. *)
Theorem C64_normalize_idempotent_all_tolerances_refuted :
  exists (x t : f64), is_finite x = true /\ is_finite t = true /\ 0 <= B2R t <= 1 /\
    forall L : Libm,
      let once := @normalize_frac_vectors (@FNum L) [V x x x] (V t t t) in
      @normalize_frac_vectors (@FNum L) once (V t t t) <> once.
Proof.
  exists (f64_of (-1) (-70)), (F_of_Z 0). split; [apply f64_of_exact; lia|].
  destruct (F_of_Z_exact 0) as [E F]; [cbn; lia|]. split; [exact F|]. split.
  - rewrite E. lra.
  - intros L once H. apply (f_equal (fun l => match l with v :: _ => Beqb (vx v) (F_of_Z 1) | [] => false end)) in H.
    vm_compute in H. discriminate.
Qed.
Print Assumptions C64_normalize_idempotent_all_tolerances_refuted.

(** C04.  Components that differ by a whole number of periods get the same representative, unless the
    representatives are the two ends -tol and 1-tol of the cell. *)
Theorem C04_normalize_canonical :
  forall (v w ts : vec R), Vcongr v w -> forall k, 0 <= vnth ts k < 1 ->
    let x := vnth (@normalize_vec RNum v ts) k in
    let y := vnth (@normalize_vec RNum w ts) k in
    x = y \/ (x = - vnth ts k /\ y = 1 - vnth ts k) \/ (x = 1 - vnth ts k /\ y = - vnth ts k).
Proof.
  intros v w ts [n ->] k Hk. cbv zeta. rewrite !normalize_vec_vnth_R. apply normalize1_canonical; auto.
  destruct k as [|[|]]; cbn; [exists (vx n)|exists (vy n)|exists (vz n)]; ring.
Qed.
Print Assumptions C04_normalize_canonical.
(** the exception is real: 3/4 and -1/4 are congruent and both are kept for tol = 1/4 *)
Example C04_boundary_exception :
  Vcongr (V (3/4) 0 0) (V (-1/4) 0 0) /\
  vx (@normalize_vec RNum (V (3/4) 0 0) (V (1/4) (1/4) (1/4))) = 3/4 /\
  vx (@normalize_vec RNum (V (-1/4) 0 0) (V (1/4) (1/4) (1/4))) = -1/4.
Proof.
  split; [exists (V 1 0 0)%Z; apply vec_ext; cbn; lra|].
  split; cbn [normalize_vec vmap2 vx]; rewrite normalize1_fix; lra.
Qed.
(** and away from it the representatives agree: 7/2 and -1/2 with tol = 1/10 *)
Example C04_example : Vcongr (V (7/2) 0 0) (V (-1/2) 0 0) /\
  vx (@normalize_vec RNum (V (7/2) 0 0) (V (1/10) (1/10) (1/10))) =
  vx (@normalize_vec RNum (V (-1/2) 0 0) (V (1/10) (1/10) (1/10))).
Proof.
  assert (C : Vcongr (V (7/2) 0 0) (V (-1/2) 0 0)) by (exists (V 4 0 0)%Z; apply vec_ext; cbn; lra).
  split; auto. destruct (C04_normalize_canonical _ _ (V (1/10) (1/10) (1/10)) C 0) as [E|[[E E']|[E E']]];
    cbn [vnth vx] in *; try lra; exfalso.
  - cbn [normalize_vec vmap2 vx] in E. destruct (normalize1_int (7/2) (1/10)) as [z Hz]. rewrite E in Hz.
    assert (IZR (5 * z) = IZR (-18)) by (rewrite mult_IZR; lra). apply eq_IZR in H. lia.
  - cbn [normalize_vec vmap2 vx] in E. destruct (normalize1_int (7/2) (1/10)) as [z Hz]. rewrite E in Hz.
    assert (IZR (5 * z) = IZR (-13)) by (rewrite mult_IZR; lra). apply eq_IZR in H. lia.
Qed.

(** C05. *)
Theorem C05_comparisons_decide :
  (forall a b eps : R, @cust_eq RNum a b eps = true <-> Rabs (a - b) <= eps) /\
  (forall a b tol : R, @approx_equal RNum a b tol = true <-> Rabs (a - b) < tol) /\
  (forall a b eps : R, @cust_eq RNum a b eps = @cust_eq RNum b a eps) /\
  (forall a b tol : R, @approx_equal RNum a b tol = @approx_equal RNum b a tol) /\
  (forall (a b : mat R) (ts : list R), (9 <= length ts)%nat ->
     exists r, @compare_matrices RNum a b ts = Ok r /\
       (r = true <-> forall k, (k < 9)%nat -> Rabs (mnth a k - mnth b k) <= nth k ts 0)) /\
  (forall (a b : list R) (tol : R),
     (length a <> length b -> @approx_equal_iter RNum a b tol = Panic PLenMismatch) /\
     (length a = length b -> exists r, @approx_equal_iter RNum a b tol = Ok r /\
        (r = true <-> forall i, (i < length a)%nat -> Rabs (nth i a 0 - nth i b 0) < tol))).
Proof.
  split; [exact cust_eq_spec|]. split; [exact approx_equal_spec|]. split; [exact cust_eq_sym|].
  split; [exact approx_equal_sym|]. split; [|exact approx_equal_iter_spec].
  intros a b ts H. destruct (compare_matrices_spec a b ts H) as (r & E & S). exists r. split; auto.
  rewrite S. split.
  - intros (H0 & H1 & H2 & H3 & H4 & H5 & H6 & H7 & H8) k Hk.
    do 9 (destruct k as [|k]; [assumption|]). lia.
  - intro Q. repeat split; [apply (Q 0%nat)|apply (Q 1%nat)|apply (Q 2%nat)|apply (Q 3%nat)|apply (Q 4%nat)
      |apply (Q 5%nat)|apply (Q 6%nat)|apply (Q 7%nat)|apply (Q 8%nat)]; lia.
Qed.
Print Assumptions C05_comparisons_decide.
Example C05_example : @cust_eq RNum 1 (3/2) (1/2) = true /\ @approx_equal RNum 1 (3/2) (1/2) = false.
Proof.
  split; [apply C05_comparisons_decide; apply Rabs_le; lra|].
  apply not_true_is_false. intro H. apply C05_comparisons_decide in H. apply Rabs_def2 in H. lra.
Qed.

(** C06. *)
Theorem C06_num_negative_zero_counts :
  forall (l : list R) (eps : R), (length l <= 127)%nat -> 0 <= eps ->
  forall (d1 : forall x, {x < - eps} + {~ x < - eps}) (d2 : forall x, {- eps <= x < eps} + {~ (- eps <= x < eps)})
         (d3 : forall x, {eps <= x} + {~ eps <= x}),
    let neg := count_where (fun x => x < - eps) d1 l in
    let zero := count_where (fun x => - eps <= x < eps) d2 l in
    @num_negative_zero RNum l eps = (neg, zero) /\
    (neg + zero + count_where (fun x => (eps <= x)%R) d3 l = Z.of_nat (length l))%Z /\
    forall l', Permutation l l' -> @num_negative_zero RNum l' eps = (neg, zero).
Proof.
  intros l eps H He d1 d2 d3. cbv zeta. rewrite <- (nnz_count l eps H d1 d2). split; [reflexivity|].
  split; [apply count_where_partition; auto|]. intros l' Hp. symmetry. now apply nnz_perm.
Qed.
Print Assumptions C06_num_negative_zero_counts.
Example C06_example : @num_negative_zero RNum [-1; 0; 2; 1/20; -3] (1/10) = (2, 2)%Z.
Proof.
  destruct (C06_num_negative_zero_counts [-1; 0; 2; 1/20; -3] (1/10) ltac:(cbn; lia) ltac:(lra)
              (fun x => Rlt_dec x (- (1/10))) (dec_mid (1/10)) (fun x => Rle_dec (1/10) x)) as (-> & _).
  cbn [count_where].
  repeat match goal with |- context [if ?d then _ else _] => destruct d; try lra end; reflexivity.
Qed.

(** C07. *)
Theorem C07_decode_positional :
  forall (base sub : Z), (1 <= base <= 128 -> -128 <= sub <= 127 -> -128 <= - sub -> base - 1 - sub <= 127 ->
  (forall e len, 0 <= e -> 0 <= len ->
     exists ds, decode e base sub len = Ok (map (fun d => d - sub) ds) /\
       Z.of_nat (length ds) = len /\ digits_ok base ds /\ digits_value base ds = e mod base ^ len) /\
  (forall e e' len, 0 <= len -> 0 <= e < base ^ len -> 0 <= e' < base ^ len ->
     decode e base sub len = decode e' base sub len -> e = e') /\
  (forall ds, digits_ok base ds ->
     0 <= digits_value base ds < base ^ Z.of_nat (length ds) /\
     decode (digits_value base ds) base sub (Z.of_nat (length ds)) = Ok (map (fun d => d - sub) ds)))%Z.
Proof.
  intros base sub Hb Hs H1 H2. assert (Hno : no_i8_overflow base sub) by (unfold no_i8_overflow; lia).
  split; [|split].
  - intros e len He Hl. destruct (decode_spec e base sub len Hno He Hl) as (ds & E & L & O & V).
    exists ds. repeat split; auto. lia.
  - intros e e' len Hl He He' E.
    destruct (decode_spec e base sub len Hno ltac:(lia) Hl) as (ds & E1 & L & O & V).
    destruct (decode_spec e' base sub len Hno ltac:(lia) Hl) as (ds' & E1' & L' & O' & V').
    rewrite E1, E1' in E. injection E as E.
    assert (ds = ds').
    { clear -E. revert ds' E. induction ds as [|a ds IH]; intros [|b ds'] E; try discriminate; auto.
      injection E as E1 E2. f_equal; auto. lia. }
    subst ds'. rewrite Z.mod_small in V, V' by auto. congruence.
  - intros ds Hd. split; [apply digits_value_bound; auto; lia|]. apply decode_surj; auto.
Qed.
Print Assumptions C07_decode_positional.
Example C07_example : decode 16484 3 1 9 = Ok [1; 0; 0; 0; 1; 0; 0; 0; 1]%Z /\ digits_value 3 [2;1;1;1;2;1;1;1;2]%Z = 16484%Z.
Proof. split; vm_compute; reflexivity. Qed.

(** C08. *)
Theorem C08_decode_spg_op :
  (forall n, 0 <= n < 2 ^ 32 -> exists r t, decode_spg_op n = Ok (r, t) /\
     length r = 9%nat /\ length t = 3%nat /\ Forall (fun x => -1 <= x <= 1) r /\
     Forall (fun x => In x [0; 2; 3; 4; 6; 8; 9; 10]) t)%Z /\
  (forall n m, 0 <= n < 3 ^ 9 * 8 ^ 3 -> 0 <= m < 3 ^ 9 * 8 ^ 3 -> decode_spg_op n = decode_spg_op m -> n = m)%Z /\
  (forall r t, length r = 9%nat -> length t = 3%nat -> Forall (fun x => -1 <= x <= 1)%Z r ->
     Forall (fun x => In x [0; 2; 3; 4; 6; 8; 9; 10]%Z) t ->
     exists n, (0 <= n < 3 ^ 9 * 8 ^ 3)%Z /\ decode_spg_op n = Ok (r, t)).
Proof.
  split; [|split; [exact decode_spg_op_inj|exact decode_spg_op_surj]].
  intros n Hn. destruct (decode_spg_op_spec n ltac:(lia)) as (r & t & E & Lr & Lt & Or & Ot & _).
  exists (map (fun d => d - 1)%Z r), (map tmap t). rewrite !map_length. repeat split; auto.
  - apply Forall_map. eapply Forall_impl; [|exact Or]. cbn. intros; lia.
  - apply Forall_map. eapply Forall_impl; [|exact Ot]. cbn beta. intros; now apply tmap_In.
Qed.
Print Assumptions C08_decode_spg_op.
Example C08_example : decode_spg_op (16484 + 19683 * 8) = Ok ([1;0;0;0;1;0;0;0;1], [0;2;0])%Z.
Proof. vm_compute. reflexivity. Qed.
