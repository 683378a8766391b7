(** Vectors and operations in binary64: products, comparison, candidates *)
From Coq Require Import ZArith Reals String Ascii List Bool Lia Lra Psatz Permutation.
From Flocq Require Import Core IEEE754.BinarySingleNaN.
From Verif Require Import Num Mat Utils SymmOp SpaceGroup DataSG Analyzer FInst RInst Spec Spec2 Spec7 RFacts PFloat PSymmOp PSpaceGroup PSpaceGroup2 PAnalyzer2 PCode PTables PIdentify PF64.
Import ListNotations.
Open Scope R_scope.

Lemma F_of_Z_fin z : (Z.abs z <= 2 ^ 53)%Z -> fin (F_of_Z z) /\ B2R (F_of_Z z) = IZR z.
Proof. intro H. destruct (F_of_Z_exact z H) as [A B]. split; assumption. Qed.
Lemma IZR_abs_pw z j : (0 <= j)%Z -> (Z.abs z <= 2 ^ j)%Z -> Rabs (IZR z) <= pw j.
Proof. intros Hj H. rewrite <- abs_IZR. apply (Rle_trans _ (IZR (2 ^ j))); [now apply IZR_le|]. apply Req_le. exact (IZR_Zpower radix2 j Hj). Qed.

Section F.
  Context {L : Libm}.
  Local Notation fop := (@symmop FNum).
  (** ** Matrix times vector *)
  Lemma mvmul_ok (m : mat f64) (v : vec f64) j e : (0 <= j <= 100)%Z -> (-200 <= e <= 100)%Z ->
    finite9 m -> finite3 v -> within9 (pw j) (real9 m) -> within3 (pw e) (real3 v) ->
    finite3 (@mvmul FNum m v) /\ within3 (pw (j + e + 2)) (real3 (@mvmul FNum m v)) /\ close3 (pw (j + e - 49)) (real3 (@mvmul FNum m v)) (Mapp (real9 m) (real3 v)).
  Proof.
    intros Hj He ((A1 & A2 & A3) & (A4 & A5 & A6) & (A7 & A8 & A9)) (F1 & F2 & F3) ((B1 & B2 & B3) & (B4 & B5 & B6) & (B7 & B8 & B9)) (G1 & G2 & G3).
    destruct m as [a b c d f g h i k], v as [x y z]. cbn in A1, A2, A3, A4, A5, A6, A7, A8, A9, F1, F2, F3, B1, B2, B3, B4, B5, B6, B7, B8, B9, G1, G2, G3.
    destruct (dot_ok a b c x y z j e) as (P1 & P2 & P3); auto. destruct (dot_ok d f g x y z j e) as (Q1 & Q2 & Q3); auto. destruct (dot_ok h i k x y z j e) as (R1 & R2 & R3); auto.
    split; [|split]; repeat split; assumption.
  Qed.
  Definition small_ints (j : Z) (r : mat Z) : Prop := entries_within (- 2 ^ j) (2 ^ j) r.
  Lemma mcast_ok (r : mat Z) j : (0 <= j <= 50)%Z -> small_ints j r -> finite9 (@mcast FNum r) /\ within9 (pw j) (real9 (@mcast FNum r)) /\ real9 (@mcast FNum r) = MofZ r.
  Proof.
    intros Hj H. assert (P : (2 ^ j <= 2 ^ 53)%Z) by (apply Z.pow_le_mono_r; lia). destruct r as [a b c d f g h i k]. unfold small_ints, entries_within in H. cbn in H.
    assert (Q : forall z, (- 2 ^ j <= z <= 2 ^ j)%Z -> is_finite (F_of_Z z) = true /\ B2R (F_of_Z z) = IZR z /\ Rabs (B2R (F_of_Z z)) <= pw j).
    { intros z Hz. destruct (F_of_Z_fin z ltac:(lia)) as (Q1 & Q2). split; [exact Q1|]. split; [exact Q2|]. rewrite Q2. apply IZR_abs_pw; lia. }
    destruct H as (H1 & H2 & H3 & H4 & H5 & H6 & H7 & H8 & H9).
    apply Q in H1, H2, H3, H4, H5, H6, H7, H8, H9. split; [|split].
    - repeat split; cbn; tauto.
    - repeat split; cbn; tauto.
    - unfold real9, mcast, MofZ, mmap. cbn. destruct H1 as (_ & -> & _), H2 as (_ & -> & _), H3 as (_ & -> & _), H4 as (_ & -> & _), H5 as (_ & -> & _), H6 as (_ & -> & _), H7 as (_ & -> & _), H8 as (_ & -> & _), H9 as (_ & -> & _). reflexivity.
  Qed.
  Lemma add3_ok (v w : vec f64) k : (-1000 <= k <= 1000)%Z -> finite3 v -> finite3 w -> within3 (pw k) (Vadd (real3 v) (real3 w)) ->
    finite3 (@vadd FNum v w) /\ within3 (pw k) (real3 (@vadd FNum v w)) /\ close3 (pw (k - 53)) (real3 (@vadd FNum v w)) (Vadd (real3 v) (real3 w)).
  Proof.
    intros Hk (F1 & F2 & F3) (G1 & G2 & G3) (H1 & H2 & H3). destruct v as [a b c], w as [x y z]. cbn in *.
    destruct (add_ok a x k Hk F1 G1 H1) as (P1 & E1). destruct (add_ok b y k Hk F2 G2 H2) as (P2 & E2). destruct (add_ok c z k Hk F3 G3 H3) as (P3 & E3).
    split; [repeat split; assumption|]. split; repeat split; cbn; rewrite ?E1, ?E2, ?E3; (apply RN_pw || apply RN_err); (lia || assumption).
  Qed.
  (** ** Applying an operation; the product of two operations *)
  Lemma op_apply_ok (o : fop) (x : vec f64) j e : (0 <= j <= 50)%Z -> (-200 <= e <= 100)%Z -> small_ints j (rotation o) ->
    finite3 (translation o) -> finite3 x -> within3 (pw e) (real3 (translation o)) -> within3 (pw e) (real3 x) ->
    finite3 (@op_apply FNum o x) /\ within3 (pw (j + e + 3)) (real3 (@op_apply FNum o x)) /\
    close3 (pw (j + e - 48)) (real3 (@op_apply FNum o x)) (Vadd (Mapp (MofZ (rotation o)) (real3 x)) (real3 (translation o))).
  Proof.
    intros Hj He Hr Ft Fx Bt Bx. destruct (mcast_ok (rotation o) j Hj Hr) as (M1 & M2 & M3).
    destruct (mvmul_ok (@mcast FNum (rotation o)) x j e ltac:(lia) He M1 Fx M2 Bx) as (V1 & V2 & V3). rewrite M3 in V3.
    unfold op_apply. set (w := @mvmul FNum (@mcast FNum (rotation o)) x) in *. set (t := translation o) in *.
    assert (PE : pw e <= pw (j + e)) by (apply bpow_le; lia). pose proof (bpow_gt_0 radix2 e) as PP.
    assert (S : within3 (pw (j + e + 3)) (Vadd (real3 w) (real3 t))).
    { replace (j + e + 3)%Z with (j + e + 2 + 1)%Z by lia. rewrite pw_S. assert (PQ : pw e <= pw (j + e + 2)) by (apply bpow_le; lia). destruct V2 as (V2a & V2b & V2c), Bt as (Ba & Bb & Bc).
      repeat split; cbn [Vadd vx vy vz]; eapply Rle_trans; try apply Rabs_triang; lra. }
    destruct (add3_ok w t (j + e + 3) ltac:(lia) V1 Ft S) as (W1 & W2 & W3). split; [exact W1|]. split; [exact W2|].
    replace (j + e - 48)%Z with (j + e - 50 + 1 + 1)%Z by lia. replace (j + e - 49)%Z with (j + e - 50 + 1)%Z in V3 by lia. replace (j + e + 3 - 53)%Z with (j + e - 50)%Z in W3 by lia. rewrite !pw_S in *. pose proof (bpow_gt_0 radix2 (j + e - 50)).
    revert V3 W3. unfold close3. generalize (real3 (@vadd FNum w t)). intros s (V31 & V32 & V33) (W31 & W32 & W33). cbn [Vadd vx vy vz] in *. apply Rabs_le_inv in V31, V32, V33, W31, W32, W33.
    repeat split; apply Rabs_le; lra.
  Qed.
  Lemma op_mul_apply (a b : fop) : translation (@op_mul FNum a b) = @op_apply FNum b (translation a).
  Proof. reflexivity. Qed.

  (** ** Comparison *)
  Definition ok2 (o : fop) : Prop := finite3 (translation o) /\ within3 2 (real3 (translation o)).
  Definition tolF (t : vec f64) : Prop := finite3 t /\ 0 <= B2R (vx t) <= 1 / 4 /\ 0 <= B2R (vy t) <= 1 / 4 /\ 0 <= B2R (vz t) <= 1 / 4.
  Lemma is_approx_eq_F (a b : fop) t : @is_approx_eq FNum a b t =
    if zmat_eqb (rotation a) (rotation b) then
      if fdiff_within (vx (translation a)) (vx (translation b)) (vx t) then
        if fdiff_within (vy (translation a)) (vy (translation b)) (vy t) then fdiff_within (vz (translation a)) (vz (translation b)) (vz t) else false else false else false.
  Proof. reflexivity. Qed.
  Lemma approx_true (a b : fop) t : ok2 a -> ok2 b -> tolF t -> @is_approx_eq FNum a b t = true ->
    rotation a = rotation b /\ near3 (raised (1 / 1000000000000000) (real3 t)) (real3 (translation a)) (real3 (translation b)).
  Proof.
    intros ((A1 & A2 & A3) & (A4 & A5 & A6)) ((B1 & B2 & B3) & (B4 & B5 & B6)) ((T1 & T2 & T3) & T4 & T5 & T6) H. rewrite is_approx_eq_F in H.
    destruct (zmat_eqb (rotation a) (rotation b)) eqn:ER; [|discriminate]. apply zmat_eqb_spec in ER. split; [exact ER|].
    destruct (fdiff_within (vx (translation a)) _ _) eqn:E1; [|discriminate]. destruct (fdiff_within (vy (translation a)) _ _) eqn:E2; [|discriminate].
    split; [|split]; cbn; apply fdiff_true; auto; lra.
  Qed.
  Lemma approx_back (a b : fop) t : ok2 a -> ok2 b -> tolF t -> rotation a = rotation b ->
    near3 (raised (- (1 / 1000000000000000)) (real3 t)) (real3 (translation a)) (real3 (translation b)) -> @is_approx_eq FNum a b t = true.
  Proof.
    intros ((A1 & A2 & A3) & (A4 & A5 & A6)) ((B1 & B2 & B3) & (B4 & B5 & B6)) ((T1 & T2 & T3) & T4 & T5 & T6) ER (N1 & N2 & N3). rewrite is_approx_eq_F.
    apply zmat_eqb_spec in ER. rewrite ER. cbn in N1, N2, N3. rewrite (fdiff_back _ _ _ A1 B1 T1 A4 B4 (proj2 T4) N1), (fdiff_back _ _ _ A2 B2 T2 A5 B5 (proj2 T5) N2). exact (fdiff_back _ _ _ A3 B3 T3 A6 B6 (proj2 T6) N3).
  Qed.

  (** ** Candidates: within 2^-48 of the tabulated twelfths *)
  Lemma twelfths_bound d : (0 <= twelfths d <= 10)%Z.
  Proof. unfold twelfths. destruct d as [|p|p]; [cbn; lia| |cbn; lia]. do 3 (destruct p as [p|p|]; try (cbn; lia)). Qed.
  Lemma twelfth_F k : (0 <= k <= 10)%Z -> let q := @fdiv FNum (@fofZ FNum k) (@fofZ FNum 12) in fin q /\ Rabs (B2R q - IZR k / 12) <= pw (-53) /\ Rabs (B2R q) <= pw 0.
  Proof.
    intro Hk. cbn [fdiv fofZ FNum]. destruct (F_of_Z_fin k ltac:(lia)) as (F1 & E1). destruct (F_of_Z_fin 12 ltac:(lia)) as (F2 & E2).
    assert (S : Rabs (B2R (F_of_Z k) / B2R (F_of_Z 12)) <= pw 0).
    { rewrite E1, E2. change (pw 0) with 1. destruct Hk as [K1 K2]. apply IZR_le in K1, K2. apply Rabs_le. split; lra. }
    destruct (div_ok (F_of_Z k) (F_of_Z 12) 0 ltac:(lia) F1 ltac:(rewrite E2; lra) S) as (F3 & E3).
    pose proof (RN_err _ 0 ltac:(lia) S) as Q. pose proof (RN_pw _ 0 ltac:(lia) S) as Q2. rewrite <- E3 in Q, Q2. rewrite E1, E2 in Q. split; [exact F3|]. split; [exact Q|exact Q2].
  Qed.
  Lemma candidate_F (a : bool) (e : Z) : (0 <= e)%Z -> exists o, @candidate_op FNum a e = Ok o /\ rotation o = fst (code_op a e) /\
    finite3 (translation o) /\ within3 2 (real3 (translation o)) /\ close3 (pw (-48)) (real3 (translation o)) (in_twelfths (snd (code_op a e))).
  Proof.
    intro He. unfold candidate_op. rewrite (decode_code e He). cbn [bind mat_from_iter vec_from_iter]. eexists. split; [reflexivity|].
    set (t := code_translation e). set (w := @vdivs FNum _ _).
    assert (W : finite3 w /\ within3 (pw 0) (real3 w) /\ close3 (pw (-53)) (real3 w) (in_twelfths t)).
    { subst w t. unfold code_translation. set (tt := (e / 19683)%Z). pose proof (twelfths_bound (digit 8 tt 2)) as D1. pose proof (twelfths_bound (digit 8 tt 1)) as D2. pose proof (twelfths_bound (digit 8 tt 0)) as D3. cbv zeta. cbn [vx vy vz].
      destruct (twelfth_F _ D1) as (P1 & P2 & P3). destruct (twelfth_F _ D2) as (Q1 & Q2 & Q3). destruct (twelfth_F _ D3) as (R1 & R2 & R3).
      split; [|split]; repeat split; assumption. }
    clearbody w. destruct W as (W1 & W2 & W3). assert (P48 : pw (-53) <= pw (-49)) by (apply bpow_le; lia). assert (P47 : pw (-48) = 2 * pw (-49)) by (change (-48)%Z with (-49 + 1)%Z; apply pw_S). pose proof (bpow_gt_0 radix2 (-53)).
    assert (FIN : forall u : vec R, within3 (pw 0) (real3 w) -> close3 (pw (-53)) (real3 w) u -> within3 2 u).
    { intros u (X1 & X2 & X3) (Y1 & Y2 & Y3). change (pw 0) with 1 in *. assert (pw (-53) <= 1) by (change 1 with (pw 0); apply bpow_le; lia). apply Rabs_le_inv in X1, X2, X3, Y1, Y2, Y3. repeat split; apply Rabs_le; lra. }
    destruct a; unfold code_op; cbn [rotation translation fst snd].
    - split; [rewrite i8_cycled; [reflexivity|exact (code_entries e He)]|].
      destruct (mcast_ok c_to_a_transformation_inv 0 ltac:(lia)) as (M1 & M2 & M3); [unfold small_ints, entries_within, c_to_a_transformation_inv; cbn; lia|].
      destruct (mvmul_ok _ w 0 0 ltac:(lia) ltac:(lia) M1 W1 M2 W2) as (V1 & V2 & V3). rewrite M3 in V3. change (0 + 0 - 49)%Z with (-49)%Z in V3.
      set (s := @mvmul FNum _ _) in *. clearbody s. split; [exact V1|]. fold t.
      assert (EM : Mapp (MofZ c_to_a_transformation_inv) (real3 w) = cycled_vec (real3 w)) by (unfold c_to_a_transformation_inv, cycled_vec; apply vec_ext; cbn; lra). rewrite EM in V3.
      assert (ET : in_twelfths (cycled_vec t) = cycled_vec (in_twelfths t)) by reflexivity. rewrite ET.
      destruct W3 as (W31 & W32 & W33), V3 as (V31 & V32 & V33), W2 as (W21 & W22 & W23). cbn [cycled_vec vx vy vz] in *. assert (pw (-49) <= 1) by (change 1 with (pw 0); apply bpow_le; lia). change (pw 0) with 1 in *.
      clear - W31 W32 W33 V31 V32 V33 W21 W22 W23 P48 P47 H H0. set (s' := real3 s) in *. set (w' := real3 w) in *. set (t' := in_twelfths t) in *. clearbody s' w' t'.
      apply Rabs_le_inv in W31, W32, W33, V31, V32, V33, W21, W22, W23. unfold within3, close3. cbn [vx vy vz]. cbn [cycled_vec vx vy vz]. split; repeat split; apply Rabs_le; lra.
    - split; [reflexivity|]. split; [exact W1|]. fold t. split.
      + destruct W2 as (X1 & X2 & X3). change (pw 0) with 1 in *. repeat split; lra.
      + destruct W3 as (X1 & X2 & X3). repeat split; lra.
  Qed.

  (** ** Identification *)
  Definition near_cand (c : mat Z * vec Z) (o : fop) : Prop := rotation o = fst c /\ ok2 o /\ close3 (pw (-48)) (real3 (translation o)) (in_twelfths (snd c)).
  Lemma candidates_F a codes : (forall c, In c codes -> (0 <= c)%Z) -> exists cands, map_res (@candidate_op FNum a) codes = Ok cands /\ Forall2 near_cand (map (code_op a) codes) cands.
  Proof.
    induction codes as [|c codes IH]; intro H; [exists []; split; [reflexivity|constructor]|].
    destruct (candidate_F a c (H c (or_introl eq_refl))) as (o & E & Q1 & Q2 & Q3 & Q4). destruct IH as (cs & Ec & F2); [intros; apply H; now right|].
    exists (o :: cs). cbn [map_res map]. rewrite E. cbn [bind]. rewrite Ec. split; [reflexivity|]. constructor; [|exact F2]. split; [exact Q1|]. split; [split; assumption|exact Q4].
  Qed.
  Lemma pw48 : pw (-48) <= 4 / 1000000000000000. Proof. unfold pw, bpow. cbn -[Rdiv]. lra. Qed.
  Lemma near1_move t x y y' e t' : Rabs (y - y') <= e -> t + e <= t' -> near1 t x y -> near1 t' x y'.
  Proof. intros H Ht (z & Hz). exists z. apply Rabs_le_inv in H. apply Rabs_def2 in Hz. apply Rabs_def1; lra. Qed.
  Definition margin : R := 1 / 100000000000000.
  Lemma cand_matches (op o : fop) c t : near_cand c o -> ok2 op -> tolF t -> @is_approx_eq FNum op o t = true ->
    rotation op = fst c /\ near3 (raised margin (real3 t)) (real3 (translation op)) (in_twelfths (snd c)).
  Proof.
    intros (E & OK & (C1 & C2 & C3)) OP T H. destruct (approx_true _ _ _ OP OK T H) as (E2 & (N1 & N2 & N3)). split; [congruence|]. pose proof pw48. unfold margin.
    split; [|split]; eapply near1_move; try eassumption; cbn; lra.
  Qed.
  Lemma cand_back (op o : fop) c t : near_cand c o -> ok2 op -> tolF t -> rotation op = fst c -> near3 (raised (- margin) (real3 t)) (real3 (translation op)) (in_twelfths (snd c)) ->
    @is_approx_eq FNum op o t = true.
  Proof.
    intros (E & OK & (C1 & C2 & C3)) OP T ER (N1 & N2 & N3). apply approx_back; auto; [congruence|]. pose proof pw48. unfold margin in *. rewrite Rabs_minus_sym in C1, C2, C3.
    split; [|split]; eapply near1_move; try eassumption; cbn; lra.
  Qed.
  Definition matchesF (ops : list fop) (tols : vec f64) (g : Z * list Z) : bool :=
    match am_get Z.eqb (fst g) SG_NUM_TO_SYMBOL with
    | Some sym => match map_res (@candidate_op FNum (has_char "A"%char sym)) (snd g) with Ok cands => @all_found FNum ops cands tols | _ => false end
    | None => false
    end.
  Lemma loop_find_F ops tols groups :
    (forall n codes, In (n, codes) groups -> (exists sym, am_get Z.eqb n SG_NUM_TO_SYMBOL = Some sym) /\ forall c, In c codes -> (0 <= c)%Z) ->
    @identify_loop FNum ops tols groups =
    Ok (match find (matchesF ops tols) groups with
        | Some g => option_map (fun s => (fst g, s)) (am_get Z.eqb (fst g) SG_NUM_TO_SYMBOL) | None => None end).
  Proof.
    induction groups as [|[n codes] t IH]; intro H; [reflexivity|]. cbn [identify_loop find]. unfold matchesF at 1. cbn [fst snd].
    destruct (H n codes (or_introl eq_refl)) as [[sym E] HC]. rewrite E. cbn [of_opt bind].
    destruct (candidates_F (has_char "A"%char sym) codes HC) as (cs & Ec & _). rewrite Ec. cbn [bind].
    destruct (all_found ops cs tols).
    - cbn [fst]. rewrite E. reflexivity.
    - apply IH. intros m c Hm. apply H. now right.
  Qed.
  Lemma Forall2_in_l {A B} (P : A -> B -> Prop) l m a : Forall2 P l m -> In a l -> exists b, In b m /\ P a b.
  Proof. induction 1 as [|x y l m H F IH]; intros []; [subst; exists y; split; [now left|assumption]|]. destruct (IH H0) as (b & B1 & B2). exists b. split; [now right|exact B2]. Qed.
  Lemma Forall2_in_r {A B} (P : A -> B -> Prop) l m b : Forall2 P l m -> In b m -> exists a, In a l /\ P a b.
  Proof. induction 1 as [|x y l m H F IH]; intros []; [subst; exists x; split; [now left|assumption]|]. destruct (IH H0) as (a & B1 & B2). exists a. split; [now right|exact B2]. Qed.

  Section Tol.
    Variable tols : vec f64.
    Hypothesis TF : finite3 tols.
    Hypothesis T1 : margin < B2R (vx tols) <= 1 / 24 - margin.
    Hypothesis T2 : margin < B2R (vy tols) <= 1 / 24 - margin.
    Hypothesis T3 : margin < B2R (vz tols) <= 1 / 24 - margin.
    Lemma tolF_tols : tolF tols. Proof using TF T1 T2 T3. unfold margin in *. split; [exact TF|]. lra. Qed.
    Let U := raised margin (real3 tols).
    Lemma U1 : 0 < vx U <= 1 / 24. Proof using T1. unfold U, margin in *. cbn. lra. Qed.
    Lemma U2 : 0 < vy U <= 1 / 24. Proof using T2. unfold U, margin in *. cbn. lra. Qed.
    Lemma U3 : 0 < vz U <= 1 / 24. Proof using T3. unfold U, margin in *. cbn. lra. Qed.
    Lemma matchesF_true (ops : list fop) n codes : (forall o, In o ops -> ok2 o) -> (forall c, In c codes -> (0 <= c)%Z) -> matchesF ops tols (n, codes) = true -> matches (map real_op ops) U (n, codes) = true.
    Proof using TF T1 T2 T3.
      intros HO HC. unfold matchesF, matches. cbn [fst snd]. destruct (am_get Z.eqb n SG_NUM_TO_SYMBOL) as [sym|]; [|discriminate].
      destruct (candidates_F (has_char "A"%char sym) codes HC) as (cs & Ec & F2). rewrite Ec. intro H.
      apply (all_found_spec U U1 U2 U3). intros op Hop. apply in_map_iff in Hop. destruct Hop as (o & <- & Ho).
      unfold all_found in H. rewrite forallb_forall in H. specialize (H o Ho). apply existsb_exists in H. destruct H as (b & Hb & E).
      destruct (Forall2_in_r _ _ _ _ F2 Hb) as (c & Hc & NC). exists c. split; [exact Hc|]. exact (cand_matches o b c tols NC (HO o Ho) tolF_tols E).
    Qed.
    Lemma unique_F ls buckets order groups (ops : list fop) : In (ls, buckets) SG_NUM_TO_FULL_MATRICES -> In (order, groups) buckets ->
      NoDup (map (@rotation FNum) ops) -> (order = Z.of_nat (List.length ops) mod 256)%Z -> (forall o, In o ops -> ok2 o) ->
      forall g g', In g groups -> In g' groups -> matchesF ops tols g = true -> matchesF ops tols g' = true -> g = g'.
    Proof using TF T1 T2 T3.
      intros HB HG HN HL HO [n codes] [n' codes'] Hg Hg' M1 M2.
      apply matchesF_true in M1, M2; auto; try (intros c Hc; [apply (codes_range _ _ _ _ _ _ _ HB HG Hg Hc)] || intros c Hc; apply (codes_range _ _ _ _ _ _ _ HB HG Hg' Hc)).
      apply (bucket_unique U U1 U2 U3 ls buckets order groups (map real_op ops) HB HG); auto.
      - rewrite map_map. exact HN.
      - rewrite map_length. exact HL.
    Qed.
    Lemma identify_complete_F (HO : HashOrd) path (ops : list fop) ls order n codes sym :
      In (ls, order, n, codes) sg_entries -> am_get Z.eqb n SG_NUM_TO_SYMBOL = Some sym -> (forall o, In o ops -> ok2 o) ->
      NoDup (map (@rotation FNum) ops) -> List.length ops = List.length codes ->
      (forall op, In op ops -> exists c, In c (group_ops sym codes) /\ rotation op = fst c /\ near3 (raised (- margin) (real3 tols)) (real3 (translation op)) (in_twelfths (snd c))) ->
      @identify_space_group FNum HO path ops ls tols = Ok (Some (n, sym)).
    Proof using TF T1 T2 T3.
      intros HI ES HK HN HL HF. destruct (proj1 (sg_entries_In _ _ _ _) HI) as (buckets & groups & H1 & H2 & H3).
      destruct (entry_facts _ _ _ _ HI) as (sym' & ES' & _ & EO & BO & _).
      assert (EW : wrap_u8 (Z.of_nat (List.length ops)) = order) by (unfold wrap_u8; rewrite Z.mod_small; lia).
      unfold identify_space_group. rewrite EW, (am_get_nodup _ lattice_system_eqb_spec _ _ _ systems_nodup H1). cbn [of_opt bind].
      rewrite (am_get_nodup _ Z.eqb_eq _ _ _ (orders_nodup _ _ H1) H2). cbn [of_opt bind].
      assert (HW : forall n codes, In (n, codes) groups -> (exists sym, am_get Z.eqb n SG_NUM_TO_SYMBOL = Some sym) /\ forall c, In c codes -> (0 <= c)%Z).
      { intros m cs Hn. split.
        - destruct (entry_facts ls order m cs) as (s2 & E & _); [apply sg_entries_In; eauto|eauto].
        - intros c Hc. apply (codes_range _ _ _ _ _ _ _ H1 H2 Hn Hc). }
      pose proof (@hord_perm HO path _ groups) as P1. rewrite loop_find_F by (intros m c Hn; apply HW; exact (Permutation_in _ P1 Hn)).
      assert (HM : matchesF ops tols (n, codes) = true).
      { unfold matchesF. cbn [fst snd]. rewrite ES. destruct (candidates_F (has_char "A"%char sym) codes (proj2 (HW _ _ H3))) as (cs & Ec & F2). rewrite Ec.
        unfold all_found. apply forallb_forall. intros o Ho. apply existsb_exists. destruct (HF o Ho) as (c & Hc & ER & NE).
        destruct (Forall2_in_l _ _ _ _ F2 Hc) as (b & Hb & NC). exists b. split; [exact Hb|]. exact (cand_back o b c tols NC (HK o Ho) tolF_tols ER NE). }
      rewrite (find_perm _ (@hord HO path _ groups) groups P1).
      - destruct (find (matchesF ops tols) groups) as [g|] eqn:EF.
        + apply find_some in EF. destruct EF as [Hg Mg].
          rewrite (unique_F ls buckets order groups ops H1 H2 HN ltac:(unfold wrap_u8 in EW; lia) HK g (n, codes) Hg H3 Mg HM).
          cbn [fst]. rewrite ES. reflexivity.
        + pose proof (find_none _ _ EF _ H3). congruence.
      - intros g g' Hg Hg' M1 M2. apply (Permutation_in _ P1) in Hg, Hg'.
        exact (unique_F ls buckets order groups ops H1 H2 HN ltac:(unfold wrap_u8 in EW; lia) HK g g' Hg Hg' M1 M2).
    Qed.
    Lemma identify_any_order_F (HO HO' : HashOrd) path path' (ops : list fop) ls : NoDup (map (@rotation FNum) ops) -> (forall o, In o ops -> ok2 o) ->
      @identify_space_group FNum HO path ops ls tols = @identify_space_group FNum HO' path' ops ls tols.
    Proof using TF T1 T2 T3.
      intros HN HK. unfold identify_space_group. destruct (am_get lattice_system_eqb ls SG_NUM_TO_FULL_MATRICES) as [buckets|] eqn:E1; [|reflexivity].
      cbn [of_opt bind]. destruct (am_get Z.eqb (wrap_u8 (Z.of_nat (List.length ops))) buckets) as [groups|] eqn:E2; [|reflexivity]. cbn [of_opt bind].
      apply am_get_in in E1. destruct E1 as (ls' & Q1 & E1). apply lattice_system_eqb_spec in Q1. subst ls'.
      apply am_get_in in E2. destruct E2 as (order & Q2 & E2). apply Z.eqb_eq in Q2. symmetry in Q2.
      assert (HW : forall n codes, In (n, codes) groups -> (exists sym, am_get Z.eqb n SG_NUM_TO_SYMBOL = Some sym) /\ forall c, In c codes -> (0 <= c)%Z).
      { intros n codes Hn. split.
        - destruct (entry_facts ls order n codes) as (sym & E & _); [apply sg_entries_In; eauto|eauto].
        - intros c Hc. apply (codes_range _ _ _ _ _ _ _ E1 E2 Hn Hc). }
      pose proof (@hord_perm HO path _ groups) as P1. pose proof (@hord_perm HO' path' _ groups) as P2.
      rewrite !loop_find_F; [|intros n c Hn; apply HW; exact (Permutation_in _ P2 Hn)|intros n c Hn; apply HW; exact (Permutation_in _ P1 Hn)].
      rewrite (find_perm _ (@hord HO path _ groups) (@hord HO' path' _ groups)); [reflexivity| |].
      - apply (Permutation_trans P1). now apply Permutation_sym.
      - intros g g' Hg Hg' M1 M2. apply (Permutation_in _ P1) in Hg, Hg'.
        exact (unique_F _ _ _ _ _ E1 E2 HN Q2 HK _ _ Hg Hg' M1 M2).
    Qed.
    Lemma identify_sound_F (HO : HashOrd) path (ops : list fop) ls n sym : (forall o, In o ops -> ok2 o) ->
      @identify_space_group FNum HO path ops ls tols = Ok (Some (n, sym)) ->
      exists codes, In (ls, Z.of_nat (List.length ops) mod 256, n, codes)%Z sg_entries /\ am_get Z.eqb n SG_NUM_TO_SYMBOL = Some sym /\
        forall op, In op ops -> exists c, In c (group_ops sym codes) /\ rotation op = fst c /\ near3 U (real3 (translation op)) (in_twelfths (snd c)).
    Proof using TF T1 T2 T3.
      intros HK E. apply identify_some in E. destruct E as (buckets & groups & codes & E1 & E2 & HI & ES & HF).
      apply am_get_in in E1. destruct E1 as (ls' & Q1 & E1). apply lattice_system_eqb_spec in Q1. subst ls'.
      apply am_get_in in E2. destruct E2 as (order & Q2 & E2). apply Z.eqb_eq in Q2.
      exists codes. rewrite Q2. split; [apply sg_entries_In; eauto|]. split; [exact ES|]. intros op Hop. destruct (HF op Hop) as (code & c & Hc & Ec & EA).
      destruct (candidate_F (has_char "A"%char sym) code) as (o & Eo & R1 & R2 & R3 & R4); [apply (codes_range _ _ _ _ _ _ _ E1 E2 HI Hc)|]. rewrite Ec in Eo. injection Eo as ->.
      exists (code_op (has_char "A"%char sym) code). split; [now apply in_map|].
      exact (cand_matches op o _ tols (conj R1 (conj (conj R2 R3) R4)) (HK op Hop) tolF_tols EA).
    Qed.
  End Tol.
End F.
