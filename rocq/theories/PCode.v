(** Decoded operations of the space group table *)
From Coq Require Import ZArith Reals String Ascii List Bool Lia Lra.
From Verif Require Import Num Mat Utils DataCore DataSG SymmOp Analyzer RInst Spec Spec2 RFacts PUtils.
Import ListNotations.
Open Scope Z_scope.

Lemma digit_last base d x : 0 < base -> 0 <= d < base -> digit base (x * base + d) 0 = d.
Proof. intros Hb Hd. unfold digit. cbn [Z.of_nat]. rewrite Z.pow_0_r, Z.div_1_r, Z.add_comm, Z.mod_add by lia. now apply Z.mod_small. Qed.
Lemma digit_shift base d x k : 0 < base -> 0 <= d < base -> digit base (x * base + d) (S k) = digit base x k.
Proof.
  intros Hb Hd. unfold digit. rewrite Nat2Z.inj_succ, Z.pow_succ_r by lia. rewrite <- Z.div_div by (try lia; apply Z.pow_pos_nonneg; lia).
  rewrite Z.div_add_l, (Z.div_small d), Z.add_0_r by lia. reflexivity.
Qed.
Lemma digit_mod base e n k : 0 < base -> (k < n)%nat -> digit base (e mod base ^ Z.of_nat n) k = digit base e k.
Proof.
  intros Hb Hk. unfold digit. set (q := Z.of_nat n). set (j := Z.of_nat k). assert (0 <= j < q) by (unfold q, j; lia).
  replace q with (j + (1 + (q - j - 1))) by lia. rewrite !Z.pow_add_r, Z.pow_1_r by lia.
  assert (0 < base ^ j) by (apply Z.pow_pos_nonneg; lia). assert (0 < base ^ (q - j - 1)) by (apply Z.pow_pos_nonneg; lia).
  rewrite (Z.rem_mul_r e) by nia. rewrite (Z.mul_comm (base ^ j)), Z.div_add, (Z.div_small (e mod _)), Z.add_0_l by (try lia; apply Z.mod_pos_bound; lia).
  rewrite (Z.rem_mul_r (e / base ^ j)) by lia. rewrite Z.mul_comm, Z.mod_add by lia. rewrite Z.mod_mod by lia. reflexivity.
Qed.
Ltac digits_of H :=
  unfold digits_value in H; cbn [fold_left] in H;
  repeat (rewrite <- (digit_mod _ _ _ _ ltac:(lia)) ; [|lia]).
Lemma digits3 e a b c d f g h i j : digits_ok 3 [a; b; c; d; f; g; h; i; j] -> digits_value 3 [a; b; c; d; f; g; h; i; j] = e mod 3 ^ 9 ->
  code_rotation e = M (a - 1) (b - 1) (c - 1) (d - 1) (f - 1) (g - 1) (h - 1) (i - 1) (j - 1).
Proof.
  intros HO HV. unfold digits_ok in HO. repeat match goal with H : Forall _ (_ :: _) |- _ => inversion H; clear H; subst end.
  unfold digits_value in HV; cbn [fold_left] in HV. unfold code_rotation.
  rewrite <- (digit_mod 3 e 9 8), <- (digit_mod 3 e 9 7), <- (digit_mod 3 e 9 6), <- (digit_mod 3 e 9 5), <- (digit_mod 3 e 9 4),
    <- (digit_mod 3 e 9 3), <- (digit_mod 3 e 9 2), <- (digit_mod 3 e 9 1), <- (digit_mod 3 e 9 0) by lia.
  change (Z.of_nat 9) with 9. rewrite <- HV. rewrite !digit_shift, !digit_last by lia. reflexivity.
Qed.
Lemma digits8 e a b c : digits_ok 8 [a; b; c] -> digits_value 8 [a; b; c] = e mod 8 ^ 3 ->
  digit 8 e 2 = a /\ digit 8 e 1 = b /\ digit 8 e 0 = c.
Proof.
  intros HO HV. unfold digits_ok in HO. repeat match goal with H : Forall _ (_ :: _) |- _ => inversion H; clear H; subst end.
  unfold digits_value in HV; cbn [fold_left] in HV.
  rewrite <- (digit_mod 8 e 3 2), <- (digit_mod 8 e 3 1), <- (digit_mod 8 e 3 0) by lia.
  change (Z.of_nat 3) with 3. rewrite <- HV. rewrite !digit_shift, !digit_last by lia. auto.
Qed.
Lemma tmap_twelfths d : 0 <= d < 8 -> tmap d = twelfths d.
Proof.
  intro H. assert (d = 0 \/ d = 1 \/ d = 2 \/ d = 3 \/ d = 4 \/ d = 5 \/ d = 6 \/ d = 7) as Q by lia.
  repeat destruct Q as [->|Q]; subst; reflexivity.
Qed.
Lemma decode_code e : 0 <= e ->
  let r := code_rotation e in let t := code_translation e in
  decode_spg_op e = Ok ([m11 r; m12 r; m13 r; m21 r; m22 r; m23 r; m31 r; m32 r; m33 r], [vx t; vy t; vz t]).
Proof.
  intros He r t. destruct (decode_spg_op_spec e He) as (rs & ts & E & L9 & L3 & O3 & O8 & V3 & V8). rewrite E. clear E.
  do 9 (destruct rs as [|? rs]; [discriminate L9|]). destruct rs; [|discriminate L9].
  do 3 (destruct ts as [|? ts]; [discriminate L3|]). destruct ts; [|discriminate L3].
  subst r t. rewrite (digits3 e _ _ _ _ _ _ _ _ _ O3 V3). unfold code_translation. change 19683 with (3 ^ 9). cbv zeta.
  destruct (digits8 _ _ _ _ O8 V8) as (-> & -> & ->).
  unfold digits_ok in O8. repeat match goal with H : Forall _ (_ :: _) |- _ => inversion H; clear H; subst end.
  cbn [map m11 m12 m13 m21 m22 m23 m31 m32 m33 vx vy vz]. rewrite !tmap_twelfths by assumption. reflexivity.
Qed.
Lemma code_entries e : 0 <= e -> entries_within (-1) 1 (code_rotation e).
Proof.
  intros He. assert (Q : forall k, -1 <= digit 3 e k - 1 <= 1).
  { intro k. unfold digit. pose proof (Z.mod_pos_bound (e / 3 ^ Z.of_nat k) 3). lia. }
  unfold entries_within, code_rotation. cbn. repeat split; apply Q.
Qed.
Lemma i8_cycled m : entries_within (-1) 1 m ->
  i8_mmul (i8_mmul c_to_a_transformation_inv m) c_to_a_transformation = cycled_mat m.
Proof.
  intros H. destruct m as [a b c d e f g h i]. unfold entries_within in H. cbn in H.
  assert (W : forall x, -1 <= x <= 1 -> wrap_i8 x = x)
    by (intros x Hx; assert (x = -1 \/ x = 0 \/ x = 1) as Q by lia; destruct Q as [->|[->| ->]]; reflexivity).
  assert (I : i8_mmul c_to_a_transformation_inv (M a b c d e f g h i) = M d e f g h i a b c);
    [|rewrite I]; unfold i8_mmul, c_to_a_transformation, c_to_a_transformation_inv, cycled_mat, mmap;
    cbn [m11 m12 m13 m21 m22 m23 m31 m32 m33]; f_equal;
    match goal with |- wrap_i8 ?x = ?y => replace x with y by ring; apply W; lia end.
Qed.
Lemma candidate_code (a : bool) (e : Z) : 0 <= e ->
  @candidate_op RNum a e = Ok (SymmOp (N := RNum) (fst (code_op a e)) (in_twelfths (snd (code_op a e)))).
Proof.
  intro He. unfold candidate_op. rewrite (decode_code e He). cbn [bind mat_from_iter vec_from_iter]. unfold code_op.
  destruct a; cbn [fst snd].
  - f_equal. f_equal.
    + rewrite i8_cycled; [|exact (code_entries e He)]. reflexivity.
    + unfold mvmul, mcast, mmap, vdivs, vcast, vmap, c_to_a_transformation_inv, cycled_vec, in_twelfths. cbn. apply vec_ext; cbn; lra.
  - f_equal. 
Qed.
(** every tabulated code is a natural number below 3^9 8^3 *)
Definition codes_in_range : bool :=
  forallb (fun b => forallb (fun o => forallb (fun g => forallb (fun c => (0 <=? c) && (c <? 10077696)) (snd g)) (snd o)) (snd b)) SG_NUM_TO_FULL_MATRICES.
Lemma codes_checked : codes_in_range = true. Proof. vm_compute. reflexivity. Qed.
Lemma codes_range ls buckets order groups n codes c : In (ls, buckets) SG_NUM_TO_FULL_MATRICES -> In (order, groups) buckets ->
  In (n, codes) groups -> In c codes -> 0 <= c < 10077696.
Proof.
  intros H1 H2 H3 H4. pose proof (proj1 (forallb_forall _ _) codes_checked _ H1) as Q. pose proof (proj1 (forallb_forall _ _) Q _ H2) as Q1.
  pose proof (proj1 (forallb_forall _ _) Q1 _ H3) as Q2. pose proof (proj1 (forallb_forall _ _) Q2 _ H4) as Q3. cbn in Q3. lia.
Qed.
(** membership in the flattened table by computation *)
Definition entry_eqb (x y : lattice_system * Z * Z * list Z) : bool :=
  let '(l, o, n, c) := x in let '(l', o', n', c') := y in
  lattice_system_eqb l l' && (o =? o') && (n =? n') && (if list_eq_dec Z.eq_dec c c' then true else false).
Lemma existsb_entry x l : existsb (entry_eqb x) l = true -> In x l.
Proof.
  intro H. apply existsb_exists in H. destruct H as ([[[l2 o2] n2] c2] & HI & E). destruct x as [[[l1 o1] n1] c1]. cbn in E.
  apply andb_true_iff in E. destruct E as [E E4]. apply andb_true_iff in E. destruct E as [E E3]. apply andb_true_iff in E. destruct E as [E1 E2].
  apply Z.eqb_eq in E2, E3. destruct (list_eq_dec Z.eq_dec c1 c2); [|discriminate]. subst.
  destruct l1, l2; try discriminate; exact HI.
Qed.
