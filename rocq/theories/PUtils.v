(** Proofs about utils.rs (exact arithmetic and integers). *)
From Coq Require Import ZArith Reals List Bool Lia Lra Psatz Permutation.
From Flocq Require Import Core.Raux.
From Verif Require Import Num Mat Utils RInst Spec RFacts.
Import ListNotations.
Open Scope R_scope.

(** ** normalize *)
Lemma normalize1_int (x t : R) : is_int (@normalize1 RNum x t - x).
Proof.
  unfold normalize1. cbn [frem1 RNum]. set (z := Ztrunc x).
  destruct (@flt RNum _ _).
  - exists (1 - z)%Z. rewrite minus_IZR. cbn. ring.
  - destruct (@flt RNum _ _).
    + exists (- z - 1)%Z. rewrite minus_IZR, opp_IZR. cbn. ring.
    + exists (- z)%Z. rewrite opp_IZR. cbn. ring.
Qed.

Lemma normalize1_range (x t : R) : 0 <= t <= 1 -> - t <= @normalize1 RNum x t <= 1 - t.
Proof.
  intros Ht. unfold normalize1. cbn [frem1 RNum].
  pose proof (rem1_bounds x) as Hb. set (y := x - _) in *.
  destruct (@flt RNum y _) eqn:E1.
  - apply flt_true in E1. cbn in *. lra.
  - apply flt_false in E1. destruct (@flt RNum _ y) eqn:E2.
    + apply flt_true in E2. cbn in *. lra.
    + apply flt_false in E2. cbn in *. lra.
Qed.

Lemma normalize1_congr (x t : R) : congr1 (@normalize1 RNum x t) x.
Proof. apply normalize1_int. Qed.

(** inside the open interval normalisation is the identity *)
Lemma normalize1_fix (x t : R) : -1 < x < 1 -> - t <= x <= 1 - t -> @normalize1 RNum x t = x.
Proof.
  intros Hb Hx. unfold normalize1. cbn [frem1 RNum]. rewrite (Ztrunc_small x Hb), Rminus_0_r.
  replace (@flt RNum x _) with false; [replace (@flt RNum _ x) with false; [reflexivity|]|];
    symmetry; apply flt_false; cbn; lra.
Qed.

(** the value closest to an integer: if x is within d < t of an integer, normalisation gives that difference *)
Lemma normalize1_near (x t d : R) (z : Z) :
  0 < t <= / 2 -> Rabs (x - IZR z) < t -> @normalize1 RNum x t = x - IZR z.
Proof.
  intros Ht Hd. pose proof (normalize1_range x t ltac:(lra)) as Hr.
  pose proof (normalize1_int x t) as [k Hk].
  set (y := @normalize1 RNum x t) in *. clearbody y.
  apply Rabs_def2 in Hd.
  assert (H : y - (x - IZR z) = 0).
  { apply is_int_small.
    - exists (k + z)%Z. rewrite plus_IZR. lra.
    - lra. }
  lra.
Qed.

(** list form *)
Lemma normalize_vecs_length vs ts : length (@normalize_frac_vectors RNum vs ts) = length vs.
Proof. apply map_length. Qed.

Definition shift_of (x t : R) : Z := Ztrunc (@normalize1 RNum x t - x).
Lemma shift_of_spec x t : @normalize1 RNum x t = x + IZR (shift_of x t).
Proof.
  unfold shift_of. destruct (normalize1_int x t) as [z Hz]. rewrite Hz, Ztrunc_IZR. lra.
Qed.
Lemma normalize_vec_shift (v ts : vec R) :
  exists n : vec Z, @normalize_vec RNum v ts = Vadd v (VofZ n).
Proof.
  exists (V (shift_of (vx v) (vx ts)) (shift_of (vy v) (vy ts)) (shift_of (vz v) (vz ts))).
  unfold normalize_vec, vmap2, Vadd, VofZ. cbn [vx vy vz]. rewrite !shift_of_spec. reflexivity.
Qed.

Lemma normalize_frac_vectors_spec (vs : list (vec R)) (ts : vec R) :
  exists ns : list (vec Z),
    length ns = length vs /\
    @normalize_frac_vectors RNum vs ts = map (fun p => Vadd (fst p) (VofZ (snd p))) (combine vs ns).
Proof.
  induction vs as [|v vs [ns [Hl IH]]].
  - exists []. split; reflexivity.
  - destruct (normalize_vec_shift v ts) as [n Hn]. exists (n :: ns). split; [cbn; auto|].
    cbn in *. rewrite Hn. f_equal. exact IH.
Qed.

Lemma normalize_vec_range (v ts : vec R) :
  (0 <= vx ts <= 1 -> - vx ts <= vx (@normalize_vec RNum v ts) <= 1 - vx ts) /\
  (0 <= vy ts <= 1 -> - vy ts <= vy (@normalize_vec RNum v ts) <= 1 - vy ts) /\
  (0 <= vz ts <= 1 -> - vz ts <= vz (@normalize_vec RNum v ts) <= 1 - vz ts).
Proof. repeat split; intros; cbn; apply normalize1_range; auto. Qed.

Lemma normalize1_canonical (x y t : R) :
  0 <= t < 1 -> congr1 x y ->
  @normalize1 RNum x t = @normalize1 RNum y t \/
  (@normalize1 RNum x t = - t /\ @normalize1 RNum y t = 1 - t) \/
  (@normalize1 RNum x t = 1 - t /\ @normalize1 RNum y t = - t).
Proof.
  intros Ht [z Hz].
  destruct (normalize1_int x t) as [a Ha], (normalize1_int y t) as [b Hb].
  pose proof (normalize1_range x t ltac:(lra)). pose proof (normalize1_range y t ltac:(lra)).
  set (u := @normalize1 RNum x t) in *. set (v := @normalize1 RNum y t) in *. clearbody u v.
  assert (E : u - v = IZR (a - b + z)) by (rewrite plus_IZR, minus_IZR; lra).
  assert (-1 <= u - v <= 1) as [B1 B2] by lra. rewrite E in B1, B2.
  apply le_IZR in B1, B2.
  assert (C : (a - b + z = 0 \/ a - b + z = 1 \/ a - b + z = -1)%Z) by lia.
  destruct C as [C|[C|C]]; rewrite C in E; lra.
Qed.

(** ** comparisons *)
Lemma cust_eq_spec (a b e : R) : @cust_eq RNum a b e = true <-> Rabs (a - b) <= e.
Proof.
  unfold cust_eq. rewrite negb_true_iff, orb_false_iff, !flt_false. cbn.
  split; intro H; [apply Rabs_le; lra|]. apply Rabs_le_inv in H. lra.
Qed.
Lemma cust_eq_sym (a b e : R) : @cust_eq RNum a b e = @cust_eq RNum b a e.
Proof. unfold cust_eq. rewrite orb_comm. reflexivity. Qed.
Lemma approx_equal_spec (a b e : R) : @approx_equal RNum a b e = true <-> Rabs (a - b) < e.
Proof. unfold approx_equal. rewrite flt_true. reflexivity. Qed.
Lemma approx_equal_sym (a b e : R) : @approx_equal RNum a b e = @approx_equal RNum b a e.
Proof. unfold approx_equal. cbn. rewrite Rabs_minus_sym. reflexivity. Qed.

Lemma compare_matrices_spec (a b : mat R) (ts : list R) :
  (9 <= length ts)%nat ->
  exists r, @compare_matrices RNum a b ts = Ok r /\
   (r = true <->
     Rabs (m11 a - m11 b) <= nth 0 ts 0 /\ Rabs (m21 a - m21 b) <= nth 1 ts 0 /\
     Rabs (m31 a - m31 b) <= nth 2 ts 0 /\ Rabs (m12 a - m12 b) <= nth 3 ts 0 /\
     Rabs (m22 a - m22 b) <= nth 4 ts 0 /\ Rabs (m32 a - m32 b) <= nth 5 ts 0 /\
     Rabs (m13 a - m13 b) <= nth 6 ts 0 /\ Rabs (m23 a - m23 b) <= nth 7 ts 0 /\
     Rabs (m33 a - m33 b) <= nth 8 ts 0).
Proof.
  intro H.
  do 9 (destruct ts as [|? ts]; [cbn in H; lia|]). clear H.
  unfold compare_matrices, mlist. cbn [nth].
  repeat (match goal with |- context [if @cust_eq RNum ?x ?y ?t then _ else _] =>
    let E := fresh "E" in destruct (@cust_eq RNum x y t) eqn:E;
      [ apply cust_eq_spec in E
      | eexists; split; [reflexivity|]; split; [discriminate|];
        intros; exfalso; apply not_true_iff_false in E; apply E; apply cust_eq_spec; tauto ] end).
  eexists; split; [reflexivity|]. tauto.
Qed.

Lemma approx_equal_iter_spec (a b : list R) (t : R) :
  (length a <> length b -> @approx_equal_iter RNum a b t = Panic PLenMismatch) /\
  (length a = length b ->
     exists r, @approx_equal_iter RNum a b t = Ok r /\
       (r = true <-> forall i, (i < length a)%nat -> Rabs (nth i a 0 - nth i b 0) < t)).
Proof.
  unfold approx_equal_iter. split; intro H.
  - replace (Nat.eqb _ _) with false by (symmetry; apply Nat.eqb_neq; exact H). reflexivity.
  - replace (Nat.eqb _ _) with true by (symmetry; apply Nat.eqb_eq; exact H).
    eexists; split; [reflexivity|].
    revert b H. induction a as [|x a IH]; intros [|y b] H; try discriminate.
    + cbn. split; auto. intros _ i Hi. lia.
    + cbn [combine forallb]. rewrite andb_true_iff. cbn [length] in *.
      rewrite (IH b) by lia. cbn [fst snd]. rewrite approx_equal_spec. split.
      * intros [H1 H2] [|i] Hi; cbn; auto. apply H2. lia.
      * intro H1. split; [apply (H1 0%nat); lia|]. intros i Hi. apply (H1 (S i)). lia.
Qed.

(** ** num_negative_zero *)
Definition countb {A} (p : A -> bool) (l : list A) : Z := Z.of_nat (length (filter p l)).

Lemma nnz_fold (eps : R) (l : list R) : forall n z : Z,
  (0 <= n -> 0 <= z -> n + z + Z.of_nat (length l) <= 127 ->
   fold_left (@nnz_step RNum eps) l (n, z) =
   (n + countb (fun x => Rlt_bool x (- eps)) l,
    z + countb (fun x => negb (Rlt_bool x (- eps)) && Rlt_bool x eps) l))%Z.
Proof.
  induction l as [|x l IH]; intros n z Hn Hz Hl.
  - cbn. unfold countb; cbn. f_equal; lia.
  - cbn [fold_left]. unfold nnz_step at 2.
    assert (E : @flt RNum x (fmul fm1 eps) = Rlt_bool x (- eps)).
    { cbn. f_equal. ring. }
    rewrite E. unfold countb in *. cbn [filter].
    destruct (Rlt_bool x (- eps)) eqn:E1.
    + cbn [length] in *. rewrite IH by (unfold wrap_i8; rewrite ?Z.mod_small by lia; lia).
      cbn [negb andb]. unfold wrap_i8. rewrite Z.mod_small by lia.
      cbn [length]. f_equal; lia.
    + cbn [negb andb]. change (@flt RNum x eps) with (Rlt_bool x eps). destruct (Rlt_bool x eps) eqn:E2.
      * cbn [length] in *. rewrite IH by (unfold wrap_i8; rewrite ?Z.mod_small by lia; lia).
        unfold wrap_i8. rewrite Z.mod_small by lia. cbn [length]. f_equal; lia.
      * cbn [length] in *. rewrite IH by lia. reflexivity.
Qed.

Lemma num_negative_zero_spec (l : list R) (eps : R) :
  (length l <= 127)%nat ->
  @num_negative_zero RNum l eps =
  (countb (fun x => Rlt_bool x (- eps)) l,
   countb (fun x => negb (Rlt_bool x (- eps)) && Rlt_bool x eps) l).
Proof. intro H. unfold num_negative_zero. rewrite nnz_fold by lia. reflexivity. Qed.

Lemma countb_perm {A} (p : A -> bool) l l' : Permutation l l' -> countb p l = countb p l'.
Proof.
  intro H. unfold countb. f_equal. induction H; cbn; auto.
  - destruct (p x); cbn; auto.
  - destruct (p x), (p y); cbn; auto.
  - congruence.
Qed.

Lemma countb_partition (l : list R) (eps : R) : 0 <= eps ->
  (countb (fun x => Rlt_bool x (- eps)) l + countb (fun x => negb (Rlt_bool x (- eps)) && Rlt_bool x eps) l
   + countb (fun x => Rle_bool eps x) l = Z.of_nat (length l))%Z.
Proof.
  intro He. unfold countb. induction l as [|x l IH]; [reflexivity|].
  cbn [filter]. destruct (Rlt_bool_spec x (- eps)), (Rlt_bool_spec x eps), (Rle_bool_spec eps x);
    try lra; cbn [negb andb length]; lia.
Qed.

Lemma countb_ext {A} (p q : A -> bool) l : (forall x, p x = q x) -> countb p l = countb q l.
Proof. intro H. unfold countb. f_equal. induction l; cbn; auto. rewrite H. destruct (q a); cbn; auto. Qed.

(** ** decode *)
Open Scope Z_scope.

Lemma digits_value_acc base ds : forall acc,
  fold_left (fun acc d => acc * base + d) ds acc = acc * base ^ Z.of_nat (length ds) + digits_value base ds.
Proof.
  induction ds as [|d ds IH]; intro acc.
  - cbn. rewrite Z.mul_1_r. unfold digits_value; cbn; lia.
  - unfold digits_value. cbn [fold_left]. rewrite IH, (IH (0 * base + d)).
    rewrite Nat2Z.inj_succ || idtac. cbn [length]. rewrite Nat2Z.inj_succ, Z.pow_succ_r by lia. ring.
Qed.
Lemma digits_value_cons base d ds :
  digits_value base (d :: ds) = d * base ^ Z.of_nat (length ds) + digits_value base ds.
Proof. unfold digits_value at 1. cbn [fold_left]. rewrite digits_value_acc. ring. Qed.

Lemma digits_value_bound base ds : 0 < base -> digits_ok base ds ->
  0 <= digits_value base ds < base ^ Z.of_nat (length ds).
Proof.
  intros Hb. induction 1 as [|d ds Hd Hds IH].
  - cbn. lia.
  - rewrite digits_value_cons. cbn [length]. rewrite Nat2Z.inj_succ, Z.pow_succ_r by lia. nia.
Qed.

Lemma digits_value_inj base : 0 < base -> forall ds ds',
  length ds = length ds' -> digits_ok base ds -> digits_ok base ds' ->
  digits_value base ds = digits_value base ds' -> ds = ds'.
Proof.
  intro Hb. induction ds as [|d ds IH]; intros [|d' ds'] Hl H H' E; try discriminate; auto.
  rewrite !digits_value_cons in E. inversion H as [|? ? B1 B2]; inversion H' as [|? ? B3 B4]; subst.
  pose proof (digits_value_bound base ds Hb B2). pose proof (digits_value_bound base ds' Hb B4).
  cbn in Hl. injection Hl as Hl. rewrite Hl in *.
  assert (d = d').
  { set (k := base ^ Z.of_nat (length ds')) in *. nia. }
  subst. f_equal. apply IH; auto. lia.
Qed.

(** no i8 overflow in [(digit as i8) - sub] *)
Definition no_i8_overflow (base sub : Z) : Prop := 1 <= base <= 128 /\ -128 <= - sub /\ base - 1 - sub <= 127 /\ -128 <= sub <= 127.

Lemma decode_digit base sub e : no_i8_overflow base sub ->
  wrap_i8 (wrap_i8 (e mod base) - sub) = e mod base - sub.
Proof.
  intros (Hb & H1 & H2 & _). pose proof (Z.mod_pos_bound e base ltac:(lia)).
  unfold wrap_i8. rewrite (Z.mod_small (e mod base + 128)) by lia. rewrite Z.mod_small by lia. lia.
Qed.

Lemma decode_loop_spec n base sub : no_i8_overflow base sub -> forall e out,
  0 <= e ->
  exists ds, decode_loop n e base sub out = map (fun d => d - sub) ds ++ out /\
             length ds = n /\ digits_ok base ds /\ digits_value base ds = e mod base ^ Z.of_nat n.
Proof.
  intro Hno. pose proof Hno as (Hb & _).
  induction n as [|n IH]; intros e out He.
  - exists []. cbn. rewrite Z.mod_1_r. repeat split; constructor.
  - cbn [decode_loop]. rewrite decode_digit by auto.
    destruct (IH (e / base) ((e mod base - sub) :: out)) as (ds & E & Hl & Hok & Hv).
    { apply Z.div_pos; lia. }
    exists (ds ++ [e mod base]). rewrite E. repeat split.
    + rewrite map_app, <- app_assoc. reflexivity.
    + rewrite app_length. cbn. lia.
    + apply Forall_app. split; auto. constructor; [|constructor]. apply Z.mod_pos_bound. lia.
    + unfold digits_value in *. rewrite fold_left_app. cbn [fold_left]. rewrite Hv.
      rewrite Nat2Z.inj_succ, Z.pow_succ_r by lia.
      rewrite (Z.rem_mul_r e base) by (try lia; apply Z.pow_pos_nonneg; lia). lia.
Qed.

Lemma decode_spec e base sub len : no_i8_overflow base sub -> 0 <= e -> 0 <= len ->
  exists ds, decode e base sub len = Ok (map (fun d => d - sub) ds) /\
             length ds = Z.to_nat len /\ digits_ok base ds /\ digits_value base ds = e mod base ^ len.
Proof.
  intros Hno He Hlen. destruct (decode_loop_spec (Z.to_nat len) base sub Hno e [] He)
    as (ds & E & Hl & Hok & Hv).
  exists ds. unfold decode. replace (base =? 0) with false by (symmetry; apply Z.eqb_neq; destruct Hno; lia).
  cbn [andb]. rewrite E, app_nil_r. rewrite Z2Nat.id in Hv by auto. auto.
Qed.

Lemma decode_surj base sub ds : no_i8_overflow base sub -> digits_ok base ds ->
  decode (digits_value base ds) base sub (Z.of_nat (length ds)) = Ok (map (fun d => d - sub) ds).
Proof.
  intros Hno Hok. pose proof Hno as (Hb & _).
  pose proof (digits_value_bound base ds ltac:(lia) Hok) as Hbd.
  destruct (decode_spec (digits_value base ds) base sub (Z.of_nat (length ds)) Hno ltac:(lia) ltac:(lia))
    as (ds' & E & Hl & Hok' & Hv).
  rewrite E. rewrite Z.mod_small in Hv by auto. rewrite Nat2Z.id in Hl.
  rewrite (digits_value_inj base ltac:(lia) ds' ds); auto.
Qed.

(** ** decode_spg_op *)
Lemma no_ovf_3_1 : no_i8_overflow 3 1. Proof. unfold no_i8_overflow; lia. Qed.
Lemma no_ovf_8_0 : no_i8_overflow 8 0. Proof. unfold no_i8_overflow; lia. Qed.

Definition tmap (d : Z) : Z := nth (Z.to_nat d) [0; 2; 3; 4; 6; 8; 9; 10] 0.

Lemma map_res_tmap ds : digits_ok 8 ds ->
  map_res (fun i => if i <? 0 then Panic PIndex
                    else of_opt PIndex (nth_error base8_translation_map (Z.to_nat i))) ds
  = Ok (map tmap ds).
Proof.
  induction 1 as [|d ds Hd _ IH]; [reflexivity|].
  cbn [map_res map]. replace (d <? 0) with false by (symmetry; apply Z.ltb_ge; lia).
  assert (C : d = 0 \/ d = 1 \/ d = 2 \/ d = 3 \/ d = 4 \/ d = 5 \/ d = 6 \/ d = 7) by lia.
  rewrite IH. destruct C as [->|[->|[->|[->|[->|[->|[->| ->]]]]]]]; reflexivity.
Qed.

Lemma map_sub0 (ds : list Z) : map (fun d => d - 0) ds = ds.
Proof. induction ds; cbn; f_equal; auto. lia. Qed.

Lemma decode_spg_op_spec n : 0 <= n ->
  exists r t, decode_spg_op n = Ok (map (fun d => d - 1) r, map tmap t) /\
    length r = 9%nat /\ length t = 3%nat /\ digits_ok 3 r /\ digits_ok 8 t /\
    digits_value 3 r = n mod 3 ^ 9 /\ digits_value 8 t = (n / 3 ^ 9) mod 8 ^ 3.
Proof.
  intro Hn. unfold decode_spg_op.
  assert (H9 : 0 < 3 ^ 9) by reflexivity.
  destruct (decode_spec (n mod 3 ^ 9) 3 1 9 no_ovf_3_1) as (r & Er & Lr & Or & Vr);
    [apply Z.mod_pos_bound; lia | lia |].
  destruct (decode_spec (n / 3 ^ 9) 8 0 3 no_ovf_8_0) as (t & Et & Lt & Ot & Vt);
    [apply Z.div_pos; lia | lia |].
  exists r, t. rewrite Er, Et. cbn [bind]. rewrite map_sub0, map_res_tmap by auto. cbn [bind].
  repeat split; auto. rewrite Vr. apply Z.mod_mod. lia.
Qed.

Lemma tmap_inj a b : 0 <= a < 8 -> 0 <= b < 8 -> tmap a = tmap b -> a = b.
Proof.
  intros Ha Hb.
  assert (Ca : a = 0 \/ a = 1 \/ a = 2 \/ a = 3 \/ a = 4 \/ a = 5 \/ a = 6 \/ a = 7) by lia.
  assert (Cb : b = 0 \/ b = 1 \/ b = 2 \/ b = 3 \/ b = 4 \/ b = 5 \/ b = 6 \/ b = 7) by lia.
  intuition (subst; first [reflexivity | discriminate]).
Qed.
Lemma map_tmap_inj t : forall t', digits_ok 8 t -> digits_ok 8 t' -> map tmap t = map tmap t' -> t = t'.
Proof.
  induction t as [|a t IH]; intros [|b t'] H H' E; try discriminate; auto.
  inversion H; inversion H'; subst. injection E as E1 E2. f_equal; auto. apply tmap_inj; auto.
Qed.
Lemma map_pred_inj (r r' : list Z) : map (fun d => d - 1) r = map (fun d => d - 1) r' -> r = r'.
Proof.
  revert r'. induction r as [|a r IH]; intros [|b r'] E; try discriminate; auto.
  injection E as E1 E2. f_equal; auto. lia.
Qed.
Lemma tmap_In d : 0 <= d < 8 -> In (tmap d) [0; 2; 3; 4; 6; 8; 9; 10].
Proof.
  intro H. assert (C : d = 0 \/ d = 1 \/ d = 2 \/ d = 3 \/ d = 4 \/ d = 5 \/ d = 6 \/ d = 7) by lia.
  destruct C as [->|[->|[->|[->|[->|[->|[->| ->]]]]]]]; cbn; tauto.
Qed.

Lemma decode_spg_op_inj n m : 0 <= n < 3 ^ 9 * 8 ^ 3 -> 0 <= m < 3 ^ 9 * 8 ^ 3 ->
  decode_spg_op n = decode_spg_op m -> n = m.
Proof.
  intros Hn Hm E.
  destruct (decode_spg_op_spec n ltac:(lia)) as (r & t & E1 & Lr & Lt & Or & Ot & Vr & Vt).
  destruct (decode_spg_op_spec m ltac:(lia)) as (r' & t' & E2 & Lr' & Lt' & Or' & Ot' & Vr' & Vt').
  rewrite E1, E2 in E. injection E as E3 E4.
  apply map_pred_inj in E3. apply map_tmap_inj in E4; auto. subst r' t'.
  rewrite Vr in Vr'. rewrite Vt in Vt'.
  assert (H9 : 0 < 3 ^ 9) by reflexivity.
  rewrite (Z.mod_small (n / 3 ^ 9)), (Z.mod_small (m / 3 ^ 9)) in Vt'.
  - rewrite (Z.div_mod n (3 ^ 9)), (Z.div_mod m (3 ^ 9)) by lia. congruence.
  - split; [apply Z.div_pos; lia| apply Z.div_lt_upper_bound; lia].
  - split; [apply Z.div_pos; lia| apply Z.div_lt_upper_bound; lia].
Qed.

Lemma Forall_exists_list {A B} (P : A -> B -> Prop) (l : list B) :
  Forall (fun b => exists a, P a b) l -> exists l', Forall2 P l' l.
Proof.
  induction 1 as [|b l [a Ha] _ [l' IH]].
  - exists []. constructor.
  - exists (a :: l'). constructor; auto.
Qed.

Lemma decode_spg_op_surj (rs ts : list Z) :
  length rs = 9%nat -> length ts = 3%nat ->
  Forall (fun x => -1 <= x <= 1) rs -> Forall (fun x => In x [0; 2; 3; 4; 6; 8; 9; 10]) ts ->
  exists n, 0 <= n < 3 ^ 9 * 8 ^ 3 /\ decode_spg_op n = Ok (rs, ts).
Proof.
  intros Lr Lt Hr Ht.
  set (r := map (fun x => x + 1) rs).
  assert (Or : digits_ok 3 r).
  { unfold r, digits_ok. apply Forall_map. eapply Forall_impl; [|exact Hr]. cbn; intros; lia. }
  assert (Et : exists t, digits_ok 8 t /\ map tmap t = ts).
  { assert (Q : Forall (fun b => exists a, 0 <= a < 8 /\ tmap a = b) ts).
    { eapply Forall_impl; [|exact Ht]. cbn. intros a H.
      repeat (destruct H as [H|H]; [subst a;
        first [exists 0; split; [lia|reflexivity] | exists 1; split; [lia|reflexivity]
              |exists 2; split; [lia|reflexivity] | exists 3; split; [lia|reflexivity]
              |exists 4; split; [lia|reflexivity] | exists 5; split; [lia|reflexivity]
              |exists 6; split; [lia|reflexivity] | exists 7; split; [lia|reflexivity] ] |]).
      destruct H. }
    apply (Forall_exists_list (fun a b => 0 <= a < 8 /\ tmap a = b)) in Q. destruct Q as [t Q].
    exists t. split.
    - clear -Q. induction Q as [|? ? ? ? [] ]; constructor; auto.
    - clear -Q. induction Q as [|? ? ? ? [] ]; cbn; f_equal; auto. }
  destruct Et as (t & Ot & Et).
  assert (Lr' : length r = 9%nat) by (unfold r; rewrite map_length; auto).
  assert (Lt' : length t = 3%nat) by (rewrite <- Et, map_length in Lt; auto).
  pose proof (digits_value_bound 3 r ltac:(lia) Or) as Br. rewrite Lr' in Br.
  pose proof (digits_value_bound 8 t ltac:(lia) Ot) as Bt. rewrite Lt' in Bt.
  change (Z.of_nat 9) with 9 in Br. change (Z.of_nat 3) with 3 in Bt.
  set (n := digits_value 3 r + 3 ^ 9 * digits_value 8 t).
  exists n. assert (H9 : 0 < 3 ^ 9) by reflexivity. assert (H8 : 0 < 8 ^ 3) by reflexivity.
  assert (Bn : 0 <= n < 3 ^ 9 * 8 ^ 3) by (unfold n; nia).
  split; auto.
  destruct (decode_spg_op_spec n ltac:(lia)) as (r2 & t2 & E1 & Lr2 & Lt2 & Or2 & Ot2 & Vr2 & Vt2).
  assert (M1 : n mod 3 ^ 9 = digits_value 3 r).
  { unfold n. rewrite Z.add_comm, Z.mul_comm, Z.add_comm, Z_mod_plus_full. apply Z.mod_small. lia. }
  assert (M2 : n / 3 ^ 9 = digits_value 8 t).
  { unfold n. rewrite (Z.mul_comm (3 ^ 9)), Z.div_add by lia. rewrite Z.div_small by lia. lia. }
  rewrite M1 in Vr2. rewrite M2, Z.mod_small in Vt2 by lia.
  apply digits_value_inj in Vr2; try lia; auto. apply digits_value_inj in Vt2; try lia; auto.
  subst r2 t2. rewrite E1, Et. f_equal. f_equal.
  unfold r. rewrite map_map. rewrite <- (map_id rs) at 2. apply map_ext. intro; lia.
Qed.
Open Scope R_scope.

(** the Boolean counts are the spec's counts *)
Lemma countb_count_where {A} (p : A -> bool) (P : A -> Prop) (dec : forall a, {P a} + {~ P a}) l :
  (forall a, p a = true <-> P a) -> countb p l = count_where P dec l.
Proof.
  intro H. unfold countb. induction l as [|a l IH]; [reflexivity|]. cbn [filter count_where].
  destruct (dec a) as [d|d]; [apply H in d; rewrite d; cbn [length]; lia|].
  destruct (p a) eqn:E; [apply H in E; tauto|]. lia.
Qed.

Definition dec_lt_neg (eps x : R) : {x < - eps} + {~ x < - eps} := Rlt_dec x (- eps).
Definition dec_mid (eps x : R) : {- eps <= x < eps} + {~ (- eps <= x < eps)}.
Proof. destruct (Rle_dec (- eps) x), (Rlt_dec x eps); (left; lra) || (right; lra). Defined.

Lemma nnz_count (l : list R) (eps : R) :
  (length l <= 127)%nat ->
  forall (d1 : forall x, {x < - eps} + {~ x < - eps}) (d2 : forall x, {- eps <= x < eps} + {~ (- eps <= x < eps)}),
  @num_negative_zero RNum l eps =
  (count_where (fun x => x < - eps) d1 l, count_where (fun x => - eps <= x < eps) d2 l).
Proof.
  intros H d1 d2. rewrite num_negative_zero_spec by auto. f_equal; apply countb_count_where; intro a.
  - destruct (Rlt_bool_spec a (- eps)); split; intros; try lra; auto; discriminate.
  - destruct (Rlt_bool_spec a (- eps)), (Rlt_bool_spec a eps); cbn; split; intros; try lra; auto; discriminate.
Qed.

Lemma count_where_partition (l : list R) (eps : R) d1 d2 (d3 : forall x, {eps <= x} + {~ eps <= x}) : 0 <= eps ->
  (count_where (fun x => (x < - eps)%R) d1 l + count_where (fun x => (- eps <= x < eps)%R) d2 l
   + count_where (fun x => (eps <= x)%R) d3 l = Z.of_nat (length l))%Z.
Proof.
  intro He. induction l as [|x l IH]; [reflexivity|]. cbn [count_where length].
  destruct (d1 x), (d2 x), (d3 x); try lra; lia.
Qed.

Lemma nnz_perm (l l' : list R) (eps : R) : (length l <= 127)%nat -> Permutation l l' ->
  @num_negative_zero RNum l eps = @num_negative_zero RNum l' eps.
Proof.
  intros H Hp. rewrite !num_negative_zero_spec; [|rewrite <- (Permutation_length Hp); auto|auto].
  f_equal; now apply countb_perm.
Qed.

Lemma normalize_nth (vs : list (vec R)) (ts : vec R) i v :
  nth_error vs i = Some v ->
  nth_error (@normalize_frac_vectors RNum vs ts) i = Some (@normalize_vec RNum v ts).
Proof. intro H. exact (map_nth_error (fun v => @normalize_vec RNum v ts) i vs H). Qed.
Lemma normalize_vec_vnth_R (v ts : vec R) k :
  vnth (@normalize_vec RNum v ts) k = @normalize1 RNum (vnth v k) (vnth ts k).
Proof. destruct k as [|[|]]; reflexivity. Qed.
