(** Bridges between the model at [RNum] and the vocabulary of Spec.v; small reusable lemmas. *)
From Coq Require Import ZArith Reals List Bool Lia Lra Psatz.
From Flocq Require Import Core.Raux.
From Verif Require Import Num Mat RInst Spec.
Import ListNotations.
Open Scope R_scope.

(** Boolean comparisons *)
Lemma flt_true (x y : R) : @flt RNum x y = true <-> x < y.
Proof. cbn. split; intro H; [ case (Rlt_bool_spec x y) in H; [auto|discriminate] | now apply Rlt_bool_true ]. Qed.
Lemma flt_false (x y : R) : @flt RNum x y = false <-> y <= x.
Proof. cbn. split; intro H; [ case (Rlt_bool_spec x y) in H; [discriminate|auto] | now apply Rlt_bool_false ]. Qed.
Lemma fle_true (x y : R) : @fle RNum x y = true <-> x <= y.
Proof. cbn. split; intro H; [ case (Rle_bool_spec x y) in H; [auto|discriminate] | now apply Rle_bool_true ]. Qed.
Lemma fle_false (x y : R) : @fle RNum x y = false <-> y < x.
Proof. cbn. split; intro H; [ case (Rle_bool_spec x y) in H; [discriminate|auto] | now apply Rle_bool_false ]. Qed.
Lemma feq_true (x y : R) : @feq RNum x y = true <-> x = y.
Proof. cbn. split; intro H; [ case (Req_bool_spec x y) in H; [auto|discriminate] | now apply Req_bool_true ]. Qed.
Lemma feq_false (x y : R) : @feq RNum x y = false <-> x <> y.
Proof. cbn. split; intro H; [ case (Req_bool_spec x y) in H; [discriminate|auto] | now apply Req_bool_false ]. Qed.

(** Records *)
Lemma vec_ext {A} (a b : vec A) : vx a = vx b -> vy a = vy b -> vz a = vz b -> a = b.
Proof. destruct a, b; cbn; intros; subst; reflexivity. Qed.
Lemma mat_ext {A} (a b : mat A) :
  m11 a = m11 b -> m12 a = m12 b -> m13 a = m13 b ->
  m21 a = m21 b -> m22 a = m22 b -> m23 a = m23 b ->
  m31 a = m31 b -> m32 a = m32 b -> m33 a = m33 b -> a = b.
Proof. destruct a, b; cbn; intros; subst; reflexivity. Qed.

(** is_int *)
Lemma is_int_IZR z : is_int (IZR z). Proof. now exists z. Qed.
Lemma is_int_add x y : is_int x -> is_int y -> is_int (x + y).
Proof. intros [a ->] [b ->]. exists (a + b)%Z. now rewrite plus_IZR. Qed.
Lemma is_int_opp x : is_int x -> is_int (- x).
Proof. intros [a ->]. exists (- a)%Z. now rewrite opp_IZR. Qed.
Lemma is_int_sub x y : is_int x -> is_int y -> is_int (x - y).
Proof. intros. apply is_int_add; auto using is_int_opp. Qed.
Lemma is_int_mul x y : is_int x -> is_int y -> is_int (x * y).
Proof. intros [a ->] [b ->]. exists (a * b)%Z. now rewrite mult_IZR. Qed.
Lemma is_int_small x : is_int x -> -1 < x < 1 -> x = 0.
Proof.
  intros [z ->] [H1 H2]. apply lt_IZR in H1, H2. now replace z with 0%Z by lia.
Qed.
Lemma congr1_refl x : congr1 x x. Proof. exists 0%Z. now rewrite Rminus_diag_eq. Qed.
Lemma congr1_sym x y : congr1 x y -> congr1 y x.
Proof. intros [z H]. exists (- z)%Z. rewrite opp_IZR. lra. Qed.
Lemma congr1_trans x y z : congr1 x y -> congr1 y z -> congr1 x z.
Proof. intros [a H] [b H']. exists (a + b)%Z. rewrite plus_IZR. lra. Qed.

(** Truncation *)
Lemma rem1_bounds (x : R) : -1 < x - IZR (Ztrunc x) < 1.
Proof.
  destruct (Rle_or_lt 0 x) as [H|H].
  - rewrite Ztrunc_floor by auto. pose proof (Zfloor_lb x). pose proof (Zfloor_ub x). lra.
  - rewrite Ztrunc_ceil by lra. pose proof (Zceil_lb x). pose proof (Zceil_ub x). lra.
Qed.
Lemma Ztrunc_small (x : R) : -1 < x < 1 -> Ztrunc x = 0%Z.
Proof.
  intros [H1 H2]. destruct (Rle_or_lt 0 x) as [H|H].
  - rewrite Ztrunc_floor by auto. apply Zfloor_imp. cbn. lra.
  - rewrite Ztrunc_ceil by lra. apply Zceil_imp. cbn. lra.
Qed.

(** Linear algebra: the model's operations at R are the textbook ones *)
Lemma mvmul_R (m : mat R) v : @mvmul RNum m v = Mapp m v. Proof. reflexivity. Qed.
Lemma mmul_R (a b : mat R) : @mmul RNum a b = Mmul a b. Proof. reflexivity. Qed.
Lemma vadd_R a b : @vadd RNum a b = Vadd a b. Proof. reflexivity. Qed.
Lemma vsub_R a b : @vsub RNum a b = Vsub a b. Proof. reflexivity. Qed.
Lemma dot_R a b : @dot RNum a b = Vdot a b. Proof. reflexivity. Qed.
Lemma cross_R a b : @cross RNum a b = Vcross a b. Proof. reflexivity. Qed.
Lemma magnitude_R a : @magnitude RNum a = Vnorm a. Proof. reflexivity. Qed.
Lemma mcast_R m : @mcast RNum m = MofZ m. Proof. reflexivity. Qed.
Lemma vcast_R v : @vcast RNum v = VofZ v. Proof. reflexivity. Qed.
Lemma det_R (m : mat R) : @det RNum m = Mdet m.
Proof. unfold det, Mdet; cbn. ring. Qed.
Lemma transpose_R (m : mat R) : transpose m = Mtr m. Proof. reflexivity. Qed.
Lemma midentity_R : @midentity RNum = Mid. Proof. reflexivity. Qed.

Ltac mat_ring := intros;
  repeat match goal with m : mat _ |- _ => destruct m | v : vec _ |- _ => destruct v end;
  unfold Mmul, Mapp, Mid, Mtr, Vadd, Vsub, Vscal, Mscal, V0, Vdot, Vcross, Ccol; cbn;
  try (first [ apply mat_ext | apply vec_ext ]); cbn; try ring.

Lemma Mmul_assoc a b c : Mmul (Mmul a b) c = Mmul a (Mmul b c). Proof. mat_ring. Qed.
Lemma Mapp_Mmul a b v : Mapp (Mmul a b) v = Mapp a (Mapp b v). Proof. mat_ring. Qed.
Lemma Mapp_add a v w : Mapp a (Vadd v w) = Vadd (Mapp a v) (Mapp a w). Proof. mat_ring. Qed.
Lemma Mapp_sub a v w : Mapp a (Vsub v w) = Vsub (Mapp a v) (Mapp a w). Proof. mat_ring. Qed.
Lemma Mapp_scal a k v : Mapp a (Vscal k v) = Vscal k (Mapp a v). Proof. mat_ring. Qed.
Lemma Mapp_id v : Mapp Mid v = v. Proof. mat_ring. Qed.
Lemma Mmul_id_l a : Mmul Mid a = a. Proof. mat_ring. Qed.
Lemma Mmul_id_r a : Mmul a Mid = a. Proof. mat_ring. Qed.
Lemma Mdet_mul a b : Mdet (Mmul a b) = Mdet a * Mdet b.
Proof. destruct a, b; unfold Mdet, Mmul; cbn; ring. Qed.
Lemma Mdet_tr a : Mdet (Mtr a) = Mdet a.
Proof. destruct a; unfold Mdet, Mtr; cbn; ring. Qed.
Lemma Mdet_id : Mdet Mid = 1. Proof. unfold Mdet, Mid; cbn; ring. Qed.
Lemma Mtr_mul a b : Mtr (Mmul a b) = Mmul (Mtr b) (Mtr a). Proof. mat_ring. Qed.
Lemma Mtr_tr a : Mtr (Mtr a) = a. Proof. mat_ring. Qed.
Lemma Vdot_sym a b : Vdot a b = Vdot b a. Proof. destruct a, b; unfold Vdot; cbn; ring. Qed.

Lemma MofZ_mul a b : MofZ (ZMmul a b) = Mmul (MofZ a) (MofZ b).
Proof. unfold MofZ, ZMmul, Mmul; cbn. rewrite !plus_IZR, !mult_IZR. reflexivity. Qed.
Lemma MofZ_id : MofZ ZMid = Mid. Proof. reflexivity. Qed.
Lemma MofZ_det a : Mdet (MofZ a) = IZR (ZMdet a).
Proof. unfold Mdet, ZMdet, MofZ; cbn. rewrite ?minus_IZR, ?plus_IZR, ?minus_IZR, ?mult_IZR. ring. Qed.
Lemma MofZ_app a v : VofZ (ZMapp a v) = Mapp (MofZ a) (VofZ v).
Proof. unfold VofZ, ZMapp, Mapp; cbn. rewrite !plus_IZR, !mult_IZR. reflexivity. Qed.
Lemma VofZ_add a b : VofZ (ZVadd a b) = Vadd (VofZ a) (VofZ b).
Proof. unfold VofZ, ZVadd, Vadd; cbn. rewrite !plus_IZR. reflexivity. Qed.
Lemma MofZ_inj a b : MofZ a = MofZ b -> a = b.
Proof.
  destruct a, b; unfold MofZ; cbn. intro H. injection H; intros.
  repeat match goal with H : IZR _ = IZR _ |- _ => apply eq_IZR in H; subst end. reflexivity.
Qed.

(** Cofactor inverse *)
Definition Madj_inv (m : mat R) : mat R :=
  let d := Mdet m in
  M ((m22 m * m33 m - m32 m * m23 m) / d) ((m13 m * m32 m - m33 m * m12 m) / d)
    ((m12 m * m23 m - m22 m * m13 m) / d) (- (m21 m * m33 m - m31 m * m23 m) / d)
    ((m11 m * m33 m - m31 m * m13 m) / d) ((m13 m * m21 m - m23 m * m11 m) / d)
    ((m21 m * m32 m - m31 m * m22 m) / d) ((m12 m * m31 m - m32 m * m11 m) / d)
    ((m11 m * m22 m - m21 m * m12 m) / d).

Lemma try_inverse_none (m : mat R) : @try_inverse RNum m = None <-> Mdet m = 0.
Proof.
  unfold try_inverse. rewrite det_R. change f0 with 0.
  destruct (@feq RNum (Mdet m) 0) eqn:E.
  - apply feq_true in E. tauto.
  - apply feq_false in E. split; [discriminate|tauto].
Qed.
Lemma try_inverse_some (m i : mat R) :
  @try_inverse RNum m = Some i -> Mdet m <> 0 /\ i = Madj_inv m.
Proof.
  unfold try_inverse. rewrite det_R. change f0 with 0.
  destruct (@feq RNum (Mdet m) 0) eqn:E; [discriminate|].
  apply feq_false in E. intro H. injection H as <-. split; [auto|]. reflexivity.
Qed.
Lemma try_inverse_R (m : mat R) : Mdet m <> 0 -> @try_inverse RNum m = Some (Madj_inv m).
Proof.
  intro H. destruct (@try_inverse RNum m) eqn:E.
  - apply try_inverse_some in E. destruct E as [_ ->]. reflexivity.
  - apply try_inverse_none in E. tauto.
Qed.
Lemma Madj_inv_l (m : mat R) : Mdet m <> 0 -> Mmul (Madj_inv m) m = Mid.
Proof.
  intro H. unfold Madj_inv. remember (Mdet m) as d eqn:Hd.
  destruct m; unfold Mmul, Mid, Mdet in *; cbn in *; apply mat_ext; cbn; field_simplify; auto;
   rewrite Hd in *; field; auto.
Qed.
Lemma Madj_inv_r (m : mat R) : Mdet m <> 0 -> Mmul m (Madj_inv m) = Mid.
Proof.
  intro H. unfold Madj_inv. remember (Mdet m) as d eqn:Hd.
  destruct m; unfold Mmul, Mid, Mdet in *; cbn in *; apply mat_ext; cbn; field_simplify; auto;
   rewrite Hd in *; field; auto.
Qed.
Lemma Madj_inverse (m : mat R) : Mdet m <> 0 -> inverse_of m (Madj_inv m).
Proof. split; auto using Madj_inv_l, Madj_inv_r. Qed.
Lemma inverse_unique a b c : inverse_of a b -> inverse_of a c -> b = c.
Proof.
  intros [H1 H2] [H3 H4]. rewrite <- (Mmul_id_r b), <- H3, <- Mmul_assoc, H2, Mmul_id_l. reflexivity.
Qed.
Lemma inverse_det a b : inverse_of a b -> Mdet a <> 0.
Proof.
  intros [H _] E. apply (f_equal Mdet) in H. rewrite Mdet_mul, Mdet_id, E in H. lra.
Qed.
Lemma inverse_sym a b : inverse_of a b -> inverse_of b a.
Proof. intros [H1 H2]; split; auto. Qed.

(** make types syntactically R *)
Ltac numR := change (@num RNum) with R in *.
Lemma Mapp_V0 m : Mapp m V0 = V0.
Proof. unfold Mapp, V0. apply vec_ext; cbn [vx vy vz]; ring. Qed.
Lemma Rround_IZR z : Rround (IZR z) = z.
Proof.
  unfold Rround. destruct (Rle_bool_spec 0 (IZR z)).
  - apply Zfloor_imp. rewrite plus_IZR. lra.
  - apply Zceil_imp. rewrite minus_IZR. lra.
Qed.
Open Scope Z_scope.
Definition zadj (m : mat Z) : mat Z :=
  M (m22 m * m33 m - m32 m * m23 m) (m13 m * m32 m - m33 m * m12 m) (m12 m * m23 m - m22 m * m13 m)
    (m31 m * m23 m - m21 m * m33 m) (m11 m * m33 m - m31 m * m13 m) (m13 m * m21 m - m23 m * m11 m)
    (m21 m * m32 m - m31 m * m22 m) (m12 m * m31 m - m32 m * m11 m) (m11 m * m22 m - m21 m * m12 m).
Close Scope Z_scope.
