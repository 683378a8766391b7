(** C09 - C12: symmop.rs *)
From Coq Require Import ZArith Reals List Bool Lia Lra.
From Flocq Require Import Core.Raux.
From Verif Require Import Num Mat SymmOp RInst Spec RFacts PUtils PSymmOp.
Import ListNotations.
Open Scope R_scope.

(** C09. *)
Theorem C09_is_approx_eq_spec :
  forall (a b : @symmop RNum) (tols : vec R),
    0 < vx tols <= / 2 -> 0 < vy tols <= / 2 -> 0 < vz tols <= / 2 ->
    (@is_approx_eq RNum a b tols = true <->
       rotation a = rotation b /\ near3 tols (translation a) (translation b)) /\
    @is_approx_eq RNum a a tols = true /\
    @is_approx_eq RNum a b tols = @is_approx_eq RNum b a tols /\
    (forall n m : vec Z,
       @is_approx_eq RNum (SymmOp (N := RNum) (rotation a) (Vadd (translation a) (VofZ n)))
                          (SymmOp (N := RNum) (rotation b) (Vadd (translation b) (VofZ m))) tols =
       @is_approx_eq RNum a b tols).
Proof.
  intros a b tols H1 H2 H3. assert (T : tols_ok tols) by (repeat split; tauto).
  split; [now apply is_approx_eq_spec|]. split; [|split].
  - apply is_approx_eq_spec; auto. split; auto. now apply near3_refl.
  - apply eq_iff_eq_true. rewrite !is_approx_eq_spec by auto.
    split; intros [E N]; split; auto; now apply near3_sym.
  - intros n m. apply eq_iff_eq_true. rewrite !is_approx_eq_spec by auto. cbn [rotation translation].
    rewrite near3_shift_iff. tauto.
Qed.
Print Assumptions C09_is_approx_eq_spec.
Example C09_example :
  let r := (M 0 (-1) 0 1 0 0 0 0 1)%Z in
  @is_approx_eq RNum (SymmOp (N := RNum) r (V (99/100) (1/2) 0)) (SymmOp (N := RNum) r (V 0 (-1/2) 0))
                (V (1/20) (1/20) (1/20)) = true /\
  @is_approx_eq RNum (SymmOp (N := RNum) r (V (9/10) (1/2) 0)) (SymmOp (N := RNum) r (V 0 (-1/2) 0))
                (V (1/20) (1/20) (1/20)) = false.
Proof.
  cbv zeta. set (ts := V (1/20) (1/20) (1/20)).
  assert (B : 0 < 1/20 <= /2) by lra.
  split.
  - apply C09_is_approx_eq_spec; auto. cbn [rotation translation]. split; auto.
    split; [exists 1%Z|split; [exists 1%Z|exists 0%Z]]; cbn; apply Rabs_def1; lra.
  - apply not_true_is_false. intro H.
    apply C09_is_approx_eq_spec in H; auto. destruct H as [_ ([z Hz] & _)]. cbn in Hz.
    apply Rabs_def2 in Hz. assert (0 < IZR z < 2) by lra. destruct H as [A C].
    apply lt_IZR in A, C. assert (z = 1%Z) by lia. subst. lra.
Qed.

(** C10. *)
Theorem C10_apply_and_normalize :
  forall (op : @symmop RNum) (tols : vec R),
    (forall v, @op_apply RNum op v = Vadd (Mapp (MofZ (rotation op)) v) (translation op)) /\
    rotation (@op_normalize RNum op tols) = rotation op /\
    (exists n : vec Z, forall v, @op_apply RNum (@op_normalize RNum op tols) v = Vadd (@op_apply RNum op v) (VofZ n)) /\
    (forall k, 0 <= vnth tols k <= 1 ->
       - vnth tols k <= vnth (translation (@op_normalize RNum op tols)) k <= 1 - vnth tols k).
Proof.
  intros op tols. split; [reflexivity|]. split; [reflexivity|]. split.
  - destruct (normalize_vec_shift (translation op) tols) as [n Hn]. exists n. intro v.
    rewrite !op_apply_R. unfold act. cbn [op_normalize rotation translation]. rewrite Hn, Vadd_assoc. reflexivity.
  - intros k Hk. cbn [op_normalize translation]. rewrite normalize_vec_vnth_R. now apply normalize1_range.
Qed.
Print Assumptions C10_apply_and_normalize.
Example C10_example :
  let op := SymmOp (N := RNum) (M 0 (-1) 0 1 0 0 0 0 1)%Z (V (5/4) 0 (1/2)) in
  @op_apply RNum op (V 1 2 3) = V (-3/4) 1 (7/2).
Proof. cbv zeta. destruct (C10_apply_and_normalize (SymmOp (N := RNum) (M 0 (-1) 0 1 0 0 0 0 1)%Z (V (5/4) 0 (1/2))) (V 0 0 0)) as [-> _].
  apply vec_ext; cbn; lra. Qed.

(** C11 is false.  A pair (with orthogonal integer rotations) and a vector for which the product is neither
    composition, and a triple for which the product is not associative. *)
Theorem C11_product_is_composition_refuted :
  (exists (a b : @symmop RNum) (v : vec R),
     @op_apply RNum (@op_mul RNum a b) v <> @op_apply RNum a (@op_apply RNum b v) /\
     @op_apply RNum (@op_mul RNum a b) v <> @op_apply RNum b (@op_apply RNum a v)) /\
  (exists a b c : @symmop RNum, @op_mul RNum (@op_mul RNum a b) c <> @op_mul RNum a (@op_mul RNum b c)).
Proof.
  set (r4 := (M 0 (-1) 0 1 0 0 0 0 1)%Z). set (r3 := (M 0 0 1 1 0 0 0 1 0)%Z).
  split.
  - exists (SymmOp (N := RNum) r4 (V (1/2) 0 0)), (SymmOp (N := RNum) r3 (V 0 0 0)), (V 1 2 3).
    split; intro H; apply (f_equal (fun v => (vx v, vy v, vz v))) in H; cbn in H; injection H; intros; lra.
  - exists (SymmOp (N := RNum) ZMid (V (1/2) 0 0)), (SymmOp (N := RNum) r4 (V 0 0 0)), (SymmOp (N := RNum) r3 (V 0 0 0)).
    intro H. apply (f_equal (fun s => translation s)) in H.
    apply (f_equal (fun v : vec R => (vx v, vy v, vz v))) in H. cbn in H. injection H; intros; lra.
Qed.
Print Assumptions C11_product_is_composition_refuted.

(** C12. *)
Theorem C12_product_composes_iff_commuting :
  forall a b : @symmop RNum, i8_range (ZMmul (rotation a) (rotation b)) ->
    (ZMmul (rotation a) (rotation b) = ZMmul (rotation b) (rotation a) ->
       forall v, @op_apply RNum (@op_mul RNum a b) v = @op_apply RNum b (@op_apply RNum a v)) /\
    (ZMmul (rotation a) (rotation b) <> ZMmul (rotation b) (rotation a) ->
       exists v, @op_apply RNum (@op_mul RNum a b) v <> @op_apply RNum b (@op_apply RNum a v)).
Proof.
  intros a b Hr. pose proof (op_mul_acts_iff a b Hr) as Q. split; [tauto|].
  intro Hn. apply op_mul_differs; auto.
Qed.
Print Assumptions C12_product_composes_iff_commuting.
Example C12_example :
  let a := SymmOp (N := RNum) (M 0 (-1) 0 1 0 0 0 0 1)%Z (V (1/2) 0 0) in
  let b := SymmOp (N := RNum) (M (-1) 0 0 0 (-1) 0 0 0 1)%Z (V 0 0 (1/4)) in
  i8_range (ZMmul (rotation a) (rotation b)) /\
  ZMmul (rotation a) (rotation b) = ZMmul (rotation b) (rotation a).
Proof. cbv zeta. split; [unfold i8_range, entries_within; cbn; lia|reflexivity]. Qed.
