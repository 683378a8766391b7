(** Proofs about symmop.rs *)
From Coq Require Import ZArith Reals List Bool Lia Lra.
From Flocq Require Import Core.Raux.
From Verif Require Import Num Mat Utils SymmOp RInst Spec RFacts PUtils.
Import ListNotations.
Open Scope R_scope.

Lemma zmat_eqb_spec a b : zmat_eqb a b = true <-> a = b.
Proof.
  unfold zmat_eqb. destruct a, b; cbn. split.
  - repeat match goal with |- context [if Z.eqb ?x ?y then _ else _] =>
      destruct (Z.eqb_spec x y); [subst|discriminate] end.
    intro H. apply Z.eqb_eq in H. subst. reflexivity.
  - intro H. injection H; intros; subst. rewrite !Z.eqb_refl. reflexivity.
Qed.
Lemma zmat_eqb_refl a : zmat_eqb a a = true. Proof. now apply zmat_eqb_spec. Qed.
Lemma zmat_eqb_false a b : zmat_eqb a b = false <-> a <> b.
Proof.
  split; intro H.
  - intro E. apply zmat_eqb_spec in E. congruence.
  - destruct (zmat_eqb a b) eqn:E; auto. apply zmat_eqb_spec in E. tauto.
Qed.

Lemma wrap_i8_id z : (-128 <= z <= 127)%Z -> wrap_i8 z = z.
Proof. intro H. unfold wrap_i8. rewrite Z.mod_small; lia. Qed.
Lemma wrap_i8_range z : (-128 <= wrap_i8 z <= 127)%Z.
Proof. unfold wrap_i8. pose proof (Z.mod_pos_bound (z + 128) 256). lia. Qed.
Lemma i8_mmul_eq a b : i8_range (ZMmul a b) -> i8_mmul a b = ZMmul a b.
Proof.
  unfold i8_range, entries_within, i8_mmul, mmap, ZMmul. cbn. intro H.
  rewrite !wrap_i8_id by lia. reflexivity.
Qed.
Lemma i8_mmul_range a b : i8_range (i8_mmul a b).
Proof.
  unfold i8_mmul, i8_range, entries_within, mmap. cbn.
  repeat split; apply wrap_i8_range.
Qed.

(** near1 *)
Lemma near1_normalize (tol x y : R) : 0 < tol <= / 2 ->
  (Rabs (@normalize1 RNum (x - y) tol) < tol <-> near1 tol x y).
Proof.
  intro Ht. split.
  - intro H. destruct (normalize1_int (x - y) tol) as [z Hz]. exists (- z)%Z. rewrite opp_IZR.
    replace (x - y - - IZR z) with (@normalize1 RNum (x - y) tol) by lra. exact H.
  - intros [z Hz]. rewrite (normalize1_near (x - y) tol 0 z); auto.
Qed.

Definition tols_ok (t : vec R) : Prop := 0 < vx t <= / 2 /\ 0 < vy t <= / 2 /\ 0 < vz t <= / 2.

Lemma within_tols_spec (d t : vec R) :
  @within_tols RNum d t = true <-> Rabs (vx d) < vx t /\ Rabs (vy d) < vy t /\ Rabs (vz d) < vz t.
Proof.
  unfold within_tols. cbn [fabs flt RNum]. numR.
  destruct (Rlt_bool_spec (Rabs (vx d)) (vx t)), (Rlt_bool_spec (Rabs (vy d)) (vy t)),
    (Rlt_bool_spec (Rabs (vz d)) (vz t)); split; intro Q; try discriminate Q; try reflexivity; try tauto; lra.
Qed.

Lemma within_near (x y t : vec R) : tols_ok t ->
  (@within_tols RNum (@normalize_vec RNum (@vsub RNum x y) t) t = true <-> near3 t x y).
Proof.
  intros (T1 & T2 & T3). rewrite within_tols_spec. unfold near3.
  rewrite <- !near1_normalize by auto. reflexivity.
Qed.

Lemma is_approx_eq_spec (a b : @symmop RNum) (t : vec R) : tols_ok t ->
  (@is_approx_eq RNum a b t = true <-> rotation a = rotation b /\ near3 t (translation a) (translation b)).
Proof.
  intro Ht. unfold is_approx_eq. destruct (zmat_eqb _ _) eqn:E.
  - apply zmat_eqb_spec in E. rewrite (within_near (translation a) (translation b) t Ht). tauto.
  - apply zmat_eqb_false in E. split; [discriminate|tauto].
Qed.

Lemma near1_refl t x : 0 < t -> near1 t x x.
Proof. intro H. exists 0%Z. rewrite Rminus_0_r, Rminus_diag_eq by reflexivity. now rewrite Rabs_R0. Qed.
Lemma near1_sym t x y : near1 t x y -> near1 t y x.
Proof.
  intros [z H]. exists (- z)%Z. rewrite opp_IZR, <- Rabs_Ropp.
  replace (- (y - x - - IZR z)) with (x - y - IZR z) by ring. exact H.
Qed.
Lemma near1_shift t x y a b : near1 t x y -> near1 t (x + IZR a) (y + IZR b).
Proof.
  intros [z H]. exists (z + a - b)%Z. rewrite minus_IZR, plus_IZR.
  replace (x + IZR a - (y + IZR b) - (IZR z + IZR a - IZR b)) with (x - y - IZR z) by ring. exact H.
Qed.
Lemma near3_refl t x : tols_ok t -> near3 t x x.
Proof. intros (? & ? & ?). repeat split; apply near1_refl; lra. Qed.
Lemma near3_sym t x y : near3 t x y -> near3 t y x.
Proof. intros (? & ? & ?). repeat split; apply near1_sym; auto. Qed.
Lemma near3_shift t x y a b : near3 t x y -> near3 t (Vadd x (VofZ a)) (Vadd y (VofZ b)).
Proof. intros (? & ? & ?). repeat split; cbn; apply near1_shift; auto. Qed.
Lemma VofZ_0 : VofZ (V 0 0 0)%Z = V0. Proof. reflexivity. Qed.
Lemma Vadd_assoc a b c : Vadd (Vadd a b) c = Vadd a (Vadd b c). Proof. mat_ring. Qed.
Lemma Vadd_comm a b : Vadd a b = Vadd b a. Proof. mat_ring. Qed.
Lemma Vadd_0_r v : Vadd v V0 = v. Proof. mat_ring. Qed.
Lemma near3_shift_iff t x y a b : near3 t (Vadd x (VofZ a)) (Vadd y (VofZ b)) <-> near3 t x y.
Proof.
  split; [|apply near3_shift]. intro H.
  apply (near3_shift _ _ _ (V (- vx a) (- vy a) (- vz a))%Z (V (- vx b) (- vy b) (- vz b))%Z) in H.
  assert (E : forall u n, Vadd (Vadd u (VofZ n)) (VofZ (V (- vx n) (- vy n) (- vz n))%Z) = u).
  { intros. apply vec_ext; cbn; rewrite opp_IZR; ring. }
  now rewrite !E in H.
Qed.
(** congruent vectors have the same neighbours *)
Lemma near3_congr t x x' y y' : Vcongr x x' -> Vcongr y y' -> near3 t x y -> near3 t x' y'.
Proof. intros [a ->] [b ->]. apply near3_shift_iff. Qed.
Lemma Vcongr_refl x : Vcongr x x. Proof. exists (V 0 0 0)%Z. rewrite VofZ_0, Vadd_0_r. reflexivity. Qed.
Lemma Vcongr_sym x y : Vcongr x y -> Vcongr y x.
Proof. intros [n ->]. exists (V (- vx n) (- vy n) (- vz n))%Z. apply vec_ext; cbn; rewrite opp_IZR; ring. Qed.
Lemma Vcongr_trans x y z : Vcongr x y -> Vcongr y z -> Vcongr x z.
Proof. intros [n ->] [m ->]. exists (ZVadd m n). apply vec_ext; cbn; rewrite plus_IZR; ring. Qed.
Lemma Vcongr_add x y a b : Vcongr x y -> Vcongr a b -> Vcongr (Vadd x a) (Vadd y b).
Proof. intros [n ->] [m ->]. exists (ZVadd n m). apply vec_ext; cbn; rewrite plus_IZR; ring. Qed.
Lemma Vcongr_app r x y : Vcongr x y -> Vcongr (Mapp (MofZ r) x) (Mapp (MofZ r) y).
Proof. intros [n ->]. exists (ZMapp r n). rewrite Mapp_add, MofZ_app. reflexivity. Qed.
Lemma normalize_vec_congr v t : Vcongr (@normalize_vec RNum v t) v.
Proof. apply normalize_vec_shift. Qed.

Lemma op_apply_R (s : @symmop RNum) v : @op_apply RNum s v = act (rotation s) (translation s) v.
Proof. reflexivity. Qed.
Lemma op_mul_R (a b : @symmop RNum) :
  i8_range (ZMmul (rotation a) (rotation b)) ->
  @op_mul RNum a b = SymmOp (N := RNum) (ZMmul (rotation a) (rotation b))
                            (Vadd (Mapp (MofZ (rotation b)) (translation a)) (translation b)).
Proof. intro H. unfold op_mul. rewrite i8_mmul_eq by auto. reflexivity. Qed.

Lemma MofZ_eq_from_action r r' : (forall v, Mapp (MofZ r) v = Mapp (MofZ r') v) -> r = r'.
Proof.
  intro H. apply MofZ_inj.
  pose proof (H (V 1 0 0)) as H1. pose proof (H (V 0 1 0)) as H2. pose proof (H (V 0 0 1)) as H3.
  apply (f_equal (fun v => (vx v, vy v, vz v))) in H1, H2, H3. cbn in H1, H2, H3.
  injection H1 as ? ? ?. injection H2 as ? ? ?. injection H3 as ? ? ?. apply mat_ext; cbn; lra.
Qed.

Lemma Vadd_cancel_r a b c : Vadd a c = Vadd b c -> a = b.
Proof.
  destruct a, b, c. unfold Vadd; cbn. intro H. injection H as H1 H2 H3. apply vec_ext; cbn; lra.
Qed.
(** if they do not commute, the two actions differ somewhere *)
Lemma op_mul_acts_iff (a b : @symmop RNum) :
  i8_range (ZMmul (rotation a) (rotation b)) ->
  ((forall v, @op_apply RNum (@op_mul RNum a b) v = @op_apply RNum b (@op_apply RNum a v)) <->
   ZMmul (rotation a) (rotation b) = ZMmul (rotation b) (rotation a)).
Proof.
  intro Hr. rewrite op_mul_R by auto. cbn [rotation translation].
  assert (E : forall v, act (rotation b) (translation b) (act (rotation a) (translation a) v) =
     Vadd (Mapp (MofZ (ZMmul (rotation b) (rotation a))) v)
          (Vadd (Mapp (MofZ (rotation b)) (translation a)) (translation b))).
  { intro v. unfold act. rewrite Mapp_add, MofZ_mul, Mapp_Mmul. mat_ring. }
  split.
  - intro H. apply MofZ_eq_from_action. intro v. specialize (H v). rewrite !op_apply_R, E in H.
    exact (Vadd_cancel_r _ _ _ H).
  - intros H v. rewrite !op_apply_R, E. cbn [rotation translation]. rewrite H. reflexivity.
Qed.

Ltac zmat_ring := intros;
  unfold ZMmul, ZMid, ZMapp, ZVadd; cbn [m11 m12 m13 m21 m22 m23 m31 m32 m33 vx vy vz];
  first [ apply mat_ext | apply vec_ext ]; cbn [m11 m12 m13 m21 m22 m23 m31 m32 m33 vx vy vz]; ring.
Lemma ZMmul_assoc a b c : ZMmul (ZMmul a b) c = ZMmul a (ZMmul b c). Proof. zmat_ring. Qed.
Lemma ZMmul_id_l a : ZMmul ZMid a = a. Proof. zmat_ring. Qed.
Lemma ZMmul_id_r a : ZMmul a ZMid = a. Proof. zmat_ring. Qed.
Lemma ZMdet_mul a b : ZMdet (ZMmul a b) = (ZMdet a * ZMdet b)%Z.
Proof. unfold ZMdet, ZMmul; cbn [m11 m12 m13 m21 m22 m23 m31 m32 m33]. ring. Qed.

Lemma mat_Z_eq_dec (a b : mat Z) : {a = b} + {a <> b}.
Proof. destruct (zmat_eqb a b) eqn:E; [left; now apply zmat_eqb_spec|right; now apply zmat_eqb_false]. Qed.

(** the two actions differ on some vector *)
Lemma op_mul_differs (a b : @symmop RNum) :
  i8_range (ZMmul (rotation a) (rotation b)) ->
  ZMmul (rotation a) (rotation b) <> ZMmul (rotation b) (rotation a) ->
  exists v, @op_apply RNum (@op_mul RNum a b) v <> @op_apply RNum b (@op_apply RNum a v).
Proof.
  intros Hr Hn. apply Classical_Pred_Type.not_all_ex_not. intro H. apply Hn. now apply op_mul_acts_iff.
Qed.
