(** Crystals in a rectangular cell that is named as the tables name it (analyzer.rs 36-162) *)
From Coq Require Import ZArith Reals String Ascii List Bool Lia Lra Psatz Permutation.
From Flocq Require Import Core.
From Verif Require Import Num Mat Utils DataCore DataPG DataSG SymmOp PointGroup SpaceGroup Structure Reduce Analyzer RInst Spec Spec2 Spec3 Spec5 Spec6 RFacts
  PUtils PSymmOp PStructure PStructure2 PStructure3 PNiggli PDelaunay PPrim PPrim2 PLattice PAnalyzer PAnalyzer2 PPointGroup PPointGroup2 PSpaceGroup PSpaceGroup2 PCode PTables PIdentify
  PSearch PSearch4 PSearch6 PSearch7 PEnd PEnd2 PEnd3 PEnd4 PEnd11 PEnd12 Prop5.
Import ListNotations.
Open Scope R_scope.

(** ** Operations of a crystal written in another basis *)
Definition moved (A : mat Z) (X Y : list site) : Prop :=
  (forall x e, In (x, e) X -> exists y, In (y, e) Y /\ Vcongr y (Mapp (MofZ A) x)) /\
  (forall y e, In (y, e) Y -> exists x, In (x, e) X /\ Vcongr y (Mapp (MofZ A) x)).
Lemma app_inv (A B : mat Z) v : ZMmul A B = ZMid -> Mapp (MofZ A) (Mapp (MofZ B) v) = v.
Proof. intro H. rewrite <- Mapp_Mmul, <- MofZ_mul, H, MofZ_id. apply Mapp_id. Qed.
Lemma moved_sym A B X Y : ZMmul B A = ZMid -> moved A X Y -> moved B Y X.
Proof.
  intros H [M1 M2]. split.
  - intros y e Hy. destruct (M2 y e Hy) as (x & Hx & C). exists x. split; [exact Hx|]. apply PSymmOp.Vcongr_sym. apply (PEnd11.Vcongr_app B) in C. now rewrite (app_inv B A _ H) in C.
  - intros x e Hx. destruct (M1 x e Hx) as (y & Hy & C). exists y. split; [exact Hy|]. apply PSymmOp.Vcongr_sym. apply (PEnd11.Vcongr_app B) in C. now rewrite (app_inv B A _ H) in C.
Qed.
Lemma like_moved A S t : like (MofZ A) S t -> moved A S (sites_of t).
Proof.
  intros [_ _ _ (l & P & F)]. split.
  - intros x e Hx. assert (G : exists q, In q l /\ rel (MofZ A) q (x, e)).
    { clear - F Hx. induction F as [|q p l S E F IH]; [destruct Hx|]. destruct Hx as [->|Hx]; [exists q; split; [now left|exact E]|]. destruct (IH Hx) as (q0 & A1 & A2). exists q0. split; [now right|exact A2]. }
    destruct G as ([y f] & Hy & [E C]). cbn [fst snd] in *. subst f. exists y. split; [|exact C]. now apply (Permutation_in _ (Permutation_sym P)).
  - intros y e Hy. apply (Permutation_in _ P) in Hy. assert (G : exists p, In p S /\ rel (MofZ A) (y, e) p).
    { clear - F Hy. induction F as [|q p l S E F IH]; [destruct Hy|]. destruct Hy as [->|Hy]; [exists p; split; [now left|exact E]|]. destruct (IH Hy) as (q0 & A1 & A2). exists q0. split; [now right|exact A2]. }
    destruct G as ([x f] & Hx & [E C]). cbn [fst snd] in *. subst f. exists x. auto.
Qed.
Definition conj (B r A : mat Z) : mat Z := ZMmul (ZMmul B r) A.
Lemma conj_app B r A v : Mapp (MofZ (conj B r A)) v = Mapp (MofZ B) (Mapp (MofZ r) (Mapp (MofZ A) v)).
Proof. unfold conj. rewrite !MofZ_mul, !Mapp_Mmul. reflexivity. Qed.
Lemma conj_conj B r A : ZMmul B A = ZMid -> ZMmul A B = ZMid -> conj A (conj B r A) B = r.
Proof.
  intros H1 H2. apply MofZ_eq_from_action. intro v. now rewrite !conj_app, (app_inv A B _ H2), (app_inv A B _ H2).
Qed.
Section Moved.
  Context (A B : mat Z) (X Y : list site).
  Hypothesis (HB : ZMmul B A = ZMid) (MV : moved A X Y).
  Lemma exact_moved r t : exact_operation Y r t -> exact_operation X (conj B r A) (Mapp (MofZ B) t).
  Proof using All.
    intros EX x e Hx. destruct MV as [M1 M2]. destruct (M1 x e Hx) as (y & Hy & C). destruct (EX y e Hy) as (y' & Hy' & C'). destruct (M2 y' e Hy') as (x' & Hx' & C'').
    exists x'. split; [exact Hx'|]. rewrite <- (app_inv B A x' HB). unfold act in *. rewrite conj_app, <- Mapp_add. apply PEnd11.Vcongr_app.
    apply (PSymmOp.Vcongr_trans _ y'); [|exact C'']. apply (PSymmOp.Vcongr_trans _ (Vadd (Mapp (MofZ r) y) t)); [|exact C'].
    apply Vcongr_add; [|apply Vcongr_refl]. apply PEnd11.Vcongr_app. now apply PSymmOp.Vcongr_sym.
  Qed.
  Lemma within_moved tol m r t : operation_within tol m Y r t -> operation_within tol (Mmul m (MofZ A)) X (conj B r A) (Mapp (MofZ B) t).
  Proof using All.
    intros OW x e Hx. destruct MV as [M1 M2]. destruct (M1 x e Hx) as (y & Hy & (k & C)). destruct (OW y e Hy) as (y' & n & Hy' & Q). destruct (M2 y' e Hy') as (x' & Hx' & (k' & C')).
    exists x', (ZMapp B (ZVadd n (ZVadd (ZMapp r k) (zneg k')))). split; [exact Hx'|]. eapply Rle_trans; [|exact Q]. right. rewrite Mapp_Mmul. do 2 f_equal.
    unfold act. rewrite C, C', conj_app, !Mapp_add, Mapp_sub, !Mapp_add, !MofZ_app, !VofZ_add, PPrim.VofZ_neg, !MofZ_app.
    rewrite !(app_inv A B _ (zinv_comm _ _ HB)).
    generalize (Mapp (MofZ r) (Mapp (MofZ A) x)), (Mapp (MofZ A) x'), (Mapp (MofZ r) (VofZ k)). intros [a1 a2 a3] [b1 b2 b3] [c1 c2 c3]. destruct t, k', n. unfold Vadd, Vsub, Vscal, VofZ. cbn. f_equal; ring.
  Qed.
End Moved.
Lemma rigid_moved tol m A B X Y (rots rots' : mat Z -> Prop) : ZMmul B A = ZMid -> moved A X Y -> (forall r, rots' r -> rots (conj B r A)) ->
  rigid tol (Mmul m (MofZ A)) X rots -> rigid tol m Y rots'.
Proof.
  intros HB MV HR RG r t Hr OW. pose proof (zinv_comm _ _ HB) as HA.
  destruct (RG (conj B r A) (Mapp (MofZ B) t) (HR r Hr) (within_moved A B X Y HB MV tol m r t OW)) as (t0 & n & E & Q).
  exists (Mapp (MofZ A) t0), (ZMapp A n). split.
  - rewrite <- (conj_conj B r A HB HA). apply (exact_moved B A Y X HA (moved_sym A B X Y HB MV)). exact E.
  - eapply Rle_trans; [|exact Q]. right. f_equal. rewrite Mapp_Mmul. f_equal. rewrite Mapp_add, Mapp_sub, MofZ_app, (app_inv A B _ HA). reflexivity.
Qed.

(** ** The isometries of a box *)
Definition box_bravais (ls : lattice_system) : bravais := match ls with Cubic => cP | Tetragonal => tP | _ => oP end.
Lemma gram_app L r : gram (Mmul L (MofZ r)) = Mmul (Mtr (MofZ r)) (Mmul (gram L) (MofZ r)).
Proof. unfold gram. now rewrite Mtr_mul, !Mmul_assoc. Qed.
Lemma isometry_gram L r : lattice_isometry L r <-> gram (Mmul L (MofZ r)) = gram L.
Proof. reflexivity. Qed.
Lemma square_one (z : Z) : (z * z <= 1)%Z -> (z = -1 \/ z = 0 \/ z = 1)%Z.
Proof. intro H. nia. Qed.
Lemma unit_in x y z : (x * x + y * y + z * z = 1)%Z -> In (V x y z) units6.
Proof.
  intro H. assert (Hx : (x * x <= 1)%Z) by nia. assert (Hy : (y * y <= 1)%Z) by nia. assert (Hz : (z * z <= 1)%Z) by nia.
  apply square_one in Hx. apply square_one in Hy. apply square_one in Hz.
  destruct Hx as [->|[->| ->]], Hy as [->|[->| ->]], Hz as [->|[->| ->]]; try discriminate H; unfold units6; cbn [In]; tauto.
Qed.
Lemma sq_ge (z : Z) : z <> 0%Z -> 1 <= IZR z * IZR z.
Proof. intro H. rewrite <- mult_IZR. apply IZR_le. nia. Qed.
Lemma sq_nn (z : Z) : 0 <= IZR z * IZR z. Proof. apply Rle_0_sqr. Qed.
Lemma sq_small (C m : R) z : m < C -> 0 < C -> C * (IZR z * IZR z) <= m -> z = 0%Z.
Proof. intros H HC E. destruct (Z.eq_dec z 0) as [|N]; [assumption|]. pose proof (sq_ge _ N). exfalso. nra. Qed.
Lemma sq_pos_mul (C : R) z : 0 <= C -> 0 <= C * (IZR z * IZR z).
Proof. intro H. apply Rmult_le_pos; [exact H|apply sq_nn]. Qed.
(** what a column of an isometry is *)
Lemma col_short A B C x y z : 0 < A -> 0 <= B -> 0 <= C -> A < B -> A < C -> A * (IZR x * IZR x) + B * (IZR y * IZR y) + C * (IZR z * IZR z) = A -> (y = 0 /\ z = 0)%Z.
Proof.
  intros HA HB HC H1 H2 E. pose proof (sq_pos_mul A x ltac:(lra)). pose proof (sq_pos_mul B y HB). pose proof (sq_pos_mul C z HC).
  split; [apply (sq_small B A)|apply (sq_small C A)]; lra.
Qed.
Lemma col_plane A C x y z : 0 < A -> A < C -> A * (IZR x * IZR x) + A * (IZR y * IZR y) + C * (IZR z * IZR z) = A -> (z = 0)%Z.
Proof.
  intros HA H1 E. pose proof (sq_pos_mul A x ltac:(lra)). pose proof (sq_pos_mul A y ltac:(lra)). apply (sq_small C A); lra.
Qed.
Lemma one_Z (A : R) (k : Z) : 0 < A -> A * IZR k = A -> k = 1%Z.
Proof. intros HA E. apply eq_IZR. apply (Rmult_eq_reg_l A); lra. Qed.
Lemma zero_prod (A : R) (x y : Z) : 0 < A -> A * (IZR x * IZR y) = 0 -> (x * y = 0)%Z.
Proof. intros HA E. apply eq_IZR. rewrite mult_IZR. apply (Rmult_eq_reg_l A); lra. Qed.

Lemma holo_t_checked : forallb (fun r => if (m33 r =? 0)%Z then true else mem_rot r (holo_rots tP)) signed = true.
Proof. vm_compute. reflexivity. Qed.
Lemma holo_o_checked : forallb (fun r => if (m33 r =? 0)%Z then true else if (m22 r =? 0)%Z then true else mem_rot r (holo_rots oP)) signed = true.
Proof. vm_compute. reflexivity. Qed.
Lemma cols_signed u v w : In u units6 -> In v units6 -> In w units6 -> zdet u v w <> 0%Z -> In (zcols u v w) signed.
Proof.
  intros Hu Hv Hw D. pose proof (proj1 (forallb_forall _ _) signed_units u Hu) as Q1. pose proof (proj1 (forallb_forall _ _) Q1 v Hv) as Q2. pose proof (proj1 (forallb_forall _ _) Q2 w Hw) as Q3. cbn beta in Q3.
  destruct (zdet u v w =? 0)%Z eqn:E; [apply Z.eqb_eq in E; congruence|]. now apply mem_rot_In.
Qed.
Section Isometries.
  Context (L : mat R) (ls : lattice_system) (eps a b c : R).
  Hypothesis (EL : gram L = diag (a * a) (b * b) (c * c)) (Ba : 0 < a) (Bb : 0 < b) (Bc : 0 < c) (He : 0 < eps) (SE : standard_edges ls eps a b c).
  Lemma iso_eqs r : lattice_isometry L r ->
    let dp x1 y1 z1 x2 y2 z2 := a * a * (IZR x1 * IZR x2) + b * b * (IZR y1 * IZR y2) + c * c * (IZR z1 * IZR z2) in
    let '(M r11 r12 r13 r21 r22 r23 r31 r32 r33) := r in
    dp r11 r21 r31 r11 r21 r31 = a * a /\ dp r12 r22 r32 r12 r22 r32 = b * b /\ dp r13 r23 r33 r13 r23 r33 = c * c /\
    dp r11 r21 r31 r12 r22 r32 = 0 /\ dp r11 r21 r31 r13 r23 r33 = 0 /\ dp r12 r22 r32 r13 r23 r33 = 0.
  Proof using EL.
    intro H. apply (proj1 (isometry_gram L r)) in H. rewrite gram_app, EL in H. destruct r as [r11 r12 r13 r21 r22 r23 r31 r32 r33]. cbv zeta.
    unfold diag, MofZ, mmap, Mmul, Mtr in H. cbn [m11 m12 m13 m21 m22 m23 m31 m32 m33] in H. injection H as H1 H2 H3 H4 H5 H6 H7 H8 H9. repeat split; lra.
  Qed.
  Lemma iso_det r : lattice_isometry L r -> (ZMdet r * ZMdet r = 1)%Z.
  Proof using EL Ba Bb Bc.
    intro H. apply (proj1 (isometry_gram L r)) in H. apply (f_equal Mdet) in H. rewrite gram_app, EL, !Mdet_mul in H.
    assert (T : Mdet (Mtr (MofZ r)) = Mdet (MofZ r)) by (unfold Mdet, Mtr; cbn; ring). rewrite T, MofZ_det in H. apply eq_IZR. rewrite mult_IZR.
    assert (D : Mdet (diag (a * a) (b * b) (c * c)) = (a * b * c) * (a * b * c)) by (unfold Mdet, diag; cbn; ring). rewrite D in H.
    assert (0 < a * b * c) by (apply Rmult_lt_0_compat; [apply Rmult_lt_0_compat|]; assumption). assert (HP : 0 < (a * b * c) * (a * b * c)) by (apply Rmult_lt_0_compat; assumption). revert H HP. generalize ((a * b * c) * (a * b * c)), (IZR (ZMdet r)). intros u v H HP. apply (Rmult_eq_reg_l u); [|lra]. lra.
  Qed.
  Lemma iso_holo r : lattice_isometry L r -> In r (holo_rots (box_bravais ls)).
  Proof using All.
    intro H. pose proof (iso_eqs r H) as Q. pose proof (iso_det r H) as D. destruct r as [r11 r12 r13 r21 r22 r23 r31 r32 r33]. cbv zeta in Q. destruct Q as (E1 & E2 & E3 & E4 & E5 & E6).
    assert (ER : M r11 r12 r13 r21 r22 r23 r31 r32 r33 = zcols (V r11 r21 r31) (V r12 r22 r32) (V r13 r23 r33)) by reflexivity.
    assert (DN : zdet (V r11 r21 r31) (V r12 r22 r32) (V r13 r23 r33) <> 0%Z).
    { intro X. assert (Y : ZMdet (M r11 r12 r13 r21 r22 r23 r31 r32 r33) = zdet (V r11 r21 r31) (V r12 r22 r32) (V r13 r23 r33)) by (unfold ZMdet; zdets; cbn; ring).
      rewrite Y, X in D. discriminate D. }
    assert (Pa : 0 < a * a) by (now apply Rmult_lt_0_compat). assert (Pb : 0 < b * b) by (now apply Rmult_lt_0_compat). assert (Pc : 0 < c * c) by (now apply Rmult_lt_0_compat).
    assert (SG : In (V r11 r21 r31) units6 -> In (V r12 r22 r32) units6 -> In (V r13 r23 r33) units6 -> In (M r11 r12 r13 r21 r22 r23 r31 r32 r33) signed).
    { intros. rewrite ER. now apply cols_signed. }
    unfold standard_edges in SE. destruct ls; try contradiction; unfold box_bravais.
    - (* Orthorhombic *)
      destruct SE as [S1 S2]. destruct (col_short (a * a) (b * b) (c * c) r11 r21 r31 Pa ltac:(lra) ltac:(lra) ltac:(lra) ltac:(lra) E1) as [-> ->].
      assert (X1 : (r11 * r11 = 1)%Z) by (apply (one_Z (a * a)); [exact Pa|rewrite mult_IZR; lra]).
      assert (X2 : r12 = 0%Z) by (assert (Y : (r11 * r12 = 0)%Z) by (apply (zero_prod (a * a)); lra); nia). subst r12.
      assert (X3 : r13 = 0%Z) by (assert (Y : (r11 * r13 = 0)%Z) by (apply (zero_prod (a * a)); lra); nia). subst r13.
      assert (X4 : r32 = 0%Z). { pose proof (sq_pos_mul (b * b) r22 ltac:(lra)). apply (sq_small (c * c) (b * b)); lra. } subst r32.
      assert (X5 : (r22 * r22 = 1)%Z) by (apply (one_Z (b * b)); [exact Pb|rewrite mult_IZR; lra]).
      assert (X6 : r23 = 0%Z) by (assert (Y : (r22 * r23 = 0)%Z) by (apply (zero_prod (b * b)); lra); nia). subst r23.
      assert (X7 : (r33 * r33 = 1)%Z) by (apply (one_Z (c * c)); [exact Pc|rewrite mult_IZR; lra]).
      assert (HS : In (M r11 0 0 0 r22 0 0 0 r33)%Z signed) by (apply SG; apply unit_in; lia).
      pose proof (proj1 (forallb_forall _ _) holo_o_checked _ HS) as K. cbn [m33 m22] in K.
      destruct (r33 =? 0)%Z eqn:Q1; [apply Z.eqb_eq in Q1; subst r33; discriminate X7|]. destruct (r22 =? 0)%Z eqn:Q2; [apply Z.eqb_eq in Q2; subst r22; discriminate X5|]. now apply mem_rot_In.
    - (* Tetragonal *)
      destruct SE as [<- S2]. unfold Rabs in S2. destruct (Rcase_abs (a * a - c * c)) as [LT|GE].
      + assert (r31 = 0%Z) by (apply (col_plane (a * a) (c * c) r11 r21); lra). subst r31. assert (r32 = 0%Z) by (apply (col_plane (a * a) (c * c) r12 r22); lra). subst r32.
        assert (X3 : (r33 * r33 = 1)%Z).
        { unfold ZMdet in D. cbn [m11 m12 m13 m21 m22 m23 m31 m32 m33] in D.
          assert (Y : (r33 * r33 * ((r11 * r22 - r12 * r21) * (r11 * r22 - r12 * r21)) = 1)%Z) by (rewrite <- D; ring).
          assert (0 <= r33 * r33)%Z by nia. apply Z.mul_eq_1 in Y. lia. }
        assert (Y : IZR r33 * IZR r33 = 1) by (rewrite <- mult_IZR, X3; reflexivity). rewrite Y in E3. pose proof (sq_pos_mul (a * a) r13 ltac:(lra)). pose proof (sq_pos_mul (a * a) r23 ltac:(lra)).
        assert (X1 : r13 = 0%Z) by (apply (sq_small (a * a) 0); lra). assert (X2 : r23 = 0%Z) by (apply (sq_small (a * a) 0); lra). subst r13 r23.
        assert (X4 : (r11 * r11 + r21 * r21 = 1)%Z) by (apply (one_Z (a * a)); [exact Pa|rewrite plus_IZR, !mult_IZR; lra]).
        assert (X5 : (r12 * r12 + r22 * r22 = 1)%Z) by (apply (one_Z (a * a)); [exact Pa|rewrite plus_IZR, !mult_IZR; lra]).
        assert (HS : In (M r11 r12 0 r21 r22 0 0 0 r33)%Z signed) by (apply SG; apply unit_in; lia).
        pose proof (proj1 (forallb_forall _ _) holo_t_checked _ HS) as K. cbn [m33] in K. destruct (r33 =? 0)%Z eqn:Q1; [apply Z.eqb_eq in Q1; subst r33; discriminate X3|]. now apply mem_rot_In.
      + destruct (col_short (c * c) (a * a) (a * a) r33 r13 r23 Pc ltac:(lra) ltac:(lra) ltac:(lra) ltac:(lra) ltac:(lra)) as [-> ->].
        assert (X3 : (r33 * r33 = 1)%Z) by (apply (one_Z (c * c)); [exact Pc|rewrite mult_IZR; lra]).
        assert (X1 : r31 = 0%Z) by (assert (Y : (r31 * r33 = 0)%Z) by (apply (zero_prod (c * c)); lra); nia). subst r31.
        assert (X2 : r32 = 0%Z) by (assert (Y : (r32 * r33 = 0)%Z) by (apply (zero_prod (c * c)); lra); nia). subst r32.
        assert (X4 : (r11 * r11 + r21 * r21 = 1)%Z) by (apply (one_Z (a * a)); [exact Pa|rewrite plus_IZR, !mult_IZR; lra]).
        assert (X5 : (r12 * r12 + r22 * r22 = 1)%Z) by (apply (one_Z (a * a)); [exact Pa|rewrite plus_IZR, !mult_IZR; lra]).
        assert (HS : In (M r11 r12 0 r21 r22 0 0 0 r33)%Z signed) by (apply SG; apply unit_in; lia).
        pose proof (proj1 (forallb_forall _ _) holo_t_checked _ HS) as K. cbn [m33] in K. destruct (r33 =? 0)%Z eqn:Q1; [apply Z.eqb_eq in Q1; subst r33; discriminate X3|]. now apply mem_rot_In.
    - (* Cubic *)
      destruct SE as [<- <-]. rewrite signed_holo. apply SG; apply unit_in; apply (one_Z (a * a)); try exact Pa; rewrite !plus_IZR, !mult_IZR; lra.
  Qed.
  Lemma holo_iso r : In r (holo_rots (box_bravais ls)) -> lattice_isometry L r.
  Proof using All.
    intro H. apply (proj2 (isometry_gram L r)). rewrite gram_app, EL. clear EL. unfold standard_edges in SE. destruct ls; try (exfalso; exact SE); unfold box_bravais in H.
    all: try (destruct SE as [<- <-]); try (destruct SE as [<- _]); vm_compute in H; repeat (destruct H as [<-|H]; [unfold diag, MofZ, mmap, Mmul, Mtr; cbn [m11 m12 m13 m21 m22 m23 m31 m32 m33]; apply (@mat_ext R); cbn [m11 m12 m13 m21 m22 m23 m31 m32 m33]; ring|]); destruct H.
  Qed.
End Isometries.
