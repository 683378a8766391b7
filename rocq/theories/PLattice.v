(** Choosing successive shortest vectors among the 26 small combinations of a basis gives a basis. *)
From Coq Require Import ZArith Reals List Bool Lia Lra Psatz.
From Verif Require Import Num Mat RInst Spec RFacts PDelaunay PPrim PStructure.
Import ListNotations.
Open Scope R_scope.

Lemma cauchy (a b : vec R) : Rabs (Vdot a b) <= Vnorm a * Vnorm b.
Proof.
  apply Rsqr_incr_0_var; [|apply Rmult_le_pos; apply Vnorm_nonneg]. rewrite <- Rsqr_abs, Rsqr_mult. unfold Rsqr at 2 3. rewrite !Vnorm_sq.
  unfold Rsqr, Vdot. destruct a as [a1 a2 a3], b as [b1 b2 b3]. cbn [vx vy vz].
  pose proof (Rle_0_sqr (a1 * b2 - a2 * b1)). pose proof (Rle_0_sqr (a1 * b3 - a3 * b1)). pose proof (Rle_0_sqr (a2 * b3 - a3 * b2)).
  unfold Rsqr in *. lra.
Qed.
(** triple product of columns B z1, B z2, B z3 *)
Definition ZVcross (a b : vec Z) : vec Z := (V (vy a * vz b - vz a * vy b) (vz a * vx b - vx a * vz b) (vx a * vy b - vy a * vx b))%Z.
Definition zdet (a b c : vec Z) : Z := ZMdet (zcols a b c).
Lemma triple_Z B a b c : Vdot (Vcross (Mapp B (VofZ a)) (Mapp B (VofZ b))) (Mapp B (VofZ c)) = Mdet B * IZR (zdet a b c).
Proof. rewrite <- det_triple, cols_app, Mdet_mul, MofZ_det. reflexivity. Qed.
Lemma cross_Z0 B a b : ZVcross a b = V 0%Z 0%Z 0%Z -> Vcross (Mapp B (VofZ a)) (Mapp B (VofZ b)) = V0.
Proof.
  intro H. unfold ZVcross in H. injection H. intros H3 H2 H1.
  assert (E1 : IZR (vy a) * IZR (vz b) - IZR (vz a) * IZR (vy b) = 0) by (rewrite <- !mult_IZR, <- minus_IZR, H1; reflexivity).
  assert (E2 : IZR (vz a) * IZR (vx b) - IZR (vx a) * IZR (vz b) = 0) by (rewrite <- !mult_IZR, <- minus_IZR, H2; reflexivity).
  assert (E3 : IZR (vx a) * IZR (vy b) - IZR (vy a) * IZR (vx b) = 0) by (rewrite <- !mult_IZR, <- minus_IZR, H3; reflexivity).
  unfold Vcross, V0, Mapp, VofZ. cbn [vx vy vz]. revert E1 E2 E3.
  generalize (IZR (vx a)), (IZR (vy a)), (IZR (vz a)), (IZR (vx b)), (IZR (vy b)), (IZR (vz b)). intros a1 a2 a3 b1 b2 b3 E1 E2 E3.
  f_equal.
  - transitivity ((m22 B * m33 B - m23 B * m32 B) * (a2 * b3 - a3 * b2) - (m21 B * m33 B - m23 B * m31 B) * (a3 * b1 - a1 * b3)
                  + (m21 B * m32 B - m22 B * m31 B) * (a1 * b2 - a2 * b1)); [ring|rewrite E1, E2, E3; ring].
  - transitivity (- (m12 B * m33 B - m13 B * m32 B) * (a2 * b3 - a3 * b2) + (m11 B * m33 B - m13 B * m31 B) * (a3 * b1 - a1 * b3)
                  - (m11 B * m32 B - m12 B * m31 B) * (a1 * b2 - a2 * b1)); [ring|rewrite E1, E2, E3; ring].
  - transitivity ((m12 B * m23 B - m13 B * m22 B) * (a2 * b3 - a3 * b2) - (m11 B * m23 B - m13 B * m21 B) * (a3 * b1 - a1 * b3)
                  + (m11 B * m22 B - m12 B * m21 B) * (a1 * b2 - a2 * b1)); [ring|rewrite E1, E2, E3; ring].
Qed.

Definition zdiv (k : Z) (v : vec Z) : vec Z := (V (vx v / k) (vy v / k) (vz v / k))%Z.
Definition zscl (k : Z) (v : vec Z) : vec Z := (V (k * vx v) (k * vy v) (k * vz v))%Z.
Definition zveqb (a b : vec Z) : bool := ((vx a =? vx b) && (vy a =? vy b) && (vz a =? vz b))%Z.
Lemma zveqb_eq a b : zveqb a b = true -> a = b.
Proof. unfold zveqb. rewrite !andb_true_iff, !Z.eqb_eq. intros ((H1 & H2) & H3). now apply vec_ext. Qed.
(** [v] is [k] times one of the 26 vectors *)
Definition divis (k : Z) (v : vec Z) : bool := zveqb (zscl k (zdiv k v)) v && existsb (zveqb (zdiv k v)) dirs26.
Lemma divis_spec k v : divis k v = true -> exists x, In x dirs26 /\ v = zscl k x.
Proof.
  unfold divis. intro H. apply andb_prop in H. destruct H as [H1 H2]. apply zveqb_eq in H1. apply existsb_exists in H2.
  destruct H2 as (x & Hx & E). apply zveqb_eq in E. exists (zdiv k v). split; [now rewrite E|now rewrite H1].
Qed.
Definition half (u w : vec Z) : bool := divis 2 (ZVadd u w).
Definition third (u v w : vec Z) : bool := divis 3 (ZVadd (ZVadd u v) w).
Definition quarter (u v w : vec Z) : bool := divis 2 (ZVadd (ZVadd u v) w).
Definition certb (u v w : vec Z) : bool :=
  let d := Z.abs (zdet u v w) in
  if (d <=? 1)%Z then true else
  half u v || half u (zneg v) || half u w || half u (zneg w) || half v w || half v (zneg w) ||
  third u v w || third u v (zneg w) || third u (zneg v) w || third u (zneg v) (zneg w) ||
  (quarter u v w && quarter u v (zneg w) && quarter u (zneg v) w && quarter u (zneg v) (zneg w)).
Lemma cert_all : forallb (fun u => forallb (fun v => forallb (certb u v) dirs13) dirs13) dirs13 = true.
Proof. vm_compute. reflexivity. Qed.
Lemma cert_in u v w : In u dirs13 -> In v dirs13 -> In w dirs13 -> certb u v w = true.
Proof.
  intros Hu Hv Hw. pose proof cert_all as H. rewrite forallb_forall in H. specialize (H u Hu). rewrite forallb_forall in H.
  specialize (H v Hv). rewrite forallb_forall in H. now apply H.
Qed.

Section Choose.
  Context (B : mat R) (HB : Mdet B <> 0).
  Definition col (z : vec Z) : vec R := Mapp B (VofZ z).
  Definition nrm (z : vec Z) : R := Vdot (col z) (col z).
  Lemma col_add u v : col (ZVadd u v) = Vadd (col u) (col v).
  Proof. unfold col. rewrite <- Mapp_add. f_equal. unfold VofZ, ZVadd, Vadd. cbn. now rewrite !plus_IZR. Qed.
  Lemma col_neg u : col (zneg u) = Vscal (-1) (col u).
  Proof. unfold col. now rewrite VofZ_neg, Mapp_scal. Qed.
  Lemma col_scl k u : col (zscl k u) = Vscal (IZR k) (col u).
  Proof. unfold col. rewrite <- Mapp_scal. f_equal. unfold VofZ, zscl, Vscal. cbn. now rewrite !mult_IZR. Qed.
  Lemma nrm_neg u : nrm (zneg u) = nrm u.
  Proof. unfold nrm. rewrite col_neg. unfold Vdot, Vscal. cbn. ring. Qed.
  Lemma nrm_scl k u : nrm (zscl k u) = IZR k * IZR k * nrm u.
  Proof. unfold nrm. rewrite col_scl. unfold Vdot, Vscal. cbn. ring. Qed.
  Lemma nrm_add u v : nrm (ZVadd u v) = 2 * nrm u + 2 * nrm v - nrm (ZVadd u (zneg v)).
  Proof. unfold nrm. rewrite !col_add, col_neg. unfold Vdot, Vscal, Vadd. cbn. ring. Qed.
  Lemma nrm_nonneg u : 0 <= nrm u.
  Proof. unfold nrm, Vdot. pose proof (Rle_0_sqr (vx (col u))). pose proof (Rle_0_sqr (vy (col u))). pose proof (Rle_0_sqr (vz (col u))). unfold Rsqr in *. lra. Qed.
  Lemma nrm_pos u : u <> V 0%Z 0%Z 0%Z -> 0 < nrm u.
  Proof.
    intro H. destruct (Rle_lt_or_eq_dec _ _ (nrm_nonneg u)) as [|E]; auto. exfalso. apply H.
    assert (E0 : col u = V0).
    { unfold nrm, Vdot in E. destruct (col u) as [x y z]. cbn in E. unfold V0. assert (x = 0) by nra. assert (y = 0) by nra. assert (z = 0) by nra. congruence. }
    assert (T : forall v w, IZR (zdet u v w) = 0).
    { intros v w. apply (Rmult_eq_reg_l (Mdet B)); [|exact HB]. rewrite <- triple_Z. fold (col u). rewrite E0. unfold Vdot, Vcross, V0. cbn. ring. }
    pose proof (T (V 0 1 0)%Z (V 0 0 1)%Z) as T1. pose proof (T (V 1 0 0)%Z (V 0 0 1)%Z) as T2. pose proof (T (V 1 0 0)%Z (V 0 1 0)%Z) as T3.
    apply eq_IZR in T1, T2, T3. unfold zdet, ZMdet, zcols in T1, T2, T3. cbn [m11 m12 m13 m21 m22 m23 m31 m32 m33 vx vy vz] in T1, T2, T3.
    apply vec_ext; cbn [vx vy vz]; lia.
  Qed.
  Lemma half_lt u w x : ZVadd u w = zscl 2 x -> ZVadd u (zneg w) <> V 0%Z 0%Z 0%Z -> nrm u <= nrm w -> nrm x < nrm w.
  Proof.
    intros E H Hn. pose proof (nrm_add u w) as N. rewrite E, nrm_scl in N. pose proof (nrm_pos _ H). lra.
  Qed.
  Lemma third_lt u v w x : ZVadd (ZVadd u v) w = zscl 3 x -> ZVadd u (zneg w) <> V 0%Z 0%Z 0%Z -> nrm u <= nrm w -> nrm v <= nrm w -> nrm x < nrm w.
  Proof.
    intros E H Hu Hv. assert (N : nrm (ZVadd (ZVadd u v) w) = 3 * (nrm u + nrm v + nrm w) - nrm (ZVadd u (zneg v)) - nrm (ZVadd u (zneg w)) - nrm (ZVadd v (zneg w))).
    { unfold nrm. rewrite !col_add, !col_neg. unfold Vdot, Vscal, Vadd. cbn. ring. }
    rewrite E, nrm_scl in N. pose proof (nrm_pos _ H). pose proof (nrm_nonneg (ZVadd u (zneg v))). pose proof (nrm_nonneg (ZVadd v (zneg w))). lra.
  Qed.
  Lemma quarter_sum u v w x1 x2 x3 x4 : ZVadd (ZVadd u v) w = zscl 2 x1 -> ZVadd (ZVadd u v) (zneg w) = zscl 2 x2 ->
    ZVadd (ZVadd u (zneg v)) w = zscl 2 x3 -> ZVadd (ZVadd u (zneg v)) (zneg w) = zscl 2 x4 ->
    nrm x1 + nrm x2 + nrm x3 + nrm x4 = nrm u + nrm v + nrm w.
  Proof.
    intros E1 E2 E3 E4.
    assert (N : nrm (ZVadd (ZVadd u v) w) + nrm (ZVadd (ZVadd u v) (zneg w)) + nrm (ZVadd (ZVadd u (zneg v)) w) + nrm (ZVadd (ZVadd u (zneg v)) (zneg w))
      = 4 * (nrm u + nrm v + nrm w)).
    { unfold nrm. rewrite !col_add, !col_neg. unfold Vdot, Vscal, Vadd. cbn. ring. }
    rewrite E1, E2, E3, E4, !nrm_scl in N. lra.
  Qed.

  (** If p, q, r are successively shortest, their determinant is 1 or -1. *)
  Lemma minimal_basis p q r : In p dirs13 -> In q dirs13 -> In r dirs13 -> zdet p q r <> 0%Z ->
    nrm p <= nrm q -> nrm q <= nrm r ->
    (forall z, In z dirs26 -> ZVcross p z <> V 0%Z 0%Z 0%Z -> nrm q <= nrm z) ->
    (forall z, In z dirs26 -> zdet p q z <> 0%Z -> nrm r <= nrm z) ->
    Z.abs (zdet p q r) = 1%Z.
  Proof.
    intros Hp Hq Hr HD Hpq Hqr MQ MR. pose proof (cert_in p q r Hp Hq Hr) as C. unfold certb in C. cbv zeta in C.
    destruct (Z.leb_spec (Z.abs (zdet p q r)) 1) as [H1|H1]; [lia|]. exfalso.
    assert (NZ : forall s, (s = q \/ s = zneg q \/ s = r \/ s = zneg r) -> ZVadd p (zneg s) <> V 0%Z 0%Z 0%Z).
    { intros s Hs E. apply HD. assert (E' : p = s). { unfold ZVadd, zneg in E. injection E. intros. apply vec_ext; lia. }
      destruct Hs as [->|[->|[->| ->]]]; subst; unfold zdet, ZMdet, zcols, zneg; cbn [m11 m12 m13 m21 m22 m23 m31 m32 m33 vx vy vz]; ring. }
    assert (NZ2 : forall s, (s = r \/ s = zneg r) -> ZVadd q (zneg s) <> V 0%Z 0%Z 0%Z).
    { intros s Hs E. apply HD. assert (E' : q = s). { unfold ZVadd, zneg in E. injection E. intros. apply vec_ext; lia. }
      destruct Hs as [->| ->]; subst; unfold zdet, ZMdet, zcols, zneg; cbn [m11 m12 m13 m21 m22 m23 m31 m32 m33 vx vy vz]; ring. }
    assert (CR : forall x, ZVcross p x = V 0%Z 0%Z 0%Z -> forall k, zdet p x k = 0%Z).
    { intros x E k. unfold ZVcross in E. injection E. intros E3 E2 E1. unfold zdet, ZMdet, zcols. cbn [m11 m12 m13 m21 m22 m23 m31 m32 m33 vx vy vz].
      transitivity ((vy p * vz x - vz p * vy x) * vx k + (vz p * vx x - vx p * vz x) * vy k + (vx p * vy x - vy p * vx x) * vz k)%Z; [ring|rewrite E1, E2, E3; ring]. }
    assert (HQ : forall s, (s = q \/ s = zneg q) -> half p s = true -> False).
    { intros s Hs H. apply divis_spec in H. destruct H as (x & Hx & E).
      assert (Ns : nrm s = nrm q) by (destruct Hs as [->| ->]; [reflexivity|apply nrm_neg]).
      assert (L1 : nrm x < nrm s) by (apply (half_lt p s x E); [apply NZ; tauto|lra]).
      assert (nrm q <= nrm x); [|lra]. apply MQ; [exact Hx|]. intro Z0.
      apply HD. pose proof (CR x Z0 r) as D0.
      assert (E2 : (2 * zdet p x r = zdet p (ZVadd p s) r)%Z) by (rewrite E; unfold zdet, ZMdet, zcols, zscl; cbn [m11 m12 m13 m21 m22 m23 m31 m32 m33 vx vy vz]; ring).
      assert (E3 : zdet p (ZVadd p s) r = zdet p s r) by (unfold zdet, ZMdet, zcols, ZVadd; cbn [m11 m12 m13 m21 m22 m23 m31 m32 m33 vx vy vz]; ring).
      destruct Hs as [->| ->]; [lia|].
      assert (zdet p (zneg q) r = - zdet p q r)%Z by (unfold zdet, ZMdet, zcols, zneg; cbn [m11 m12 m13 m21 m22 m23 m31 m32 m33 vx vy vz]; ring). lia. }
    assert (Dn : forall u, zdet p q (zneg u) = (- zdet p q u)%Z) by (intro u; unfold zdet, ZMdet, zcols, zneg; cbn [m11 m12 m13 m21 m22 m23 m31 m32 m33 vx vy vz]; ring).
    assert (Da : forall u v, zdet p q (ZVadd u v) = (zdet p q u + zdet p q v)%Z) by (intros u v; unfold zdet, ZMdet, zcols, ZVadd; cbn [m11 m12 m13 m21 m22 m23 m31 m32 m33 vx vy vz]; ring).
    assert (Dk : forall k u, zdet p q (zscl k u) = (k * zdet p q u)%Z) by (intros k u; unfold zdet, ZMdet, zcols, zscl; cbn [m11 m12 m13 m21 m22 m23 m31 m32 m33 vx vy vz]; ring).
    assert (Dp : zdet p q p = 0%Z) by (unfold zdet, ZMdet, zcols; cbn [m11 m12 m13 m21 m22 m23 m31 m32 m33 vx vy vz]; ring).
    assert (Dq : zdet p q q = 0%Z) by (unfold zdet, ZMdet, zcols; cbn [m11 m12 m13 m21 m22 m23 m31 m32 m33 vx vy vz]; ring).
    assert (HR : forall u s, (u = p \/ u = q) -> (s = r \/ s = zneg r) -> half u s = true -> False).
    { intros u s Hu Hs H. apply divis_spec in H. destruct H as (x & Hx & E).
      assert (Ns : nrm s = nrm r) by (destruct Hs as [->| ->]; [reflexivity|apply nrm_neg]).
      assert (L1 : nrm x < nrm s). { apply (half_lt u s x E); destruct Hu as [->| ->]; [apply NZ; tauto|apply NZ2; tauto|lra|lra]. }
      assert (nrm r <= nrm x); [|lra]. apply MR; [exact Hx|]. intro Z0. apply (f_equal (zdet p q)) in E. rewrite Da, Dk in E.
      destruct Hu as [->| ->]; destruct Hs as [->| ->]; rewrite ?Dn in E; lia. }
    assert (HT : forall v s, (v = q \/ v = zneg q) -> (s = r \/ s = zneg r) -> third p v s = true -> False).
    { intros v s Hv Hs H. apply divis_spec in H. destruct H as (x & Hx & E).
      assert (Ns : nrm s = nrm r) by (destruct Hs as [->| ->]; [reflexivity|apply nrm_neg]).
      assert (Nv : nrm v = nrm q) by (destruct Hv as [->| ->]; [reflexivity|apply nrm_neg]).
      assert (L1 : nrm x < nrm s). { apply (third_lt p v s x E); [apply NZ; tauto|lra|lra]. }
      assert (nrm r <= nrm x); [|lra]. apply MR; [exact Hx|]. intro Z0. apply (f_equal (zdet p q)) in E. rewrite !Da, Dk in E.
      destruct Hv as [->| ->]; destruct Hs as [->| ->]; rewrite ?Dn in E; lia. }
    repeat (apply orb_prop in C; destruct C as [C|C]);
      try (revert C; apply HQ; tauto); try (revert C; apply HR; tauto); try (revert C; apply HT; tauto).
    rewrite !andb_true_iff in C. destruct C as (((C1 & C2) & C3) & C4).
    apply divis_spec in C1, C2, C3, C4. destruct C1 as (x1 & X1 & E1), C2 as (x2 & X2 & E2), C3 as (x3 & X3 & E3), C4 as (x4 & X4 & E4).
    pose proof (quarter_sum p q r x1 x2 x3 x4 E1 E2 E3 E4) as S.
    apply (f_equal (zdet p q)) in E1, E2, E3, E4. rewrite !Da, Dk in E1. rewrite !Da, Dk, ?Dn in E2. rewrite !Da, Dk, ?Dn in E3. rewrite !Da, Dk, ?Dn in E4.
    assert (nrm r <= nrm x1) by (apply MR; [exact X1|lia]). assert (nrm r <= nrm x2) by (apply MR; [exact X2|lia]).
    assert (nrm r <= nrm x3) by (apply MR; [exact X3|lia]). assert (nrm r <= nrm x4) by (apply MR; [exact X4|lia]).
    assert (0 < nrm r). { apply nrm_pos. intro E. subst r. apply HD. unfold zdet, ZMdet, zcols. cbn [m11 m12 m13 m21 m22 m23 m31 m32 m33 vx vy vz]. ring. }
    lra.
  Qed.
End Choose.
