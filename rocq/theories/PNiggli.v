(** Proofs about Reducer::niggli_reduce (reduce.rs 214-398). *)
From Coq Require Import ZArith Reals String List Bool Lia Lra Psatz Permutation Sorting.Sorted.
From Flocq Require Import Core.Raux.
From Verif Require Import Num Mat Utils Structure Reduce RInst Spec RFacts PUtils PStructure.
Import ListNotations.
Open Scope R_scope.

(** ** The sign step A3/A4 *)
(** a comparison class of one scalar product *)
Lemma class (x eps : R) : 0 <= eps ->
  (x < - eps /\ @flt RNum x (@fmul RNum (@fm1 RNum) eps) = true /\ @flt RNum x (@fneg RNum eps) = true /\
     @flt RNum (@f0 RNum) (@fsub RNum x eps) = false) \/
  (- eps <= x < eps /\ @flt RNum x (@fmul RNum (@fm1 RNum) eps) = false /\ @flt RNum x (@fneg RNum eps) = false /\
     @flt RNum x eps = true /\ @flt RNum (@f0 RNum) (@fsub RNum x eps) = false) \/
  (x = eps /\ @flt RNum x (@fmul RNum (@fm1 RNum) eps) = false /\ @flt RNum x (@fneg RNum eps) = false /\
     @flt RNum x eps = false /\ @flt RNum (@f0 RNum) (@fsub RNum x eps) = false) \/
  (eps < x /\ @flt RNum x (@fmul RNum (@fm1 RNum) eps) = false /\ @flt RNum x (@fneg RNum eps) = false /\
     @flt RNum x eps = false /\ @flt RNum (@f0 RNum) (@fsub RNum x eps) = true).
Proof.
  intro H0. assert (E : @fmul RNum (@fm1 RNum) eps = - eps) by (cbn; ring). rewrite E.
  change (@fneg RNum eps) with (- eps). change (@f0 RNum) with 0. change (@fsub RNum x eps) with (x - eps).
  destruct (Rlt_or_le x (- eps)); [left|right; destruct (Rlt_or_le x eps); [left|right; destruct (Req_dec x eps); [left|right]]].
  - repeat split; try (apply flt_true; lra); try (apply flt_false; lra); lra.
  - repeat split; try (apply flt_true; lra); try (apply flt_false; lra); lra.
  - repeat split; try (apply flt_true; lra); try (apply flt_false; lra); lra.
  - repeat split; try (apply flt_true; lra); try (apply flt_false; lra); lra.
Qed.

Definition signs (eps xi eta zeta : R) : R * R * R :=
  let '(num_negative, num_zero) := @num_negative_zero RNum [xi; eta; zeta] eps in
  if (Z.rem num_negative 2 =? 0)%Z && (num_zero =? 0)%Z
  then @a3_signs RNum eps xi eta zeta else @a4_signs RNum eps xi eta zeta.

Definition pm1 (z : Z) : Prop := z = 1%Z \/ z = (-1)%Z.

Ltac prod_case eps :=
  match goal with
  | |- context [@flt RNum ?p (@fneg RNum eps)] =>
      let E := fresh "E" in
      destruct (@flt RNum p (@fneg RNum eps)) eqn:E;
      [ apply flt_true in E; cbn in E | apply flt_false in E; cbn in E ]
  | _ => idtac
  end.

Lemma signs_spec (eps xi eta zeta : R) : 0 <= eps < 1 ->
  exists i j k : Z, signs eps xi eta zeta = (IZR i, IZR j, IZR k) /\ pm1 i /\ pm1 j /\ pm1 k /\ (i * j * k = 1)%Z /\
    ((eps <= IZR i * xi /\ eps <= IZR j * eta /\ eps <= IZR k * zeta) \/
     (IZR i * xi <= eps /\ IZR j * eta <= eps /\ IZR k * zeta <= eps)).
Proof.
  intros He. unfold signs, num_negative_zero, a3_signs, a4_signs. cbn [fold_left nnz_step].
  destruct (class xi eps ltac:(lra)) as [X|[X|[X|X]]]; decompose [and] X; clear X;
  destruct (class eta eps ltac:(lra)) as [X|[X|[X|X]]]; decompose [and] X; clear X;
  destruct (class zeta eps ltac:(lra)) as [X|[X|[X|X]]]; decompose [and] X; clear X;
  repeat (match goal with H : @flt RNum _ _ = _ |- _ => progress rewrite H end; cbn -[flt fmul fneg f1 fm1 f0 RNum]);
  prod_case eps; try (exfalso; lra);
  match goal with |- exists i j k, (?a, ?b, ?c) = _ /\ _ =>
    let f x := match x with @fm1 _ => constr:((-1)%Z) | _ => constr:(1%Z) end in
    let i := f a in let j := f b in let k := f c in exists i, j, k end;
  (split; [reflexivity|]); unfold pm1; (split; [auto; fail|]); (split; [auto; fail|]); (split; [auto; fail|]); (split; [reflexivity|]); first [left; lra | right; lra].
Qed.
Lemma signs_id (eps xi eta zeta : R) : 0 <= eps < 1 ->
  (eps <= xi /\ eps <= eta /\ eps <= zeta) \/ (xi < eps /\ eta < eps /\ zeta < eps) ->
  signs eps xi eta zeta = (1, 1, 1).
Proof.
  intros He Hc. unfold signs, num_negative_zero, a3_signs, a4_signs. cbn [fold_left nnz_step].
  destruct (class xi eps ltac:(lra)) as [X|[X|[X|X]]]; decompose [and] X; clear X;
  destruct (class eta eps ltac:(lra)) as [X|[X|[X|X]]]; decompose [and] X; clear X;
  destruct (class zeta eps ltac:(lra)) as [X|[X|[X|X]]]; decompose [and] X; clear X;
  try (exfalso; lra);
  repeat (match goal with H : @flt RNum _ _ = _ |- _ => progress rewrite H end; cbn -[flt fmul fneg f1 fm1 f0 RNum]);
  prod_case eps; try (exfalso; lra); reflexivity.
Qed.

(** ** The branch conditions *)
Lemma cust_eq_false (a b e : R) : @cust_eq RNum a b e = false <-> e < Rabs (a - b).
Proof.
  rewrite <- not_true_iff_false, cust_eq_spec. split; intro H; [now apply Rnot_le_lt|]. apply Rlt_not_le. exact H.
Qed.
Lemma bool_false_or a b : a || b = false <-> a = false /\ b = false. Proof. apply orb_false_iff. Qed.
Lemma guarded (a b : R) e (q : bool) (Q : Prop) : (q = false <-> Q) ->
  (@cust_eq RNum a b e && q = false <-> (Rabs (a - b) <= e -> Q)).
Proof.
  intro H. rewrite andb_false_iff, cust_eq_false, H. split.
  - intros [K|K] L; [lra|auto].
  - intro K. destruct (Rle_or_lt (Rabs (a - b)) e); auto.
Qed.

Lemma a1_false (eps : R) (g : mat R) : @a1_cond RNum eps g = false <->
  m11 g <= m22 g + eps /\ (Rabs (m11 g - m22 g) <= eps -> Rabs (2 * m23 g) <= Rabs (2 * m13 g) + eps).
Proof.
  unfold a1_cond. rewrite bool_false_or, (guarded _ _ _ _ (Rabs (2 * m23 g) <= Rabs (2 * m13 g) + eps)).
  - rewrite flt_false. unfold g_a, g_b. cbn [fsub RNum]. split; intros [A B]; split; auto; cbn in *; lra.
  - rewrite flt_false. unfold g_xi, g_eta. cbn. split; intro; lra.
Qed.
Lemma a2_false (eps : R) (g : mat R) : @a2_cond RNum eps g = false <->
  m22 g <= m33 g + eps /\ (Rabs (m22 g - m33 g) <= eps -> Rabs (2 * m13 g) <= Rabs (2 * m12 g) + eps).
Proof.
  unfold a2_cond. rewrite bool_false_or, (guarded _ _ _ _ (Rabs (2 * m13 g) <= Rabs (2 * m12 g) + eps)).
  - rewrite flt_false. unfold g_b, g_c. cbn [fsub RNum]. split; intros [A B]; split; auto; cbn in *; lra.
  - rewrite flt_false. unfold g_zeta, g_eta. cbn. split; intro; lra.
Qed.
Lemma a5_false (eps : R) (g : mat R) : @a5_cond RNum eps g = false <->
  Rabs (2 * m23 g) <= m22 g + eps /\ (Rabs (2 * m23 g - m22 g) <= eps -> 2 * m12 g <= 2 * (2 * m13 g) + eps) /\
  (Rabs (2 * m23 g + m22 g) <= eps -> - eps <= 2 * m12 g).
Proof.
  unfold a5_cond. rewrite !bool_false_or.
  rewrite (guarded (@g_xi RNum g) (@g_b RNum g) _ _ (2 * m12 g <= 2 * (2 * m13 g) + eps)),
          (guarded (@g_xi RNum g) _ _ _ (- eps <= 2 * m12 g)).
  - rewrite flt_false. unfold g_xi, g_b. cbn.
    replace (2 * m23 g - -1 * m22 g) with (2 * m23 g + m22 g) by ring.
    split; [intros [[A B] C]|intros (A & B & C)]; repeat split; auto; lra.
  - rewrite flt_false. unfold g_zeta. cbn. split; intro; lra.
  - rewrite flt_false. unfold g_zeta, g_eta. cbn. split; intro; lra.
Qed.
Lemma a6_false (eps : R) (g : mat R) : @a6_cond RNum eps g = false <->
  Rabs (2 * m13 g) <= m11 g + eps /\ (Rabs (2 * m13 g - m11 g) <= eps -> 2 * m12 g <= 2 * (2 * m23 g) + eps) /\
  (Rabs (2 * m13 g + m11 g) <= eps -> - eps <= 2 * m12 g).
Proof.
  unfold a6_cond. rewrite !bool_false_or.
  rewrite (guarded (@g_eta RNum g) (@g_a RNum g) _ _ (2 * m12 g <= 2 * (2 * m23 g) + eps)),
          (guarded (@g_eta RNum g) _ _ _ (- eps <= 2 * m12 g)).
  - rewrite flt_false. unfold g_eta, g_a. cbn.
    replace (2 * m13 g - -1 * m11 g) with (2 * m13 g + m11 g) by ring.
    split; [intros [[A B] C]|intros (A & B & C)]; repeat split; auto; lra.
  - rewrite flt_false. unfold g_zeta. cbn. split; intro; lra.
  - rewrite flt_false. unfold g_zeta, g_xi. cbn. split; intro; lra.
Qed.
Lemma a7_false (eps : R) (g : mat R) : @a7_cond RNum eps g = false <->
  Rabs (2 * m12 g) <= m11 g + eps /\ (Rabs (2 * m12 g - m11 g) <= eps -> 2 * m13 g <= 2 * (2 * m23 g) + eps) /\
  (Rabs (2 * m12 g + m11 g) <= eps -> - eps <= 2 * m13 g).
Proof.
  unfold a7_cond. rewrite !bool_false_or.
  rewrite (guarded (@g_zeta RNum g) (@g_a RNum g) _ _ (2 * m13 g <= 2 * (2 * m23 g) + eps)),
          (guarded (@g_zeta RNum g) _ _ _ (- eps <= 2 * m13 g)).
  - rewrite flt_false. unfold g_zeta, g_a. cbn.
    replace (2 * m12 g - -1 * m11 g) with (2 * m12 g + m11 g) by ring.
    split; [intros [[A B] C]|intros (A & B & C)]; repeat split; auto; lra.
  - rewrite flt_false. unfold g_eta. cbn. split; intro; lra.
  - rewrite flt_false. unfold g_eta, g_xi. cbn. split; intro; lra.
Qed.
Lemma a8_false (eps : R) (g : mat R) : @a8_cond RNum eps g = false <->
  - eps <= 2 * m23 g + 2 * m13 g + 2 * m12 g + m11 g + m22 g /\
  (Rabs (2 * m23 g + 2 * m13 g + 2 * m12 g + m11 g + m22 g) <= eps -> 2 * (m11 g + 2 * m13 g) + 2 * m12 g <= eps).
Proof.
  unfold a8_cond. cbv zeta. rewrite bool_false_or, (guarded _ _ _ _ (2 * (m11 g + 2 * m13 g) + 2 * m12 g <= eps)).
  - rewrite flt_false. unfold g_xi, g_eta, g_zeta, g_a, g_b. cbn. rewrite Rminus_0_r. reflexivity.
  - rewrite flt_false. unfold g_eta, g_zeta, g_a. cbn. split; intro; lra.
Qed.

(** ** One step *)
Lemma c34_signs (eps : R) (g : mat R) : @c34_mat RNum eps g =
  let '(i, j, k) := signs eps (2 * m23 g) (2 * m13 g) (2 * m12 g) in (M i 0 0 0 j 0 0 0 k).
Proof.
  unfold c34_mat, signs, g_xi, g_eta, g_zeta. cbn [num RNum fmul f2 fofZ].
  destruct (@num_negative_zero RNum _ _) as [nn nz]. reflexivity.
Qed.
Definition zdiag (i j k : Z) : mat Z := (M i 0 0 0 j 0 0 0 k)%Z.
Lemma c34_spec (eps : R) (g : mat R) : 0 <= eps < 1 -> exists i j k, pm1 i /\ pm1 j /\ pm1 k /\ (i * j * k = 1)%Z /\
  @c34_mat RNum eps g = MofZ (zdiag i j k) /\
  ((eps <= IZR i * (2 * m23 g) /\ eps <= IZR j * (2 * m13 g) /\ eps <= IZR k * (2 * m12 g)) \/
   (IZR i * (2 * m23 g) <= eps /\ IZR j * (2 * m13 g) <= eps /\ IZR k * (2 * m12 g) <= eps)).
Proof.
  intro He. destruct (signs_spec eps (2 * m23 g) (2 * m13 g) (2 * m12 g) He) as (i & j & k & E & A & B & C & D & F).
  exists i, j, k. repeat (split; [assumption|]). split; [|exact F]. rewrite c34_signs, E. reflexivity.
Qed.

Definition rcongr (c g : mat R) : mat R := Mmul (Mmul (Mtr c) g) c.
Lemma congr_R (c : mat R) (st : mat R * mat R) : @congr RNum c st = (rcongr c (fst st), Mmul (snd st) c).
Proof. reflexivity. Qed.
Lemma diag_entries i j k g : pm1 i -> pm1 j -> pm1 k -> (i * j * k = 1)%Z ->
  let g' := rcongr (MofZ (zdiag i j k)) g in
  m11 g' = m11 g /\ m22 g' = m22 g /\ m33 g' = m33 g /\
  m23 g' = IZR i * m23 g /\ m13 g' = IZR j * m13 g /\ m12 g' = IZR k * m12 g.
Proof.
  intros [-> | ->] [-> | ->] [-> | ->] D; try discriminate D; unfold rcongr, Mmul, Mtr, MofZ, zdiag; cbn;
    repeat split; ring.
Qed.
Lemma Rabs_pm1 i x : pm1 i -> Rabs (IZR i * x) = Rabs x.
Proof. intros [-> | ->]; rewrite Rabs_mult, <- abs_IZR; cbn; ring. Qed.

Lemma a1_after (eps : R) (g : mat R) : 0 <= eps -> @a1_cond RNum eps g = true ->
  @a1_cond RNum eps (rcongr (@c1_mat RNum) g) = false.
Proof.
  intros He H. unfold a1_cond in H. apply orb_true_iff in H. apply a1_false.
  assert (E11 : m11 (rcongr (@c1_mat RNum) g) = m22 g) by (unfold rcongr, Mmul, Mtr; cbn; ring).
  assert (E22 : m22 (rcongr (@c1_mat RNum) g) = m11 g) by (unfold rcongr, Mmul, Mtr; cbn; ring).
  assert (E23 : m23 (rcongr (@c1_mat RNum) g) = m13 g) by (unfold rcongr, Mmul, Mtr; cbn; ring).
  assert (E13 : m13 (rcongr (@c1_mat RNum) g) = m23 g) by (unfold rcongr, Mmul, Mtr; cbn; ring).
  rewrite E11, E22, E23, E13. destruct H as [H|H].
  - apply flt_true in H. unfold g_a, g_b in H. cbn in H. split; [lra|]. intro K. apply Rabs_le_inv in K. lra.
  - apply andb_true_iff in H. destruct H as [H1 H2]. apply cust_eq_spec in H1. apply flt_true in H2.
    unfold g_a, g_b, g_xi, g_eta in H1, H2. cbn in H1, H2. apply Rabs_le_inv in H1. split; [lra|]. intros _. lra.
Qed.

(** the invariant: metric = T^t G0 T with T integral of determinant one *)
Definition reach (G0 : mat R) (st : mat R * mat R) : Prop :=
  exists T, ZMdet T = 1%Z /\ snd st = MofZ T /\ fst st = rcongr (MofZ T) G0.
Lemma reach_congr G0 c C (st : mat R * mat R) : c = MofZ C -> ZMdet C = 1%Z -> reach G0 st -> reach G0 (@congr RNum c st).
Proof.
  intros -> HC (T & HT & E1 & E2). exists (ZMmul T C). split; [|split].
  - replace (ZMdet (ZMmul T C)) with (ZMdet T * ZMdet C)%Z by (unfold ZMdet, ZMmul; cbn; ring). now rewrite HT, HC.
  - rewrite congr_R. cbn. rewrite E1. symmetry. apply MofZ_mul.
  - rewrite congr_R. cbn. rewrite E2, MofZ_mul. unfold rcongr. rewrite Mtr_mul, !Mmul_assoc. reflexivity.
Qed.
Definition zsign (x : R) : Z := if Rlt_bool x 0 then (-1)%Z else 1%Z.
Lemma signum_Z x : @fsignum RNum x = IZR (zsign x).
Proof. cbn. unfold Rsignum, zsign. destruct (Rlt_bool x 0); reflexivity. Qed.
Lemma mone_mul x : -1 * IZR x = IZR (- x). Proof. rewrite opp_IZR. ring. Qed.

Definition pre (eps : R) (st : mat R * mat R) : mat R * mat R :=
  if @a1_cond RNum eps (fst st) then @congr RNum (@c1_mat RNum) st else st.
Definition mid (eps : R) (st : mat R * mat R) : mat R * mat R := @congr RNum (@c34_mat RNum eps (fst st)) st.
Definition post (eps : R) (st : mat R * mat R) : bool * (mat R * mat R) :=
  if @a5_cond RNum eps (fst st) then (true, @congr RNum (@c5_mat RNum (fst st)) st)
  else if @a6_cond RNum eps (fst st) then (true, @congr RNum (@c6_mat RNum (fst st)) st)
  else if @a7_cond RNum eps (fst st) then (true, @congr RNum (@c7_mat RNum (fst st)) st)
  else if @a8_cond RNum eps (fst st) then (true, @congr RNum (@c8_mat RNum) st)
  else (false, st).
Lemma step_eq (eps : R) (st : mat R * mat R) : @niggli_step RNum eps st =
  if @a2_cond RNum eps (fst (pre eps st)) then (true, @congr RNum (@c2_mat RNum) (pre eps st))
  else post eps (mid eps (pre eps st)).
Proof. reflexivity. Qed.

Lemma step_reach (eps : R) (G0 : mat R) (st : mat R * mat R) : 0 <= eps < 1 -> reach G0 st -> reach G0 (snd (@niggli_step RNum eps st)).
Proof.
  intros He H. rewrite step_eq.
  assert (H1 : reach G0 (pre eps st)).
  { unfold pre. destruct (@a1_cond RNum eps (fst st)); auto. now apply (reach_congr G0 _ (M 0 (-1) 0 (-1) 0 0 0 0 (-1))%Z). }
  set (st1 := pre eps st) in *. clearbody st1. destruct (@a2_cond RNum eps (fst st1)).
  { cbn [snd]. now apply (reach_congr G0 _ (M (-1) 0 0 0 0 (-1) 0 (-1) 0)%Z). }
  destruct (c34_spec eps (fst st1) He) as (i & j & k & Hi & Hj & Hk & Hp & E & _).
  assert (H2 : reach G0 (mid eps st1)).
  { unfold mid. apply (reach_congr G0 _ (zdiag i j k)); auto. unfold ZMdet, zdiag. cbn. rewrite <- Hp. ring. }
  set (st2 := mid eps st1) in *. clearbody st2. unfold post.
  destruct (@a5_cond RNum eps (fst st2)); [cbn [snd]|destruct (@a6_cond RNum eps (fst st2)); [cbn [snd]|
    destruct (@a7_cond RNum eps (fst st2)); [cbn [snd]|destruct (@a8_cond RNum eps (fst st2)); cbn [snd]]]]; auto.
  - apply (reach_congr G0 _ (M 1 0 0 0 1 (- zsign (@g_xi RNum (fst st2))) 0 0 1)%Z); auto.
    + unfold c5_mat, MofZ. rewrite signum_Z. cbn [m11 m12 m13 m21 m22 m23 m31 m32 m33 fm1 f0 f1 fofZ fmul RNum].
      rewrite mone_mul. reflexivity.
    + unfold ZMdet; cbn [m11 m12 m13 m21 m22 m23 m31 m32 m33]; ring.
  - apply (reach_congr G0 _ (M 1 0 (- zsign (@g_eta RNum (fst st2))) 0 1 0 0 0 1)%Z); auto.
    + unfold c6_mat, MofZ. rewrite signum_Z. cbn [m11 m12 m13 m21 m22 m23 m31 m32 m33 fm1 f0 f1 fofZ fmul RNum].
      rewrite mone_mul. reflexivity.
    + unfold ZMdet; cbn [m11 m12 m13 m21 m22 m23 m31 m32 m33]; ring.
  - apply (reach_congr G0 _ (M 1 (- zsign (@g_zeta RNum (fst st2))) 0 0 1 0 0 0 1)%Z); auto.
    + unfold c7_mat, MofZ. rewrite signum_Z. cbn [m11 m12 m13 m21 m22 m23 m31 m32 m33 fm1 f0 f1 fofZ fmul RNum].
      rewrite mone_mul. reflexivity.
    + unfold ZMdet; cbn [m11 m12 m13 m21 m22 m23 m31 m32 m33]; ring.
  - now apply (reach_congr G0 _ (M 1 0 1 0 1 1 0 0 1)%Z).
Qed.

Lemma step_exit (eps : R) (st st' : mat R * mat R) : 0 <= eps < 1 -> @niggli_step RNum eps st = (false, st') -> niggli_within eps (fst st').
Proof.
  intros He H. rewrite step_eq in H.
  assert (A1 : @a1_cond RNum eps (fst (pre eps st)) = false).
  { unfold pre. destruct (@a1_cond RNum eps (fst st)) eqn:E; auto. rewrite congr_R. cbn [fst]. apply a1_after; auto. lra. }
  set (st1 := pre eps st) in *. clearbody st1. destruct (@a2_cond RNum eps (fst st1)) eqn:A2; [discriminate|].
  destruct (c34_spec eps (fst st1) He) as (i & j & k & Hi & Hj & Hk & Hp & E & S).
  set (st2 := mid eps st1) in *. unfold post in H.
  destruct (@a5_cond RNum eps (fst st2)) eqn:A5; [discriminate|].
  destruct (@a6_cond RNum eps (fst st2)) eqn:A6; [discriminate|].
  destruct (@a7_cond RNum eps (fst st2)) eqn:A7; [discriminate|].
  destruct (@a8_cond RNum eps (fst st2)) eqn:A8; [discriminate|]. injection H as <-.
  apply a1_false in A1. apply a2_false in A2. apply a5_false in A5. apply a6_false in A6. apply a7_false in A7. apply a8_false in A8.
  destruct (diag_entries i j k (fst st1) Hi Hj Hk Hp) as (D1 & D2 & D3 & D4 & D5 & D6).
  assert (Es : fst st2 = rcongr (MofZ (zdiag i j k)) (fst st1)).
  { unfold st2, mid. rewrite congr_R. cbn [fst]. now rewrite <- E. }
  rewrite <- Es in D1, D2, D3, D4, D5, D6. clearbody st2.
  assert (X1 : Rabs (2 * m23 (fst st2)) = Rabs (2 * m23 (fst st1))).
  { rewrite D4. replace (2 * (IZR i * m23 (fst st1))) with (IZR i * (2 * m23 (fst st1))) by ring. now apply Rabs_pm1. }
  assert (X2 : Rabs (2 * m13 (fst st2)) = Rabs (2 * m13 (fst st1))).
  { rewrite D5. replace (2 * (IZR j * m13 (fst st1))) with (IZR j * (2 * m13 (fst st1))) by ring. now apply Rabs_pm1. }
  assert (X3 : Rabs (2 * m12 (fst st2)) = Rabs (2 * m12 (fst st1))).
  { rewrite D6. replace (2 * (IZR k * m12 (fst st1))) with (IZR k * (2 * m12 (fst st1))) by ring. now apply Rabs_pm1. }
  assert (Y1 : IZR i * (2 * m23 (fst st1)) = 2 * m23 (fst st2)) by (rewrite D4; ring).
  assert (Y2 : IZR j * (2 * m13 (fst st1)) = 2 * m13 (fst st2)) by (rewrite D5; ring).
  assert (Y3 : IZR k * (2 * m12 (fst st1)) = 2 * m12 (fst st2)) by (rewrite D6; ring).
  rewrite <- X1, <- X2 in A1. rewrite <- X2, <- X3 in A2. rewrite <- D1, <- D2 in A1. rewrite <- D2, <- D3 in A2.
  rewrite Y1, Y2, Y3 in S.
  constructor; tauto.
Qed.

Lemma loop_spec n (eps : R) (G0 : mat R) (st st' : mat R * mat R) : 0 <= eps < 1 -> reach G0 st -> @niggli_loop RNum n eps st = Ok st' ->
  reach G0 st' /\ niggli_within eps (fst st').
Proof.
  intros He. revert st. induction n as [|n IH]; intros st H E; cbn in E; [discriminate|].
  pose proof (step_reach eps G0 st He H) as H'. destruct (@niggli_step RNum eps st) as [c st1] eqn:ES. cbn [snd] in H'.
  destruct c; [eapply IH; eauto|]. injection E as <-. split; [exact H'|]. now apply (step_exit eps st st1).
Qed.

(** an exit state is left alone by the next call *)
Lemma step_fixed (eps : R) (g t : mat R) : 0 <= eps < 1 -> niggli_within eps g ->
  2 * m23 g <> eps -> 2 * m13 g <> eps -> 2 * m12 g <> eps ->
  @niggli_step RNum eps (g, t) = (false, (g, t)).
Proof.
  intros He Hn N1 N2 N3. pose proof (ng_sign _ _ Hn) as S. destruct Hn. rewrite step_eq.
  assert (A1 : @a1_cond RNum eps g = false) by (apply a1_false; auto).
  assert (A2 : @a2_cond RNum eps g = false) by (apply a2_false; auto).
  assert (A5 : @a5_cond RNum eps g = false) by (apply a5_false; auto).
  assert (A6 : @a6_cond RNum eps g = false) by (apply a6_false; auto).
  assert (A7 : @a7_cond RNum eps g = false) by (apply a7_false; auto).
  assert (A8 : @a8_cond RNum eps g = false) by (apply a8_false; auto).
  assert (Ep : pre eps (g, t) = (g, t)) by (unfold pre; cbn [fst]; now rewrite A1).
  rewrite Ep. cbn [fst]. rewrite A2.
  assert (E : mid eps (g, t) = (g, t)).
  { unfold mid. rewrite congr_R, c34_signs. cbn [fst snd]. rewrite signs_id; auto.
    - change (M 1 0 0 0 1 0 0 0 1) with Mid. unfold rcongr. change (Mtr Mid) with Mid.
      now rewrite Mmul_id_l, !Mmul_id_r.
    - destruct S; [left; auto|right; lra]. }
  rewrite E. unfold post. cbn [fst]. rewrite A5, A6, A7, A8. reflexivity.
Qed.

(** ** The structure built around a new lattice (reduce.rs 383-397, 500-508) *)
Definition rebuilt (P : @Pinv RNum) (L' : mat R) (names : list string) (cart : list (vec R)) (dtol : R) : @structure RNum :=
  @normalize_coords RNum
    (Structure (N := RNum) L' names (map (Mapp L') (map (Mapp (@pinv RNum P L')) cart)) (map (Mapp (@pinv RNum P L')) cart)) dtol.
Lemma rebuilt_lattice P L' names cart dtol : lattice (rebuilt P L' names cart dtol) = L'.
Proof. reflexivity. Qed.
Lemma Forall2_map_both {A B C D} (f : A -> C) (g : B -> D) (R1 : C -> D -> Prop) l m :
  Forall2 R1 (map f l) (map g m) <-> Forall2 (fun a b => R1 (f a) (g b)) l m.
Proof.
  split.
  - revert m. induction l as [|a l IH]; intros [|b m] H; inversion H; subst; constructor; auto.
  - induction 1; constructor; auto.
Qed.
Lemma Forall2_imp {A B} (R1 R2 : A -> B -> Prop) l m : (forall a b, R1 a b -> R2 a b) -> Forall2 R1 l m -> Forall2 R2 l m.
Proof. intros H F. induction F; constructor; auto. Qed.
Lemma rebuilt_sites P L' names cart dtol e : inverse_of L' (@pinv RNum P L') ->
  Forall2 (fun x y => exists n, y = Vadd x (Mapp L' (VofZ n)))
    (sites_named e names cart)
    (sites_named e (species (rebuilt P L' names cart dtol)) (coords (rebuilt P L' names cart dtol))).
Proof.
  intro HI. set (s := Structure (N := RNum) L' names (map (Mapp L') (map (Mapp (@pinv RNum P L')) cart)) (map (Mapp (@pinv RNum P L')) cart)).
  destruct (normalize_coords_spec s dtol) as (_ & _ & _ & _ & Hc & Hs & _).
  change (@normalize_coords RNum s dtol) with (rebuilt P L' names cart dtol) in *. rewrite Hc. change (lattice s) with L'.
  rewrite sites_named_map. specialize (Hs e). change (species s) with names in Hs.
  change (frac_coords s) with (map (Mapp (@pinv RNum P L')) cart) in Hs. rewrite sites_named_map in Hs.
  rewrite <- (map_id (sites_named e names cart)). apply Forall2_map_both.
  rewrite <- (map_id (sites_named e _ (frac_coords (rebuilt P L' names cart dtol)))) in Hs.
  apply -> (@Forall2_map_both (vec R) (vec R) (vec R) (vec R)) in Hs. eapply Forall2_imp; [|exact Hs].
  intros x y (n & E). exists n. rewrite E, Mapp_add. f_equal. now apply inv_app.
Qed.
Lemma rebuilt_basic P L' names cart dtol : let s' := rebuilt P L' names cart dtol in
  List.length (species s') = List.length (coords s') /\
  List.length (species s') = Nat.min (List.length names) (List.length cart) /\
  StronglySorted (fun a b => String.leb a b = true) (species s') /\
  coords s' = map (Mapp L') (frac_coords s').
Proof.
  intro s'. destruct (normalize_coords_spec (Structure (N := RNum) L' names (map (Mapp L') (map (Mapp (@pinv RNum P L')) cart))
    (map (Mapp (@pinv RNum P L')) cart)) dtol) as (_ & A & B & C & D & _).
  fold (rebuilt P L' names cart dtol) in *. fold s' in A, B, C, D. cbn [lattice species frac_coords] in *.
  rewrite map_length in B. repeat split; auto. rewrite D, map_length. exact A.
Qed.

Lemma build_eq (P : @Pinv RNum) (L' : mat R) names cart (dtol : R) :
  (do new_frac_coords <- @get_frac_coords RNum P L' cart;
   do new_structure <- @structure_new RNum P L' names new_frac_coords false;
   Ok (@normalize_coords RNum new_structure dtol)) = Ok (rebuilt P L' names cart dtol).
Proof. unfold get_frac_coords. rewrite pseudo_inverse_R. reflexivity. Qed.

Lemma niggli_reduce_eq (P : @Pinv RNum) (dtol : R) (s : @structure RNum) (tol : R) :
  @niggli_reduce RNum P dtol s tol =
  match @niggli_loop RNum 100 (tol * Rcbrt (Mdet (lattice s))) (gram (lattice s), Mid) with
  | Ok st => Ok (rebuilt P (Mmul (lattice s) (snd st)) (species s) (coords s) dtol)
  | Panic p => Panic p
  | OutOfFuel => OutOfFuel
  end.
Proof.
  unfold niggli_reduce, epsilon_of, volume. rewrite det_R.
  change (@metric_tensor RNum s, @midentity RNum) with (gram (lattice s), Mid).
  change (@fmul RNum tol (@fcbrt RNum (Mdet (lattice s)))) with (tol * Rcbrt (Mdet (lattice s))).
  destruct (@niggli_loop RNum 100 _ _) as [[g t]|p|]; cbn [bind]; try reflexivity. cbn [snd].
  rewrite mmul_R. apply build_eq.
Qed.
Lemma cbrt_pos x : 0 < x -> Rcbrt x = Rpower x (1 / 3).
Proof. intro H. unfold Rcbrt. rewrite Rlt_bool_true by exact H. f_equal. lra. Qed.

Lemma niggli_reduce_spec (P : @Pinv RNum) (dtol : R) (s s' : @structure RNum) (tol : R) :
  0 < Mdet (lattice s) ->
  let eps := tol * Rpower (Mdet (lattice s)) (1 / 3) in
  0 <= eps < 1 -> @niggli_reduce RNum P dtol s tol = Ok s' ->
  exists T, ZMdet T = 1%Z /\ s' = rebuilt P (Mmul (lattice s) (MofZ T)) (species s) (coords s) dtol /\
    niggli_within eps (gram (Mmul (lattice s) (MofZ T))).
Proof.
  intros HD eps He E. rewrite niggli_reduce_eq, cbrt_pos in E by exact HD. fold eps in E.
  destruct (@niggli_loop RNum 100 eps (gram (lattice s), Mid)) as [st|p|] eqn:EL; try discriminate.
  apply (loop_spec 100 eps (gram (lattice s))) in EL; auto.
  - destruct EL as ((T & HT & E1 & E2) & NW). exists T. split; [exact HT|]. injection E as <-. rewrite <- E1. split; [reflexivity|].
    rewrite E2 in NW. rewrite E1. unfold gram in *. rewrite Mtr_mul. unfold rcongr in NW. rewrite !Mmul_assoc in *. exact NW.
  - exists ZMid. split; [reflexivity|]. rewrite MofZ_id. split; [reflexivity|]. unfold rcongr. cbn [fst].
    change (Mtr Mid) with Mid. now rewrite Mmul_id_l, Mmul_id_r.
Qed.
Lemma niggli_fixed (P : @Pinv RNum) (dtol : R) (s : @structure RNum) (tol : R) :
  0 < Mdet (lattice s) -> let eps := tol * Rpower (Mdet (lattice s)) (1 / 3) in
  0 <= eps < 1 -> niggli_within eps (gram (lattice s)) ->
  2 * m23 (gram (lattice s)) <> eps -> 2 * m13 (gram (lattice s)) <> eps -> 2 * m12 (gram (lattice s)) <> eps ->
  exists s', @niggli_reduce RNum P dtol s tol = Ok s' /\ lattice s' = lattice s.
Proof.
  intros HD eps He NW N1 N2 N3. rewrite niggli_reduce_eq, cbrt_pos by exact HD. fold eps.
  change 100%nat with (S 99). cbn [niggli_loop].
  rewrite (step_fixed eps (gram (lattice s)) Mid He NW N1 N2 N3). eexists. split; [reflexivity|].
  cbn [snd]. rewrite rebuilt_lattice. apply Mmul_id_r.
Qed.
Lemma unimodular_same_lattice L T Ti : ZMmul T Ti = ZMid -> same_lattice L (Mmul L (MofZ T)).
Proof.
  intros H v. split; intros (n & ->).
  - exists (ZMapp Ti n). rewrite MofZ_app, Mapp_Mmul, <- (Mapp_Mmul (MofZ T)), <- MofZ_mul, H, MofZ_id, Mapp_id. reflexivity.
  - exists (ZMapp T n). now rewrite MofZ_app, Mapp_Mmul.
Qed.
Lemma zadj_r m : ZMmul m (zadj m) = (M (ZMdet m) 0 0 0 (ZMdet m) 0 0 0 (ZMdet m))%Z.
Proof. unfold ZMmul, zadj, ZMdet; cbn. f_equal; ring. Qed.
Lemma unimodular_inverse m : ZMdet m = 1%Z \/ ZMdet m = (-1)%Z -> exists i, ZMmul m i = ZMid.
Proof.
  intros [H|H].
  - exists (zadj m). rewrite zadj_r, H. reflexivity.
  - exists (mmap Z.opp (zadj m)).
    assert (E : ZMmul m (mmap Z.opp (zadj m)) = mmap Z.opp (ZMmul m (zadj m))) by (unfold ZMmul, mmap; cbn; f_equal; ring).
    rewrite E, zadj_r, H. reflexivity.
Qed.
