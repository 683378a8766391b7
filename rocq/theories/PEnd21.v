(** Crystals moved as a whole, and the conditions of the statements on crystals in a rectangular cell *)
From Coq Require Import ZArith Reals String Ascii List Bool Lia Lra Psatz Permutation.
From Flocq Require Import Core.
From Verif Require Import Num Mat Utils DataCore DataPG DataSG SymmOp PointGroup SpaceGroup Structure Reduce Analyzer RInst Spec Spec2 Spec3 Spec5 Spec6 RFacts
  PUtils PSymmOp PStructure PStructure2 PStructure3 PNiggli PDelaunay PPrim PPrim2 PLattice PAnalyzer PAnalyzer2 PPointGroup PPointGroup2 PSpaceGroup PSpaceGroup2 PCode PTables PIdentify
  PSearch PSearch3 PSearch4 PSearch5 PSearch6 PSearch7 PEnd PEnd2 PEnd3 PEnd4 PEnd11 PEnd12 PEnd13 PEnd14 PEnd15 PEnd16 PEnd17 PEnd19 PEnd20 Prop5.
Import ListNotations.
Open Scope R_scope.

(** ** Sites moved by one vector *)
Definition shift_sites (v : vec R) (S : list (vec R * string)) : list (vec R * string) := map (fun p => (Vadd (fst p) v, snd p)) S.
Lemma shift_combine v xs (es : list string) : combine (map (fun x => Vadd x v) xs) es = shift_sites v (combine xs es).
Proof. revert es. induction xs as [|x xs IH]; intros [|e es]; cbn [map combine shift_sites]; try reflexivity. cbn [fst snd]. f_equal. apply IH. Qed.
Lemma shift_in v S x e : In (x, e) (shift_sites v S) <-> exists x0, In (x0, e) S /\ x = Vadd x0 v.
Proof.
  unfold shift_sites. rewrite in_map_iff. split.
  - intros ([x0 e0] & E & H). cbn [fst snd] in E. injection E as <- <-. eauto.
  - intros (x0 & H & ->). exists (x0, e). auto.
Qed.
Definition unshift (v : vec R) (r : mat Z) (t : vec R) : vec R := Vadd t (Vsub (Mapp (MofZ r) v) v).
Lemma shift_act v r t x y : Vsub (act r t (Vadd x v)) (Vadd y v) = Vsub (act r (unshift v r t) x) y.
Proof. unfold act, unshift. rewrite Mapp_add. generalize (Mapp (MofZ r) x) (Mapp (MofZ r) v). intros p q. unfold Vadd, Vsub. cbn [vx vy vz]. f_equal; ring. Qed.
Lemma congr_sub a b : Vcongr a b <-> exists n, Vsub a b = VofZ n.
Proof.
  split; intros (n & E); exists n.
  - rewrite E. destruct b as [b1 b2 b3]. unfold Vsub, Vadd, VofZ. cbn [vx vy vz]. f_equal; ring.
  - destruct a as [a1 a2 a3], b as [b1 b2 b3]. unfold Vsub, Vadd, VofZ in *. cbn [vx vy vz] in *. injection E as E1 E2 E3. f_equal; lra.
Qed.
Lemma shift_exact v S r t : exact_operation (shift_sites v S) r t <-> exact_operation S r (unshift v r t).
Proof.
  split; intros H x e Hx.
  - destruct (H (Vadd x v) e) as (y & Hy & C); [apply shift_in; eauto|]. apply shift_in in Hy. destruct Hy as (y0 & Hy & ->). exists y0. split; [exact Hy|].
    apply congr_sub. apply congr_sub in C. now rewrite shift_act in C.
  - apply shift_in in Hx. destruct Hx as (x0 & Hx & ->). destruct (H x0 e Hx) as (y & Hy & C). exists (Vadd y v). split; [apply shift_in; eauto|].
    apply congr_sub. apply congr_sub in C. now rewrite shift_act.
Qed.
Lemma shift_within v S tol L r t : operation_within tol L (shift_sites v S) r t -> operation_within tol L S r (unshift v r t).
Proof.
  intros H x e Hx. destruct (H (Vadd x v) e) as (y & n & Hy & C); [apply shift_in; eauto|]. apply shift_in in Hy. destruct Hy as (y0 & Hy & ->). exists y0, n. split; [exact Hy|].
  now rewrite shift_act in C.
Qed.
Lemma unshift_back v r t : unshift v r (Vadd t (Vsub v (Mapp (MofZ r) v))) = t.
Proof. unfold unshift. generalize (Mapp (MofZ r) v). intro q. destruct t as [t1 t2 t3]. unfold Vadd, Vsub. cbn [vx vy vz]. f_equal; ring. Qed.
Lemma shift_rigid v S tol L rots : rigid tol L S rots -> rigid tol L (shift_sites v S) rots.
Proof.
  intros H r t Hr OW. destruct (H r _ Hr (shift_within _ _ _ _ _ _ OW)) as (t0 & n & EX & Q). exists (Vadd t0 (Vsub v (Mapp (MofZ r) v))), n. split.
  - apply shift_exact. now rewrite unshift_back.
  - replace (Vsub t (Vadd t0 (Vsub v (Mapp (MofZ r) v)))) with (Vsub (unshift v r t) t0); [exact Q|]. unfold unshift. generalize (Mapp (MofZ r) v). intro q. unfold Vadd, Vsub. cbn [vx vy vz]. f_equal; ring.
Qed.
Lemma shift_spread v S d : spread d S -> spread d (shift_sites v S).
Proof.
  intros H i j x e y f n Hij Hi Hj. unfold shift_sites in Hi, Hj. rewrite nth_error_map in Hi, Hj.
  destruct (nth_error S i) as [[x0 e0]|] eqn:Ei; [|discriminate]. destruct (nth_error S j) as [[y0 f0]|] eqn:Ej; [|discriminate]. cbn [option_map fst snd] in Hi, Hj. injection Hi as <- <-. injection Hj as <- <-.
  specialize (H i j x0 e0 y0 f0 n Hij Ei Ej). replace (Vsub (Vadd x0 v) (Vadd y0 v)) with (Vsub x0 y0); [exact H|]. unfold Vadd, Vsub. cbn [vx vy vz]. f_equal; ring.
Qed.

(** ** Operations along the axes [u] from the point [o] *)
Lemma along_from_conj u p r0 t0 r t : ZMmul u (transpose u) = ZMid -> along_from u p r0 t0 r t <-> (r = conj u r0 (transpose u) /\ Vcongr t (Mapp (MofZ u) (Vadd t0 (Vsub p (Mapp (MofZ r0) p))))).
Proof. intro UI. unfold along_from. apply along_conj. exact UI. Qed.
(** a crystal whose operations are along_from a tabulated group is in a primitive cell *)
Lemma offset_primitive L S u ui ls order N codes sym o : ZMmul u ui = ZMid -> In (ls, order, N, codes) sg_entries -> am_get Z.eqb N SG_NUM_TO_SYMBOL = Some sym ->
  (forall r t, (lattice_isometry L r /\ exact_operation S r t) <->
    exists cc, In cc (group_ops sym codes) /\ r = conj u (fst cc) ui /\ Vcongr t (Mapp (MofZ u) (Vadd (V12 (snd cc)) (Vsub o (Mapp (MofZ (fst cc)) o))))) ->
  forall t, exact_operation S ZMid t -> Vcongr t V0.
Proof.
  intros UI HT ES IFF t EX. pose proof (zinv_comm _ _ UI) as IU. destruct (entry_facts _ _ _ _ HT) as (sym' & ES' & G & _). rewrite ES in ES'. injection ES' as <-. fold (group_ops sym codes) in G.
  assert (I1 : lattice_isometry L ZMid) by (apply isometry_gram; now rewrite MofZ_id, Mmul_id_r).
  destruct (proj1 (IFF ZMid t) (Logic.conj I1 EX)) as (cc & Hc & Er & Vt).
  assert (Eo : fst cc = ZMid). { apply (f_equal (fun r => conj ui r u)) in Er. rewrite conj_conj in Er by assumption. rewrite <- Er. apply MofZ_eq_from_action. intro x. now rewrite conj_app, MofZ_id, Mapp_id, (app_inv ui u x IU), Mapp_id. }
  destruct (og_identity _ G) as (e & He & E0). assert (cc = e) by (apply (same_rot_same _ (og_rotations _ G)); [exact Hc|exact He|rewrite Eo; symmetry; exact (proj1 E0)]). subst e.
  apply same_op_V12 in E0. destruct E0 as [_ E0]. cbn [snd] in E0. apply (PSymmOp.Vcongr_trans _ _ _ Vt). rewrite Eo, MofZ_id, Mapp_id.
  replace (Vadd (V12 (snd cc)) (Vsub o o)) with (V12 (snd cc)) by (unfold Vadd, Vsub, V12; cbn [vx vy vz]; f_equal; ring).
  apply (PEnd11.Vcongr_app u) in E0. change (in_twelfths (snd cc)) with (V12 (snd cc)) in E0.
  replace (Mapp (MofZ u) (in_twelfths (V 0 0 0)%Z)) with V0 in E0; [exact E0|]. replace (in_twelfths (V 0 0 0)%Z) with V0 by (unfold in_twelfths, V0; cbn [vx vy vz]; f_equal; lra). symmetry. apply Mapp_V0.
Qed.
(** displacements below the tolerance are clear of it *)
Lemma offset_clear dtol a b c L S u ls eps sym codes o : of_the_cube u -> box_cell a b c (Mmul L (MofZ u)) -> 1 <= a <= 1000 -> 1 <= b <= 1000 -> 1 <= c <= 1000 -> 0 < eps -> standard_edges ls eps a b c ->
  1 / 100000 <= dtol <= 1 / 40 ->
  (forall r t, (lattice_isometry L r /\ exact_operation S r t) <->
    exists cc, In cc (group_ops sym codes) /\ r = conj u (fst cc) (transpose u) /\ Vcongr t (Mapp (MofZ u) (Vadd (V12 (snd cc)) (Vsub o (Mapp (MofZ (fst cc)) o))))) ->
  (forall cc, In cc (group_ops sym codes) -> bounded (V (dtol / a - 2 / 100000000) (dtol / b - 2 / 100000000) (dtol / c - 2 / 100000000)) (Vsub o (Mapp (MofZ (fst cc)) o))) ->
  clear_of dtol a b c L S.
Proof.
  intros HU EL Ba Bb Bc E0 SE Hd IFF SM w r t z HW EW Hr EX. destruct (cube_signed u HU) as (Su & UI). destruct (cube_signed w HW) as (Sw & WI). pose proof (zinv_comm _ _ WI) as IW. pose proof (zinv_comm _ _ UI) as IU.
  destruct (proj1 (IFF r _) (Logic.conj Hr EX)) as (cc & Hc & _ & V1). apply (PEnd11.Vcongr_app (transpose w)) in V1. rewrite (app_inv _ _ t IW) in V1.
  set (h := ZMmul (transpose w) u) in *. rewrite <- Mapp_Mmul, <- MofZ_mul in V1. fold h in V1.
  assert (Hh : In h (holo_rots (box_bravais ls))).
  { apply (iso_holo (Mmul L (MofZ w)) ls eps a b c EW ltac:(lra) ltac:(lra) ltac:(lra) E0 SE). apply isometry_gram. unfold h. rewrite Mmul_assoc, <- MofZ_mul.
    replace (ZMmul w (ZMmul (transpose w) u)) with u; [unfold box_cell in EL, EW; unfold gram; rewrite EL, EW; reflexivity|]. apply MofZ_eq_from_action. intro x. now rewrite !MofZ_mul, !Mapp_Mmul, (app_inv w _ _ WI). }
  rewrite Mapp_add, MofZ_V12 in V1. pose proof (holo_bounded ls eps a b c (fun x => dtol / x - 2 / 100000000) h _ SE Hh (SM cc Hc)) as BD. clear Hh.
  revert V1 BD. generalize (Mapp (MofZ h) (Vsub o (Mapp (MofZ (fst cc)) o))) (ZMapp h (snd cc)). intros m k (n & ->) (B1 & B2 & B3). unfold Vadd, V12, VofZ. cbn [vx vy vz] in *.
  assert (T : forall e, 1 <= e <= 1000 -> 0 < dtol / e <= 1 / 40).
  { clear - Hd. intros e He. split; [apply Rdiv_lt_0_compat; lra|]. apply (Rmult_le_reg_r e); [lra|]. replace (dtol / e * e) with dtol by (field; lra). lra. }
  assert (KEY : forall (y e : R) (i j : Z), 0 < e <= 1 / 40 -> Rabs y <= e - 2 / 100000000 -> 1 / 100000000 < Rabs (Rabs (IZR i / 12 + y + IZR j - IZR z / 12) - e)).
  { clear. intros y e i j E Y. replace (IZR i / 12 + y + IZR j - IZR z / 12) with (IZR (i + 12 * j - z) / 12 + y) by (rewrite minus_IZR, plus_IZR, mult_IZR; field).
    destruct (Z.eq_dec (i + 12 * j - z) 0) as [->|NZ].
    - replace (0 / 12 + y) with y by field. rewrite Rabs_left; lra.
    - assert (1 <= Rabs (IZR (i + 12 * j - z))) by (rewrite <- abs_IZR; apply IZR_le; lia).
      assert (1 / 12 <= Rabs (IZR (i + 12 * j - z) / 12)) by (unfold Rdiv; rewrite Rabs_mult, (Rabs_pos_eq (/ 12)); lra).
      assert (Rabs (IZR (i + 12 * j - z) / 12) - Rabs y <= Rabs (IZR (i + 12 * j - z) / 12 + y)) by (pose proof (Rabs_triang_inv (IZR (i + 12 * j - z) / 12) (- y)) as Q; rewrite Rabs_Ropp in Q; replace (IZR (i + 12 * j - z) / 12 - - y) with (IZR (i + 12 * j - z) / 12 + y) in Q by ring; exact Q).
      rewrite Rabs_pos_eq; lra. }
  split; [|split]; apply KEY; auto.
Qed.
(** the two ways of writing it *)
Lemma signed_cube w wi : In w signed -> ZMmul w wi = ZMid -> of_the_cube w /\ wi = transpose w.
Proof.
  intros HW WI. pose proof (signed_transpose w wi HW WI) as E. split; [|exact E]. pose proof (zinv_comm _ _ WI) as IW. rewrite E in IW.
  unfold of_the_cube. change (Mtr (MofZ w)) with (MofZ (transpose w)). now rewrite <- MofZ_mul, IW, MofZ_id.
Qed.
Lemma offset_form u p sym codes r t : ZMmul u (transpose u) = ZMid ->
  (exists code, In code codes /\ along_from u p (fst (code_op (has_char "A"%char sym) code)) (in_twelfths (snd (code_op (has_char "A"%char sym) code))) r t) <->
  (exists cc, In cc (group_ops sym codes) /\ r = conj u (fst cc) (transpose u) /\ Vcongr t (Mapp (MofZ u) (Vadd (V12 (snd cc)) (Vsub p (Mapp (MofZ (fst cc)) p))))).
Proof.
  intro UI. split.
  - intros (code & Hc & A). apply along_from_conj in A; [|exact UI]. exists (code_op (has_char "A"%char sym) code). split; [now apply in_map|exact A].
  - intros (cc & Hc & A). unfold group_ops in Hc. apply in_map_iff in Hc. destruct Hc as (code & <- & Hc). exists code. split; [exact Hc|]. apply along_from_conj; [exact UI|exact A].
Qed.
(** an operation of the crystal moved by [Mapp u p] *)
Lemma moved_along u p r0 t0 r t : along u r0 t0 r (unshift (Mapp (MofZ u) p) r t) <-> along_from u p r0 t0 r t.
Proof.
  unfold along_from, along. split; intros (E & C); (split; [exact E|]); apply congr_sub; apply congr_sub in C; destruct C as (n & C); exists n; rewrite <- C; unfold unshift;
    rewrite Mapp_add, Mapp_sub, <- !(Mapp_Mmul (MofZ r)), <- (Mapp_Mmul (MofZ u) (MofZ r0)), E; generalize (Mapp (MofZ u) t0) (Mapp (MofZ u) p) (Mapp (Mmul (MofZ u) (MofZ r0)) p); intros x y z; unfold Vadd, Vsub; cbn [vx vy vz]; f_equal; ring.
Qed.
(** the inversion, when its translation is off the twelfths *)
Lemma inversion_near u p r0 (c : vec Z) t T : of_the_cube u -> along_from u p r0 (in_twelfths c) (M (-1) 0 0 0 (-1) 0 0 0 (-1))%Z t -> barely_moved T T T p r0 ->
  exists k : vec Z, Rabs (vx t - IZR (vx k) / 12) <= T /\ Rabs (vy t - IZR (vy k) / 12) <= T /\ Rabs (vz t - IZR (vz k) / 12) <= T.
Proof.
  intros HU A B. destruct (cube_signed u HU) as (Su & UI). apply along_from_conj in A; [|exact UI]. destruct A as (_ & n & C). change (in_twelfths c) with (V12 c) in C. rewrite Mapp_add, MofZ_V12 in C.
  pose proof (signed_bounded u T _ Su B) as (B1 & B2 & B3). clear B. revert C B1 B2 B3. generalize (Mapp (MofZ u) (Vsub p (Mapp (MofZ r0) p))) (ZMapp u c). intros m k -> B1 B2 B3. cbn [vx vy vz] in *.
  exists (V (vx k + 12 * vx n) (vy k + 12 * vy n) (vz k + 12 * vz n))%Z. unfold Vadd, V12, VofZ. cbn [vx vy vz].
  assert (KEY : forall (y : R) (i j : Z), Rabs y <= T -> Rabs (IZR i / 12 + y + IZR j - IZR (i + 12 * j) / 12) <= T).
  { intros y i j Y. replace (IZR i / 12 + y + IZR j - IZR (i + 12 * j) / 12) with y by (rewrite plus_IZR, mult_IZR; field). exact Y. }
  split; [|split]; apply KEY; assumption.
Qed.
Lemma isometry_neg L : lattice_isometry L (M (-1) 0 0 0 (-1) 0 0 0 (-1))%Z.
Proof. unfold lattice_isometry. destruct L as [a b c d e f g h i]. apply mat_ext; cbn; ring. Qed.
(** a crystal with one site of some species is in a primitive cell *)
Lemma lone_site_primitive S x e : In (x, e) S -> (forall y, In (y, e) S -> y = x) -> forall t, exact_operation S ZMid t -> Vcongr t V0.
Proof.
  intros Hx ONE t EX. destruct (EX x e Hx) as (y & Hy & C). rewrite (ONE y Hy) in C. apply congr_sub. apply congr_sub in C. destruct C as (n & C). exists n. rewrite <- C.
  unfold act. rewrite MofZ_id, Mapp_id. unfold Vsub, Vadd, V0. cbn [vx vy vz]. f_equal; ring.
Qed.
