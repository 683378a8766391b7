(** The search for the symmetry operations of a primitive cell (analyzer.rs 164-283). *)
From Coq Require Import ZArith Reals String List Bool Lia Lra Permutation.
From Flocq Require Import Core.Raux.
From Verif Require Import Num Mat Utils Analyzer RInst Spec RFacts PStructure PStructure3 PPrim.
Import ListNotations.
Open Scope R_scope.

(** ** Distances modulo the lattice *)
Lemma norm_triangle a b : Vnorm (Vadd a b) <= Vnorm a + Vnorm b.
Proof.
  apply Rsqr_incr_0.
  - unfold Rsqr. rewrite Vnorm_sq. pose proof (Vdot_bound a b) as H. pose proof (Rle_abs (Vdot a b)).
    pose proof (Vnorm_sq a). pose proof (Vnorm_sq b).
    replace (Vdot (Vadd a b) (Vadd a b)) with (Vdot a a + 2 * Vdot a b + Vdot b b) by (destruct a, b; unfold Vdot, Vadd; cbn; ring).
    nra.
  - apply Vnorm_nonneg.
  - pose proof (Vnorm_nonneg a). pose proof (Vnorm_nonneg b). lra.
Qed.
Lemma norm_opp a : Vnorm (Vscal (-1) a) = Vnorm a.
Proof. unfold Vnorm. f_equal. destruct a; unfold Vdot, Vscal; cbn; ring. Qed.
Lemma norm_scal k a : Vnorm (Vscal k a) = Rabs k * Vnorm a.
Proof.
  unfold Vnorm. replace (Vdot (Vscal k a) (Vscal k a)) with (k² * Vdot a a) by (destruct a; unfold Vdot, Vscal, Rsqr; cbn; ring).
  rewrite sqrt_mult_alt, sqrt_Rsqr_abs; [reflexivity|apply Rle_0_sqr].
Qed.
(** a small fractional vector is short *)
Lemma norm_components L v d : Rabs (vx v) <= d -> Rabs (vy v) <= d -> Rabs (vz v) <= d ->
  Vnorm (Mapp L v) <= d * (Vnorm (Ccol L 0) + Vnorm (Ccol L 1) + Vnorm (Ccol L 2)).
Proof.
  intros X Y Z.
  replace (Mapp L v) with (Vadd (Vadd (Vscal (vx v) (Ccol L 0)) (Vscal (vy v) (Ccol L 1))) (Vscal (vz v) (Ccol L 2)))
    by (destruct v, L; unfold Mapp, Vadd, Vscal, Ccol; cbn; f_equal; ring).
  eapply Rle_trans; [apply norm_triangle|]. eapply Rle_trans; [apply Rplus_le_compat_r, norm_triangle|].
  rewrite !norm_scal. pose proof (Vnorm_nonneg (Ccol L 0)). pose proof (Vnorm_nonneg (Ccol L 1)). pose proof (Vnorm_nonneg (Ccol L 2)). nra.
Qed.

Section Closer.
  Context (L : mat R).
  Definition closer (r : R) (u v : vec R) : Prop := exists n, Vnorm (Mapp L (Vadd (Vsub u v) (VofZ n))) <= r.
  Definition zneg (n : vec Z) : vec Z := V (- vx n)%Z (- vy n)%Z (- vz n)%Z.
  Lemma VofZ_neg n : VofZ (zneg n) = Vscal (-1) (VofZ n).
  Proof. unfold VofZ, zneg, Vscal. cbn. rewrite !opp_IZR. f_equal; ring. Qed.
  Lemma closer_sym r u v : closer r u v -> closer r v u.
  Proof.
    intros (n & H). exists (zneg n). rewrite VofZ_neg. eapply Rle_trans; [|exact H]. right. rewrite <- norm_opp, <- Mapp_scal. do 2 f_equal.
    destruct u, v, n; unfold Vscal, Vadd, Vsub, VofZ; cbn; f_equal; ring.
  Qed.
  Lemma closer_trans r r' u v w : closer r u v -> closer r' v w -> closer (r + r') u w.
  Proof.
    intros (n & H) (m & H'). exists (ZVadd n m). rewrite VofZ_add.
    replace (Vadd (Vsub u w) (Vadd (VofZ n) (VofZ m))) with (Vadd (Vadd (Vsub u v) (VofZ n)) (Vadd (Vsub v w) (VofZ m)))
      by (destruct u, v, w, n, m; unfold Vadd, Vsub, VofZ; cbn; f_equal; ring).
    rewrite Mapp_add. eapply Rle_trans; [apply norm_triangle|]. now apply Rplus_le_compat.
  Qed.
  Lemma closer_congr u v : Vcongr u v -> closer 0 u v.
  Proof.
    intros (n & ->). exists (zneg n). rewrite VofZ_neg. right.
    replace (Vadd (Vsub (Vadd v (VofZ n)) v) (Vscal (-1) (VofZ n))) with V0 by (destruct v, n; unfold Vadd, Vsub, Vscal, VofZ, V0; cbn; f_equal; ring).
    replace (Mapp L V0) with V0; [apply Vnorm_V0|]. destruct L; unfold Mapp, V0; cbn; f_equal; ring.
  Qed.
  Lemma closer_le r r' u v : r <= r' -> closer r u v -> closer r' u v.
  Proof. intros Hr (n & H). exists n. lra. Qed.
End Closer.
Lemma Vcongr_sym u v : Vcongr u v -> Vcongr v u.
Proof. intros (n & ->). exists (zneg n). rewrite VofZ_neg. destruct v, n; unfold Vadd, Vscal, VofZ; cbn; f_equal; ring. Qed.
Lemma Vcongr_trans u v w : Vcongr u v -> Vcongr v w -> Vcongr u w.
Proof. intros (n & ->) (m & ->). exists (ZVadd n m). rewrite VofZ_add. destruct w, n, m; unfold Vadd, VofZ; cbn; f_equal; ring. Qed.

(** ** The integer keys *)
Lemma normalize1_small x t : -2 < @normalize1 RNum x t < 2.
Proof.
  unfold normalize1. cbn [frem1 RNum]. pose proof (rem1_bounds x) as Hb. set (y := x - _) in *.
  destruct (@flt RNum y _); [cbn in *|destruct (@flt RNum _ y); cbn in *]; lra.
Qed.
Definition small_vec (v : vec R) : Prop := -2 < vx v < 2 /\ -2 < vy v < 2 /\ -2 < vz v < 2.
Lemma normalize_vec_small v ft : small_vec (@normalize_vec RNum v ft).
Proof. split; [|split]; apply normalize1_small. Qed.
Lemma key1 x : -2 < x < 2 -> Rabs (x - IZR (clamp (- 2 ^ 63) (2 ^ 63 - 1) (Ztrunc (x * 1000000000))) / 1000000000) <= 1 / 1000000000.
Proof.
  intros H. pose proof (rem1_bounds (x * 1000000000)) as B. set (z := Ztrunc _) in *.
  assert (Z : (-2000000001 < z < 2000000001)%Z) by (split; apply lt_IZR; lra).
  replace (clamp _ _ z) with z by (unfold clamp; lia).
  apply Rabs_le. lra.
Qed.
Notation ikey := (@int_translation RNum).
Notation fkey := (@float_translation RNum).
Definition key_err (t : vec R) : vec R := Vsub t (fkey (ikey t)).
Lemma key_err_small t : small_vec t -> Rabs (vx (key_err t)) <= 1 / 1000000000 /\ Rabs (vy (key_err t)) <= 1 / 1000000000 /\
  Rabs (vz (key_err t)) <= 1 / 1000000000.
Proof. intros (X & Y & Z). split; [|split]; apply key1; assumption. Qed.
Lemma Vadd_0 v : Vadd v (VofZ (V 0 0 0)%Z) = v.
Proof. destruct v; unfold Vadd, VofZ; cbn. f_equal; ring. Qed.

(** ** Counting translations *)
Lemma zvec_eqb_iff a b : zvec_eqb a b = true <-> a = b.
Proof.
  destruct a as [a1 a2 a3], b as [b1 b2 b3]. unfold zvec_eqb. cbn [vx vy vz]. rewrite !andb_true_iff, !Z.eqb_eq. split.
  - intros [[-> ->] ->]. reflexivity.
  - intro E. injection E as -> -> ->. auto.
Qed.
Section Counts.
  Context {H : HashOrd} (L : mat R) (ft : vec R) (dtol : R).
  (** 1e-9 of each edge is at most half the tolerance *)
  Hypothesis fine : forall k, (k < 3)%nat -> 2 / 1000000000 * Vnorm (Ccol L k) <= dtol.
  Let eta : R := 1 / 1000000000 * (Vnorm (Ccol L 0) + Vnorm (Ccol L 1) + Vnorm (Ccol L 2)).
  Lemma eta_le : eta <= 3 / 2 * dtol.
  Proof. pose proof (fine 0 ltac:(lia)). pose proof (fine 1 ltac:(lia)). pose proof (fine 2 ltac:(lia)). unfold eta. lra. Qed.
  Lemma dtol_nonneg : 0 <= dtol.
  Proof. pose proof (fine 0 ltac:(lia)). pose proof (Vnorm_nonneg (Ccol L 0)). lra. Qed.
  Lemma key_close t : small_vec t -> closer L (3 / 2 * dtol) t (fkey (ikey t)).
  Proof.
    intro Ht. destruct (key_err_small t Ht) as (X & Y & Z). exists (V 0 0 0)%Z. rewrite Vadd_0. eapply Rle_trans; [apply (norm_components L _ _ X Y Z)|].
    apply eta_le.
  Qed.
  Lemma match_close t k : @counts_match RNum dtol L ft t k = true -> closer L (2 * dtol) t (fkey k).
  Proof. unfold counts_match. intro E. apply same_site_R in E. exact E. Qed.

  Notation cmap := (list (vec Z * Z)).
  Notation step path := (@count_step RNum H path dtol L ft).

  Lemma count_incr_In k (m : cmap) k' c : In (k', c) (count_incr k m) -> In (k', c) m \/ (k' = k /\ In (k, (c - 1)%Z) m).
  Proof.
    induction m as [|[k1 c1] m IH]; [intros []|]. cbn [count_incr]. destruct (zvec_eqb k k1) eqn:E.
    - apply zvec_eqb_iff in E. subst k1. intros [Q|Q]; [|left; now right]. injection Q as <- <-. right. split; [reflexivity|]. left. f_equal. lia.
    - intros [Q|Q]; [left; now left|]. destruct (IH Q) as [Q'|[-> Q']]; [left; now right|right; split; [reflexivity|now right]].
  Qed.
  Lemma insert_In {V} k (v : V) m k' c : In (k', c) (am_insert zvec_eqb k v m) -> In (k', c) m \/ (k' = k /\ c = v).
  Proof.
    induction m as [|[k1 c1] m IH]; cbn [am_insert].
    - intros [Q|[]]. injection Q as <- <-. now right.
    - destruct (zvec_eqb k k1) eqn:E.
      + apply zvec_eqb_iff in E. subst k1. intros [Q|Q]; [|left; now right]. injection Q as <- <-. now right.
      + intros [Q|Q]; [left; now left|]. destruct (IH Q) as [Q'|Q']; [left; now right|now right].
  Qed.
  Lemma find_match_some t m k : @find_match RNum dtol L ft t m = Some k -> exists c, In (k, c) m /\ @counts_match RNum dtol L ft t k = true.
  Proof.
    unfold find_match. destruct (find _ m) as [[k1 c1]|] eqn:E; [|discriminate]. cbn. intro Q. injection Q as <-.
    apply find_some in E. cbn [fst] in E. exists c1. exact E.
  Qed.
  Lemma find_match_none t m k c : @find_match RNum dtol L ft t m = None -> In (k, c) m -> @counts_match RNum dtol L ft t k = false.
  Proof.
    unfold find_match. destruct (find _ m) as [[k1 c1]|] eqn:E; [discriminate|]. intros _ Hi. exact (find_none _ _ E (k, c) Hi).
  Qed.

  (** Soundness: behind a count stand that many different translations of the list, all close to the key. *)
  Definition backed (l : list (vec R)) (k : vec Z) (c : Z) : Prop :=
    exists I : list nat, NoDup I /\ Z.of_nat (List.length I) = c /\
      forall i, In i I -> exists t, nth_error l i = Some t /\ closer L (2 * dtol) t (fkey k).
  Lemma backed_app l l' k c : backed l k c -> backed (l ++ l') k c.
  Proof.
    intros (I & N & C & B). exists I. split; [exact N|]. split; [exact C|]. intros i Hi. destruct (B i Hi) as (t & E & Q). exists t. split; [|exact Q].
    rewrite nth_error_app1; [exact E|]. apply nth_error_Some. congruence.
  Qed.
  Lemma step_backed path l m t : small_vec t -> (forall k c, In (k, c) m -> backed l k c) ->
    forall k c, In (k, c) (step path m (List.length l, t)) -> backed (l ++ [t]) k c.
  Proof.
    intros Ht B k c. unfold count_step.
    assert (NL : nth_error (l ++ [t]) (List.length l) = Some t) by (rewrite nth_error_app2, Nat.sub_diag; [reflexivity|lia]).
    destruct (find_match _ _ _ _ _) as [k0|] eqn:E.
    - apply find_match_some in E. destruct E as (c0 & Hi & M). intro Q. apply count_incr_In in Q. destruct Q as [Q|[-> Q]]; [now apply backed_app, B|].
      apply match_close in M. destruct (B _ _ Q) as (I & N & C & A). exists (List.length l :: I). split; [|split].
      + constructor; [|exact N]. intro Hl. destruct (A _ Hl) as (t' & E' & _). assert (List.length l < List.length l)%nat by (apply nth_error_Some; congruence). lia.
      + cbn [List.length]. lia.
      + intros i [<-|Hi']; [exists t; split; [exact NL|exact M]|]. destruct (A i Hi') as (t' & E' & Q'). exists t'. split; [|exact Q'].
        rewrite nth_error_app1; [exact E'|]. apply nth_error_Some. congruence.
    - intro Q. apply insert_In in Q. destruct Q as [Q|[-> ->]]; [now apply backed_app, B|].
      exists [List.length l]. split; [repeat constructor; intros []|]. split; [reflexivity|]. intros i [<-|[]]. exists t. split; [exact NL|].
      eapply closer_le; [|apply key_close; exact Ht]. pose proof dtol_nonneg. lra.
  Qed.
  Lemma fold_backed path tvs : Forall small_vec tvs -> forall l m, (forall k c, In (k, c) m -> backed l k c) ->
    forall k c, In (k, c) (fold_left (step path) (combine (seq (List.length l) (List.length tvs)) tvs) m) -> backed (l ++ tvs) k c.
  Proof.
    intro F. induction F as [|t tvs Ht F IH]; intros l m B k c; cbn [List.length seq combine fold_left].
    - rewrite app_nil_r. apply B.
    - replace (S (List.length l)) with (List.length (l ++ [t])) by (rewrite app_length; cbn; lia).
      replace (l ++ t :: tvs) with ((l ++ [t]) ++ tvs) by (now rewrite <- app_assoc). apply IH. now apply step_backed.
  Qed.
End Counts.
