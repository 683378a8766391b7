(** Supercells on which Structure::apply_transformation never returns. *)
From Coq Require Import ZArith Reals String List Bool Lia Lra Psatz.
From Flocq Require Import Core.Raux.
From Verif Require Import Num Mat Utils SpaceGroup Structure RInst Spec RFacts PUtils PStructure PCoset PStructure2 PStructure3.
Import ListNotations.
Open Scope R_scope.

Definition row_supercell (n : Z) : mat Z := (M n 0 0 0 1 0 0 0 1)%Z.
Definition cubic (a : R) : mat R := M a 0 0 0 a 0 0 0 a.

Lemma normalize1_unique (x y t : R) : 0 <= t <= 1 -> congr1 x y -> -t < y < 1 - t -> @normalize1 RNum x t = y.
Proof.
  intros Ht Hc Hy. pose proof (normalize1_range x t Ht) as B.
  assert (Z : @normalize1 RNum x t - y = 0).
  { apply is_int_small; [|cbn [num RNum] in *; lra].
    assert (C : congr1 (@normalize1 RNum x t) y) by (eapply congr1_trans; [apply normalize1_congr|exact Hc]).
    exact C. }
  cbn [num RNum] in *. lra.
Qed.

Lemma at_vec_step_eq Ti L ft (pt : R) mult x sp (nfc : list (vec R)) (nsp : list string) p :
  @at_vec_step RNum Ti L ft pt mult x sp (nfc, nsp) (VofZ (V (fst (fst p)) (snd (fst p)) (snd p))) =
  if existsb (fun nc : vec R => @same_site RNum L ft (@fmul RNum pt (@f2 RNum)) (cand Ti x (zscale mult p)) nc) nfc
  then (nfc, nsp) else (nfc ++ [cand Ti x (zscale mult p)], nsp ++ [sp]).
Proof. unfold at_vec_step. rewrite cand_step. reflexivity. Qed.

Section Div.
  Variables (a pt : R) (n : Z) (x : vec R) (e : string).
  Hypothesis (Ha : 0 < a) (Hn : (2 <= n)%Z) (Hp1 : pt < a / 2) (Hp2 : a / IZR n <= 2 * pt).
  Let T := row_supercell n.
  Let Ti := Madj_inv (MofZ T).
  Let ft := @frac_tols_of RNum (cubic a) pt.
  Let s := Structure (N := RNum) (cubic a) [e] [Mapp (cubic a) x] [x].

  Lemma n_pos : 2 <= IZR n. Proof. now apply IZR_le. Qed.
  Lemma det_T : ZMdet T = n. Proof. unfold T, row_supercell, ZMdet; cbn [m11 m12 m13 m21 m22 m23 m31 m32 m33]. ring. Qed.
  Lemma Ti_app v : Mapp Ti v = V (vx v / IZR n) (vy v) (vz v).
  Proof.
    assert (I : inverse_of (MofZ T) (M (/ IZR n) 0 0 0 1 0 0 0 1)).
    { pose proof n_pos. split; unfold MofZ, T, row_supercell, Mmul, Mid; cbn [m11 m12 m13 m21 m22 m23 m31 m32 m33];
        apply mat_ext; cbn [m11 m12 m13 m21 m22 m23 m31 m32 m33]; field; lra. }
    assert (E : Ti = M (/ IZR n) 0 0 0 1 0 0 0 1).
    { apply (inverse_unique (MofZ T)); [|exact I]. apply Madj_inverse. eapply inverse_det; eauto. }
    rewrite E. unfold Mapp; cbn [m11 m12 m13 m21 m22 m23 m31 m32 m33]. apply vec_ext; cbn [vx vy vz]; unfold Rdiv; ring.
  Qed.
  Lemma pt_pos : 0 < pt.
  Proof. pose proof n_pos. assert (0 < a / IZR n) by (apply Rdiv_lt_0_compat; lra). lra. Qed.
  Lemma norm_axis : Vnorm (V a 0 0) = a /\ Vnorm (V 0 a 0) = a /\ Vnorm (V 0 0 a) = a.
  Proof.
    unfold Vnorm, Vdot; cbn [vx vy vz].
    replace (a * a + 0 * 0 + 0 * 0) with (a * a) by ring. replace (0 * 0 + a * a + 0 * 0) with (a * a) by ring.
    replace (0 * 0 + 0 * 0 + a * a) with (a * a) by ring. rewrite sqrt_square by lra. auto.
  Qed.
  Lemma ft_val : ft = V (pt / a) (pt / a) (pt / a).
  Proof.
    destruct norm_axis as (E1 & E2 & E3).
    transitivity (V (pt / Vnorm (V a 0 0)) (pt / Vnorm (V 0 a 0)) (pt / Vnorm (V 0 0 a))); [reflexivity|].
    rewrite E1, E2, E3. reflexivity.
  Qed.
  Lemma t_bounds : 0 < pt / a < / 2.
  Proof.
    pose proof pt_pos. split; [apply Rdiv_lt_0_compat; lra|].
    apply (Rmult_lt_reg_r a); [auto|]. unfold Rdiv. rewrite Rmult_assoc, Rinv_l by lra. lra.
  Qed.
  Lemma norm_x c : 0 <= c -> Vnorm (Mapp (cubic a) (V c 0 0)) = a * c.
  Proof.
    intro Hc. unfold Vnorm, Vdot, Mapp, cubic; cbn [vx vy vz m11 m12 m13 m21 m22 m23 m31 m32 m33].
    replace (_ + _ + _) with ((a * c) * (a * c)) by ring. apply sqrt_square. apply Rmult_le_pos; lra.
  Qed.
  (** two candidates in the same column of cells, or one to the right of the other, are merged *)
  Lemma merged m m' : ((vx m - vx m') mod n = 0 \/ (vx m - vx m') mod n = 1)%Z ->
    @same_site RNum (cubic a) ft (@fmul RNum pt (@f2 RNum)) (cand Ti x m) (cand Ti x m') = true.
  Proof.
    intro H. unfold same_site. rewrite fle_true, mvmul_R, magnitude_R, vsub_R.
    cbn [fabs fmul f2 fofZ RNum]. rewrite (Rabs_pos_eq _ (Vnorm_nonneg _)).
    assert (Ed : Vsub (cand Ti x m) (cand Ti x m') =
                 V (IZR (vx m - vx m') / IZR n) (IZR (vy m - vy m')) (IZR (vz m - vz m'))).
    { unfold cand. rewrite !Ti_app, !minus_IZR. pose proof n_pos. unfold Vsub, Vadd, VofZ; cbn [vx vy vz].
      apply vec_ext; cbn [vx vy vz]; field; lra. }
    rewrite Ed, ft_val. pose proof t_bounds as TB. pose proof n_pos as NP.
    set (r := ((vx m - vx m') mod n)%Z) in *. set (q := ((vx m - vx m') / n)%Z).
    assert (Eq : (vx m - vx m' = n * q + r)%Z) by (unfold q, r; apply Z.div_mod; lia).
    assert (Er : IZR (vx m - vx m') / IZR n = IZR r / IZR n + IZR q).
    { rewrite Eq, plus_IZR, mult_IZR. field. lra. }
    assert (I1 : 0 < / IZR n <= / 2) by (split; [apply Rinv_0_lt_compat; lra|apply Rinv_le_contravar; lra]).
    assert (Nv : @normalize_vec RNum (V (IZR (vx m - vx m') / IZR n) (IZR (vy m - vy m')) (IZR (vz m - vz m')))
                   (V (pt / a) (pt / a) (pt / a)) = V (IZR r / IZR n) 0 0).
    { unfold normalize_vec, vmap2; cbn [vx vy vz]. numR. rewrite !normalize1_whole by lra. f_equal.
      apply normalize1_unique; [lra| |].
      - rewrite Er. exists q. ring.
      - destruct H as [-> | ->]; unfold Rdiv; lra. }
    numR. rewrite Nv, norm_x.
    - destruct H as [-> | ->]; unfold Rdiv in *; [pose proof pt_pos|]; lra.
    - destruct H as [-> | ->]; unfold Rdiv; lra.
  Qed.

  Definition stuck (st : list (vec R) * list string) : Prop :=
    exists ms, fst st = map (cand Ti x) ms /\ NoDup (map (fun m => vx m mod n)%Z ms) /\
      (exists m, In m ms /\ vx m mod n = 0)%Z /\ (forall m, In m ms -> vx m mod n <> 1)%Z.

  Lemma stuck_vec mult p st : stuck st ->
    stuck (@at_vec_step RNum Ti (cubic a) ft pt mult x e st (VofZ (V (fst (fst p)) (snd (fst p)) (snd p)))).
  Proof.
    intros (ms & E & ND & (m0 & H0 & Z0) & N1). destruct st as [nfc nsp]. cbn [fst] in E. subst nfc.
    rewrite at_vec_step_eq. set (m := zscale mult p).
    destruct (existsb (fun nc : vec R => @same_site RNum (cubic a) ft (@fmul RNum pt (@f2 RNum)) (cand Ti x m) nc) (map (cand Ti x) ms)) eqn:Ex.
    - exists ms. cbn [fst]. split; [reflexivity|]. split; [auto|]. split; eauto.
    - assert (Q : forall m', In m' ms -> ((vx m - vx m') mod n <> 0 /\ (vx m - vx m') mod n <> 1)%Z).
      { intros m' Hm'. split; intro Z; (assert (K : existsb (fun nc : vec R => @same_site RNum (cubic a) ft (@fmul RNum pt (@f2 RNum)) (cand Ti x m) nc) (map (cand Ti x) ms) = true);
          [apply existsb_exists; exists (cand Ti x m'); split; [now apply in_map|apply merged; auto]|congruence]). }
      exists (ms ++ [m]). cbn [fst]. split; [now rewrite map_app|].
      split; [|split].
      + rewrite map_app. apply NoDup_app_intro; auto; [repeat constructor; auto|].
        intros z Hz [<-|[]]. apply in_map_iff in Hz. destruct Hz as (m' & Em & Hm').
        destruct (Q m' Hm') as [Q1 _]. apply Q1. rewrite Zminus_mod, Em, Z.sub_diag. apply Z.mod_0_l. lia.
      + exists m0. split; auto. apply in_app_iff. auto.
      + intros m' Hm'. apply in_app_iff in Hm'. destruct Hm' as [Hm'|[<-|[]]]; auto.
        intro Z. destruct (Q m0 H0) as [_ Q2]. apply Q2. rewrite Zminus_mod, Z, Z0, Z.mod_small; lia.
  Qed.
  Lemma stuck_fold mult l : forall st, stuck st ->
    stuck (fold_left (fun st p => @at_vec_step RNum Ti (cubic a) ft pt mult x e st
                            (VofZ (V (fst (fst p)) (snd (fst p)) (snd p)))) l st).
  Proof. induction l as [|p l IH]; intros st H; cbn [fold_left]; auto. apply IH. now apply stuck_vec. Qed.
  Lemma stuck_pass mult st : stuck st -> stuck (@at_site_step RNum Ti (cubic a) ft pt mult st (x, e)).
  Proof. intro H. rewrite at_site_fold. cbn [fst snd]. now apply stuck_fold. Qed.
  Lemma stuck_first : stuck (@at_site_step RNum Ti (cubic a) ft pt 2 ([], []) (x, e)).
  Proof.
    rewrite at_site_fold. change (tri 2) with ((0, 0, 0)%Z :: tl (tri 2)). cbn [fold_left fst snd].
    apply stuck_fold. exists [zscale 2 (0, 0, 0)%Z]. split.
    - unfold at_vec_step. cbn [existsb fst app map]. f_equal. exact (cand_step Ti x 2 (0, 0, 0)%Z).
    - change (zscale 2 (0, 0, 0)%Z) with (V 0 0 0)%Z. split; [repeat constructor; cbn; tauto|]. split.
      + exists (V 0 0 0)%Z. split; [now left|]. cbn [vx]. apply Z.mod_0_l. lia.
      + intros m [<-|[]]. cbn [vx]. rewrite Z.mod_0_l; lia.
  Qed.
  Lemma stuck_short st : stuck st -> (List.length (fst st) < Z.to_nat n)%nat.
  Proof.
    intros (ms & -> & ND & _ & N1). rewrite map_length, <- (map_length (fun m => vx m mod n)%Z), <- zr_length.
    assert (L : (List.length (1%Z :: map (fun m => vx m mod n)%Z ms) <= List.length (zr n))%nat).
    { apply NoDup_incl_length.
      - constructor; auto. intro H. apply in_map_iff in H. destruct H as (m & E & Hm). now apply (N1 m Hm).
      - intros z [<-|H]; apply zr_In; [lia|]. apply in_map_iff in H. destruct H as (m & <- & _).
        apply Z.mod_pos_bound. lia. }
    cbn [List.length] in L. lia.
  Qed.
  Lemma go_on st : stuck st \/ st = ([], []) ->
    @ratio_lt RNum (List.length (fst st)) (IZR (Z.of_nat 1)) (IZR n) = true.
  Proof.
    intro H. apply ratio_lt_true_iff; [lia|]. cbn [INR]. rewrite Rmult_1_r.
    assert (L : (List.length (fst st) < Z.to_nat n)%nat) by (destruct H as [H| ->]; [now apply stuck_short|cbn; lia]).
    apply lt_INR in L. rewrite (INR_IZR_INZ (Z.to_nat n)), Z2Nat.id in L by lia. exact L.
  Qed.
  Lemma search_stuck fuel : forall mult st, stuck st ->
    @at_search RNum fuel Ti s ft pt (IZR n) mult st = OutOfFuel.
  Proof.
    induction fuel as [|fuel IH]; intros mult st H; cbn [at_search s coords List.length fofZ RNum];
      numR; rewrite (go_on st) by auto; auto.
    apply IH. cbn [combine frac_coords species s fold_left]. now apply stuck_pass.
  Qed.
  Lemma never_returns fuel : @apply_transformation RNum fuel s (MofZ T) pt = OutOfFuel.
  Proof.
    assert (Dn : Mdet (MofZ T) <> 0) by (rewrite MofZ_det, det_T; pose proof n_pos; lra).
    rewrite apply_transformation_unfold by exact Dn. rewrite volume_ratio_int, det_T, Z.abs_eq by lia.
    fold Ti. change (lattice s) with (cubic a). fold ft.
    assert (E : @at_search RNum fuel Ti s ft pt (IZR n) 2 ([], []) = OutOfFuel).
    { assert (G : @ratio_lt RNum 0 (IZR (Z.of_nat 1)) (IZR n) = true) by (apply (go_on ([], [])); auto).
      destruct fuel as [|fuel]; cbn [at_search s coords List.length fofZ RNum fst]; numR; rewrite G; auto.
      apply search_stuck. cbn [combine frac_coords species s fold_left]. apply stuck_first. }
    cbn [num RNum] in *. rewrite E. reflexivity.
  Qed.
End Div.
