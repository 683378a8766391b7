(** Proofs about Structure::apply_transformation (structure.rs 141-205). *)
From Coq Require Import ZArith Reals String List Bool Lia Lra Psatz Permutation Sorting.Sorted.
From Flocq Require Import Core.Raux.
From Verif Require Import Num Mat Utils SpaceGroup Structure RInst Spec RFacts PUtils PStructure PCoset.
Import ListNotations.
Open Scope R_scope.

(** one candidate site *)
Definition cand (Ti : mat R) (x : vec R) (m : vec Z) : vec R := Mapp Ti (Vadd x (VofZ m)).
Definition tri (mult : nat) : list (Z * Z * Z) := iproduct (iproduct (zrange mult) (zrange mult)) (zrange mult).
Definition zscale (mult : nat) (p : Z * Z * Z) : vec Z :=
  ZVscal (Z.of_nat mult) (V (fst (fst p)) (snd (fst p)) (snd p)).

Lemma unit_translations_tri mult : @unit_translations RNum mult =
  map (fun p => VofZ (V (fst (fst p)) (snd (fst p)) (snd p))) (tri mult).
Proof. reflexivity. Qed.
Lemma cand_step Ti x mult p :
  @mvmul RNum Ti (@vadd RNum x (@vscale_r RNum (VofZ (V (fst (fst p)) (snd (fst p)) (snd p))) (@fofZ RNum (Z.of_nat mult))))
  = cand Ti x (zscale mult p).
Proof.
  unfold cand. rewrite mvmul_R, vadd_R. f_equal. f_equal. unfold zscale, ZVscal, VofZ, vscale_r, vmap.
  cbn [vx vy vz fmul fofZ RNum]. rewrite !mult_IZR. apply vec_ext; cbn; ring.
Qed.
Lemma zrange_In n z : In z (zrange n) <-> (0 <= z < Z.of_nat n)%Z.
Proof.
  unfold zrange. rewrite in_map_iff. split.
  - intros (i & <- & Hi). apply in_seq in Hi. lia.
  - intro H. exists (Z.to_nat z). split; [lia|]. apply in_seq. lia.
Qed.
Lemma iproduct_In {A B} (l : list A) (m : list B) a b : In (a, b) (iproduct l m) <-> In a l /\ In b m.
Proof.
  unfold iproduct. rewrite in_flat_map. split.
  - intros (x & Hx & Hy). apply in_map_iff in Hy. destruct Hy as (y & E & Hy). injection E as -> ->. auto.
  - intros [Ha Hb]. exists a. split; auto. apply in_map_iff. eauto.
Qed.
Lemma tri_In mult a b c : In (a, b, c) (tri mult) <->
  (0 <= a < Z.of_nat mult /\ 0 <= b < Z.of_nat mult /\ 0 <= c < Z.of_nat mult)%Z.
Proof. unfold tri. rewrite !iproduct_In, !zrange_In. tauto. Qed.

(** the fold over translations, over integer triples *)
Lemma at_site_fold inv lat ft pt mult (st : list (vec R) * list string) (site : vec R * string) :
  @at_site_step RNum inv lat ft pt mult st site =
  fold_left (fun st p => @at_vec_step RNum inv lat ft pt mult (fst site) (snd site) st
                            (VofZ (V (fst (fst p)) (snd (fst p)) (snd p)))) (tri mult) st.
Proof.
  unfold at_site_step. rewrite unit_translations_tri. generalize st. induction (tri mult) as [|p l IH]; intro st0; cbn [map fold_left]; auto.
Qed.

(** ** soundness: every site found is a translate of an old site *)
Section Sound.
  Variables (Ti L : mat R) (ft : vec R) (pt : R) (sites : list (vec R * string)).
  Definition sound_st (st : list (vec R) * list string) : Prop :=
    List.length (fst st) = List.length (snd st) /\
    forall y sp, In (y, sp) (combine (fst st) (snd st)) -> exists x m, In (x, sp) sites /\ y = cand Ti x m.

  Lemma combine_snoc {A B} (l : list A) (m : list B) a b : List.length l = List.length m ->
    combine (l ++ [a]) (m ++ [b]) = combine l m ++ [(a, b)].
  Proof. revert m. induction l; destruct m; cbn; intros; try congruence. f_equal. auto. Qed.

  Lemma sound_vec_step mult x sp st p : In (x, sp) sites -> sound_st st ->
    sound_st (@at_vec_step RNum Ti L ft pt mult x sp st (VofZ (V (fst (fst p)) (snd (fst p)) (snd p)))).
  Proof.
    intros Hx [Hl Hs]. destruct st as [nfc nsp]. unfold at_vec_step. rewrite cand_step.
    match goal with |- context [existsb ?f ?l] => destruct (existsb f l) end; [split; auto|]. cbn [fst snd] in *. split; cbn [fst snd].
    - rewrite !app_length. cbn. lia.
    - intros y sp' H. rewrite combine_snoc in H by exact Hl. apply in_app_iff in H. destruct H as [H|[E|[]]]; auto.
      injection E as <- <-. eauto.
  Qed.
  Lemma sound_site_step mult st site : In site sites -> sound_st st ->
    sound_st (@at_site_step RNum Ti L ft pt mult st site).
  Proof.
    intros Hi. rewrite at_site_fold. revert st. induction (tri mult) as [|p l IH]; intros st Hs; cbn; auto.
    apply IH. apply sound_vec_step; auto. now destruct site.
  Qed.
  Lemma sound_pass mult st : forall l, incl l sites -> sound_st st ->
    sound_st (fold_left (@at_site_step RNum Ti L ft pt mult) l st).
  Proof.
    intros l. revert st. induction l as [|a l IH]; intros st Hi Hs; cbn; auto.
    apply IH; [intros b Hb; apply Hi; now right|]. apply sound_site_step; auto. apply Hi; now left.
  Qed.
End Sound.

Lemma at_search_sound (s : rstruct) Ti ft pt ratio : forall fuel mult st st',
  sound_st Ti (combine (frac_coords s) (species s)) st ->
  @at_search RNum fuel Ti s ft pt ratio mult st = Ok st' ->
  sound_st Ti (combine (frac_coords s) (species s)) st' /\
  @ratio_lt RNum (List.length (fst st')) (IZR (Z.of_nat (List.length (coords s)))) ratio = false.
Proof.
  induction fuel as [|fuel IH]; intros mult st st' Hs; cbn [at_search];
    destruct (ratio_lt _ _ _) eqn:E; try discriminate.
  - intro H. injection H as <-. auto.
  - apply IH. now apply sound_pass with (sites := combine (frac_coords s) (species s)).
  - intro H. injection H as <-. auto.
Qed.

Lemma ratio_lt_false (n d : nat) (r : R) : @ratio_lt RNum n (IZR (Z.of_nat d)) r = false ->
  r * INR d <= INR n \/ d = 0%nat.
Proof.
  unfold ratio_lt. destruct (@feq RNum _ _) eqn:E.
  - intros _. right. apply feq_true in E. cbn in E. apply eq_IZR in E. lia.
  - apply feq_false in E. cbn [f0 fofZ RNum] in E. intro H. left. apply flt_false in H.
    cbn [fdiv fofZ RNum] in H. rewrite !INR_IZR_INZ.
    assert (P : 0 < IZR (Z.of_nat d)).
    { apply IZR_lt. assert (Z.of_nat d <> 0%Z) by (intro Q; apply E; now rewrite Q). lia. }
    apply (Rmult_le_compat_r (IZR (Z.of_nat d))) in H; [|lra].
    unfold Rdiv in H. rewrite Rmult_assoc, Rinv_l in H by lra. lra.
Qed.
Lemma ratio_lt_true_iff (n d : nat) (r : R) : (0 < d)%nat ->
  (@ratio_lt RNum n (IZR (Z.of_nat d)) r = true <-> INR n < r * INR d).
Proof.
  intro Hd. unfold ratio_lt.
  assert (P : 0 < IZR (Z.of_nat d)) by (apply IZR_lt; lia).
  replace (@feq RNum _ _) with false by (symmetry; apply feq_false; cbn [f0 fofZ RNum]; lra).
  rewrite flt_true. cbn [fdiv fofZ RNum]. rewrite !INR_IZR_INZ. split; intro H.
  - apply (Rmult_lt_compat_r (IZR (Z.of_nat d))) in H; [|lra].
    unfold Rdiv in H. rewrite Rmult_assoc, Rinv_l in H by lra. lra.
  - apply (Rmult_lt_reg_r (IZR (Z.of_nat d))); [lra|].
    unfold Rdiv. rewrite Rmult_assoc, Rinv_l by lra. lra.
Qed.
Lemma volume_ratio_near (T : mat R) : exists k : Z, @volume_ratio RNum T = IZR k / 100 /\
  Rabs (100 * Rabs (Mdet T) - IZR k) <= / 2.
Proof.
  unfold volume_ratio. rewrite det_R. cbn [fdiv fround fmul fabs fofZ RNum].
  set (x := Rabs (Mdet T) * 100). exists (Rround x). split; [reflexivity|].
  replace (100 * Rabs (Mdet T)) with x by (unfold x; ring).
  unfold Rround. assert (0 <= x) by (unfold x; pose proof (Rabs_pos (Mdet T)); lra).
  rewrite Rle_bool_true by auto.
  pose proof (Zfloor_lb (x + / 2)). pose proof (Zfloor_ub (x + / 2)). apply Rabs_le. lra.
Qed.
Lemma volume_ratio_int (T : mat Z) : @volume_ratio RNum (MofZ T) = IZR (Z.abs (ZMdet T)).
Proof.
  unfold volume_ratio. rewrite det_R, MofZ_det. cbn [fdiv fround fmul fabs fofZ RNum].
  rewrite <- abs_IZR, <- mult_IZR, Rround_IZR, mult_IZR. numR. field.
Qed.

Lemma apply_transformation_unfold (s : rstruct) (T : mat R) pt fuel : Mdet T <> 0 ->
  @apply_transformation RNum fuel s T pt =
  do st <- @at_search RNum fuel (Madj_inv T) s (@frac_tols_of RNum (lattice s) pt) pt (@volume_ratio RNum T) 2 ([], []);
  let '(nfc, nsp) := st in
  Ok (@normalize_coords RNum
        (Structure (N := RNum) (Mmul (lattice s) T) nsp (map (Mapp (Mmul (lattice s) T)) nfc) nfc) pt).
Proof. intro D. unfold apply_transformation. rewrite try_inverse_R by auto. reflexivity. Qed.

(** sites of a normalized structure come from sites of the structure *)
Lemma normalize_sites (s : rstruct) pt k e y :
  List.length (species s) = List.length (frac_coords s) ->
  nth_error (species (@normalize_coords RNum s pt)) k = Some e ->
  nth_error (frac_coords (@normalize_coords RNum s pt)) k = Some y ->
  exists x n, In (x, e) (combine (frac_coords s) (species s)) /\ y = Vadd x (VofZ n).
Proof.
  intros Hl. destruct (normalize_coords_zip s pt) as (z & Pm & _ & _ & ->). cbn [species frac_coords].
  intros He Hy. assert (Hz : nth_error z k = Some (e, y)).
  { revert He Hy. clear. revert k. induction z as [|[a b] z IH]; intros [|k]; cbn; try discriminate.
    - intros E1 E2. injection E1 as <-. injection E2 as <-. reflexivity.
    - apply IH. }
  apply nth_error_In in Hz. eapply Permutation_in in Hz; [|exact Pm].
  unfold normalize_frac_vectors in Hz.
  assert (Q : exists x, In (x, e) (combine (frac_coords s) (species s)) /\ y = @normalize_vec RNum x (@frac_tols_of RNum (lattice s) pt)).
  { revert Hz. clear. generalize (@frac_tols_of RNum (lattice s) pt) as ft. generalize (species s) as sp.
    generalize (frac_coords s) as fc. intro fc. induction fc as [|x fc IH]; intros [|a sp] ft; cbn; try tauto.
    intros [E|H].
    - injection E as -> <-. eauto.
    - destruct (IH _ _ H) as (x' & Hx & E). eauto. }
  destruct Q as (x & Hx & ->). destruct (normalize_vec_shift x (@frac_tols_of RNum (lattice s) pt)) as [n Hn].
  eauto.
Qed.
(** and conversely *)
Lemma normalize_sites_all (s : rstruct) pt e x :
  In (x, e) (combine (frac_coords s) (species s)) ->
  exists k y n, nth_error (species (@normalize_coords RNum s pt)) k = Some e /\
    nth_error (frac_coords (@normalize_coords RNum s pt)) k = Some y /\ y = Vadd x (VofZ n).
Proof.
  intro Hi. destruct (normalize_coords_zip s pt) as (z & Pm & _ & _ & ->). cbn [species frac_coords].
  destruct (normalize_vec_shift x (@frac_tols_of RNum (lattice s) pt)) as [n Hn].
  assert (Hz : In (e, @normalize_vec RNum x (@frac_tols_of RNum (lattice s) pt)) z).
  { eapply Permutation_in; [apply Permutation_sym; exact Pm|]. unfold normalize_frac_vectors.
    revert Hi. clear. generalize (@frac_tols_of RNum (lattice s) pt) as ft. generalize (species s) as sp.
    generalize (frac_coords s) as fc. intro fc. induction fc as [|x' fc IH]; intros [|a sp] ft; cbn; try tauto.
    intros [E|H]; [injection E as -> ->; now left|right; auto]. }
  apply In_nth_error in Hz. destruct Hz as [k Hk]. exists k, (@normalize_vec RNum x (@frac_tols_of RNum (lattice s) pt)), n.
  split; [|split; [|exact Hn]]; rewrite nth_error_map, Hk; reflexivity.
Qed.

Lemma apply_transformation_sound (s s' : rstruct) (T : mat R) (pt : R) fuel :
  @apply_transformation RNum fuel s T pt = Ok s' ->
  Mdet T <> 0 /\ lattice s' = Mmul (lattice s) T /\
  List.length (species s') = List.length (frac_coords s') /\
  coords s' = map (Mapp (lattice s')) (frac_coords s') /\
  (forall k e y, nth_error (species s') k = Some e -> nth_error (frac_coords s') k = Some y ->
     exists j x m n, nth_error (species s) j = Some e /\ nth_error (frac_coords s) j = Some x /\
       Mapp T y = Vadd (Vadd x (VofZ m)) (Mapp T (VofZ n))) /\
  exists c : Z, Rabs (100 * Rabs (Mdet T) - IZR c) <= / 2 /\
    IZR c / 100 * INR (List.length (coords s)) <= INR (List.length (species s')).
Proof.
  intro H. assert (D : Mdet T <> 0).
  { intro D. unfold apply_transformation in H. apply try_inverse_none in D. cbn [num RNum] in *. rewrite D in H. discriminate. }
  split; [exact D|]. rewrite apply_transformation_unfold in H by exact D.
  destruct (at_search _ _ _ _ _ _ _ _) as [[nfc nsp]|p|] eqn:E; try discriminate. cbn [bind] in H.
  apply at_search_sound in E; [|split; [reflexivity|intros ? ? []]].
  destruct E as [[El Es] Er]. cbn [fst snd] in *.
  set (s0 := Structure (N := RNum) (Mmul (lattice s) T) nsp (map (Mapp (Mmul (lattice s) T)) nfc) nfc) in *.
  injection H as <-. pose proof (normalize_coords_spec s0 pt) as N. cbv zeta in N.
  destruct N as (N1 & N2 & N3 & _ & N5 & _).
  split; [exact N1|]. split; [exact N2|]. split; [rewrite N1; exact N5|]. split.
  - intros k e y He Hy. destruct (normalize_sites s0 pt k e y) as (x & n & Hi & ->); auto.
    cbn [frac_coords species s0] in Hi. destruct (Es _ _ Hi) as (x0 & m & Hi0 & ->).
    apply In_nth_error in Hi0. destruct Hi0 as [j Hj].
    assert (Q : nth_error (frac_coords s) j = Some x0 /\ nth_error (species s) j = Some e).
    { revert Hj. generalize (species s) as sp. generalize (frac_coords s) as fc. clear. induction j as [|j IH]; intros [|a fc] [|b sp]; cbn; try discriminate.
      - intro E. injection E as -> ->. auto.
      - apply IH. }
    exists j, x0, m, n. destruct Q. split; [auto|]. split; [auto|].
    unfold cand. rewrite Mapp_add, inv_app by now apply Madj_inverse. reflexivity.
  - destruct (volume_ratio_near T) as (c & Ec & Hc). exists c. split; [exact Hc|].
    rewrite Ec in Er. cbn [species s0 frac_coords] in N3.
    assert (L3 : List.length (species (@normalize_coords RNum s0 pt)) = List.length nfc) by (rewrite N3, <- El; apply Nat.min_id).
    rewrite L3. apply ratio_lt_false in Er. destruct Er as [Er|Er]; [exact Er|].
    rewrite Er. cbn [INR]. rewrite Rmult_0_r. apply pos_INR.
Qed.
