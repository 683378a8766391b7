(** Facts about get_shortest_translation_vecs and find_primitive_cell over the reals. *)
From Coq Require Import ZArith Reals String List Bool Lia Lra Psatz Permutation Sorting.Sorted.
From Flocq Require Import Core.
From Verif Require Import Num Mat Structure RInst Spec RFacts PUtils PStructure PStructure2 PDelaunay Reduce.
Import ListNotations.
Open Scope R_scope.

Definition len_le (a b : vec R) : bool := @fle RNum (@magnitude RNum a) (@magnitude RNum b).
Lemma len_le_iff a b : len_le a b = true <-> Vnorm a <= Vnorm b.
Proof. unfold len_le. rewrite fle_true, !magnitude_R. reflexivity. Qed.
Lemma insert_len_sorted x l : StronglySorted (fun a b => Vnorm a <= Vnorm b) l -> StronglySorted (fun a b => Vnorm a <= Vnorm b) (insert_by len_le x l).
Proof.
  induction 1 as [|y l Hl IH Hy]; cbn [insert_by]; [repeat constructor|]. destruct (len_le x y) eqn:E.
  - apply len_le_iff in E. constructor; [now constructor|]. constructor; auto. rewrite Forall_forall in *. intros z Hz. specialize (Hy z Hz). lra.
  - assert (E' : Vnorm y <= Vnorm x). { destruct (Rle_or_lt (Vnorm x) (Vnorm y)) as [C|C]; [apply len_le_iff in C; congruence|lra]. }
    constructor; auto. rewrite Forall_forall in *. intros z Hz. apply (Permutation_in _ (insert_by_perm len_le x l)) in Hz. destruct Hz as [<-|Hz]; auto.
Qed.
Lemma sort_len_sorted l : StronglySorted (fun a b => Vnorm a <= Vnorm b) (sort_by len_le l).
Proof. induction l; cbn [sort_by fold_right]; [constructor|now apply insert_len_sorted]. Qed.

Lemma cross_R (a b : vec R) : @cross RNum a b = Vcross a b. Proof. reflexivity. Qed.
Definition par (dtol : R) (a v : vec R) : Prop := Vnorm (Vcross a v) <= dtol.
Lemma abs_norm (v : vec R) : Rabs (Vnorm v) = Vnorm v. Proof. apply Rabs_pos_eq, Vnorm_nonneg. Qed.

Lemma scan_second_spec (dtol : R) (a : vec R) (l : list (vec R)) : forall i (cv : vec R),
  (exists pre v post, l = pre ++ v :: post /\ @scan_second RNum dtol a i cv l = (Vcross a v, (i + List.length pre)%nat) /\
     dtol < Vnorm (Vcross a v) /\ Forall (par dtol a) pre) \/
  (Forall (par dtol a) l /\ snd (@scan_second RNum dtol a i cv l) = 1%nat).
Proof.
  induction l as [|v t IH]; intros i cv; cbn [scan_second].
  - right. split; [constructor|reflexivity].
  - destruct (@flt RNum dtol (@fabs RNum (@magnitude RNum (@cross RNum a v)))) eqn:E; rewrite magnitude_R, cross_R in E; cbn [fabs RNum] in E; rewrite abs_norm in E.
    + apply flt_true in E. left. exists [], v, t. rewrite Nat.add_0_r. repeat split; auto.
    + apply flt_false in E. destruct (IH (S i) (@cross RNum a v)) as [(pre & w & post & -> & E2 & Hw & Hp)|[Hp E2]].
      * left. exists (v :: pre), w, post. split; [reflexivity|]. rewrite E2. cbn [List.length]. rewrite Nat.add_succ_r. split; [reflexivity|]. split; [exact Hw|].
        constructor; [exact E|exact Hp].
      * right. split; [constructor; [exact E|exact Hp]|exact E2].
Qed.
Lemma scan_third_spec (dtol : R) (cv : vec R) (l : list (vec R)) : forall i,
  (exists pre v post, l = pre ++ v :: post /\ @scan_third RNum dtol cv i l = (i + List.length pre)%nat /\
     dtol < Vdot cv v /\ Forall (fun w => Vdot cv w <= dtol) pre) \/
  (Forall (fun w => Vdot cv w <= dtol) l /\ @scan_third RNum dtol cv i l = 2%nat).
Proof.
  induction l as [|v t IH]; intros i; cbn [scan_third].
  - right. split; [constructor|reflexivity].
  - destruct (@flt RNum dtol (@dot RNum cv v)) eqn:E.
    + apply flt_true in E. left. exists [], v, t. rewrite Nat.add_0_r. repeat split; auto.
    + apply flt_false in E. destruct (IH (S i)) as [(pre & w & post & -> & E2 & Hw & Hp)|[Hp E2]].
      * left. exists (v :: pre), w, post. split; [reflexivity|]. rewrite E2. cbn [List.length]. rewrite Nat.add_succ_r. split; [reflexivity|]. split; [exact Hw|].
        constructor; [exact E|exact Hp].
      * right. split; [constructor; [exact E|exact Hp]|exact E2].
Qed.
Lemma SS_app {A} (R1 : A -> A -> Prop) l m : StronglySorted R1 (l ++ m) -> StronglySorted R1 m /\ (forall x y, In x l -> In y m -> R1 x y).
Proof.
  induction l as [|a l IH]; cbn; intro H; [split; [exact H|tauto]|].
  inversion_clear H as [|? ? H1 H2]. destruct (IH H1) as [A1 A2]. split; [exact A1|].
  intros x y [<-|Hx] Hy; [|now apply A2]. rewrite Forall_forall in H2. apply H2, in_or_app. now right.
Qed.
Lemma cross_self a : Vcross a a = V0. Proof. unfold Vcross, V0. f_equal; ring. Qed.
Lemma norm_0 : Vnorm V0 = 0. Proof. unfold Vnorm, Vdot, V0; cbn. rewrite !Rmult_0_l, !Rplus_0_l. apply sqrt_0. Qed.
Lemma triple_self a b : Vdot (Vcross a b) b = 0. Proof. unfold Vdot, Vcross; cbn. ring. Qed.

Definition rshort (dtol : R) (cv : list (vec R)) : res (vec R * vec R * vec R) := @get_shortest_translation_vecs RNum dtol cv.

Lemma shortest_eq (dtol : R) (cv : list (vec R)) : rshort dtol cv =
  (let l := sort_by len_le cv in
    do first <- of_opt PIndex (nth_error l 0);
    let '(cross_vec, second_ind) := @scan_second RNum dtol first 1 (V 0 0 0) (skipn 1 l) in
    if (List.length l <? S second_ind)%nat then Panic PIndex else
    let third_ind := @scan_third RNum dtol cross_vec (S second_ind) (skipn (S second_ind) l) in
    do second <- of_opt PIndex (nth_error l second_ind);
    do third <- of_opt PIndex (nth_error l third_ind);
    Ok (first, second, third)).
Proof. unfold rshort, get_shortest_translation_vecs. rewrite sort_R. reflexivity. Qed.

Lemma shortest_total dtol cv : (3 <= List.length cv)%nat -> exists t, rshort dtol cv = Ok t.
Proof.
  intro H. rewrite shortest_eq. cbv zeta. pose proof (Permutation_length (sort_by_perm len_le cv)) as HL.
  set (l := sort_by len_le cv) in *. destruct l as [|a t]; [cbn in HL; lia|]. cbn [nth_error of_opt bind]. change (skipn 1 (a :: t)) with t.
  destruct (@scan_second RNum dtol a 1 (V 0 0 0) t) as [cr k] eqn:E.
  assert (Hk : (k < List.length (a :: t))%nat).
  { destruct (scan_second_spec dtol a t 1 (V 0 0 0)) as [(pre & v & post & -> & E2 & _)|[_ E2]]; rewrite E in E2.
    - assert (k = (1 + List.length pre)%nat) by congruence. subst k. cbn. rewrite app_length. cbn. lia.
    - cbn in E2. subst k. cbn in *. lia. }
  destruct (Nat.ltb_spec (List.length (a :: t)) (S k)) as [C|C]; [lia|].
  destruct (nth_error (a :: t) k) as [b|] eqn:Eb; [|apply nth_error_None in Eb; lia]. cbn [of_opt bind].
  set (j := @scan_third RNum dtol cr (S k) (skipn (S k) (a :: t))).
  assert (Hj : (j < List.length (a :: t))%nat).
  { unfold j. destruct (scan_third_spec dtol cr (skipn (S k) (a :: t)) (S k)) as [(pre & v & post & E1 & E2 & _)|[_ E2]]; rewrite E2; [|cbn in *; lia].
    apply (f_equal (@List.length _)) in E1. rewrite skipn_length, app_length in E1. cbn [List.length] in *. lia. }
  destruct (nth_error (a :: t) j) as [c|] eqn:Ec; [|apply nth_error_None in Ec; lia]. cbn [of_opt bind]. eexists. reflexivity.
Qed.

Lemma shortest_spec dtol cv a b c : 0 <= dtol -> rshort dtol cv = Ok (a, b, c) ->
  (In a cv /\ forall v, In v cv -> Vnorm a <= Vnorm v) /\ In b cv /\ In c cv /\
  ((exists v, In v cv /\ dtol < Vnorm (Vcross a v)) ->
     dtol < Vnorm (Vcross a b) /\ (forall v, In v cv -> dtol < Vnorm (Vcross a v) -> Vnorm b <= Vnorm v)) /\
  ((exists v, In v cv /\ dtol < Vnorm (Vcross a v) /\ dtol < Vdot (Vcross a b) v) ->
     dtol < Vdot (Vcross a b) c /\ Vnorm b <= Vnorm c /\
     (forall v, In v cv -> dtol < Vnorm (Vcross a v) -> dtol < Vdot (Vcross a b) v -> Vnorm c <= Vnorm v)).
Proof.
  intros Hd E. rewrite shortest_eq in E. cbv zeta in E. pose proof (sort_by_perm len_le cv) as HP. pose proof (sort_len_sorted cv) as HS.
  set (l := sort_by len_le cv) in *. destruct l as [|x t]; [discriminate E|]. cbn [nth_error of_opt bind] in E. change (skipn 1 (x :: t)) with t in E.
  destruct (@scan_second RNum dtol x 1 (V 0 0 0) t) as [cr k] eqn:ES.
  destruct (Nat.ltb_spec (List.length (x :: t)) (S k)) as [C|C]; [discriminate E|].
  destruct (nth_error (x :: t) k) as [b'|] eqn:Eb; [|discriminate E]. cbn [of_opt bind] in E.
  set (j := @scan_third RNum dtol cr (S k) (skipn (S k) (x :: t))) in *.
  destruct (nth_error (x :: t) j) as [c'|] eqn:Ec; [|discriminate E]. cbn [of_opt bind] in E. injection E as -> -> ->.
  assert (IN : forall v, In v (a :: t) <-> In v cv) by (intro v; split; apply Permutation_in; [exact HP|now apply Permutation_sym]).
  assert (Hx : forall v, In v cv -> Vnorm a <= Vnorm v).
  { intros v Hv. apply IN in Hv. inversion_clear HS as [|? ? H1 H2]. rewrite Forall_forall in H2. destruct Hv as [<-|Hv]; [lra|now apply H2]. }
  assert (PA : par dtol a a) by (unfold par; rewrite cross_self, norm_0; exact Hd).
  split; [split; [apply IN; now left|exact Hx]|]. split; [apply IN; eapply nth_error_In; exact Eb|]. split; [apply IN; eapply nth_error_In; exact Ec|].
  destruct (scan_second_spec dtol a t 1 (V 0 0 0)) as [(pre & v & post & Et & E2 & Hv & Hp)|[Hp E2]]; rewrite ES in E2.
  - pose proof (f_equal snd E2) as Hk. pose proof (f_equal fst E2) as Ecr. cbn [fst snd] in Hk, Ecr. change (1 + List.length pre)%nat with (S (List.length pre)) in Hk. clear E2.
    assert (EQ : a :: t = (a :: pre) ++ v :: post) by (rewrite Et; reflexivity).
    assert (b = v). { rewrite EQ, Hk in Eb. rewrite nth_error_app2 in Eb by (cbn; lia). cbn [List.length] in Eb. rewrite Nat.sub_diag in Eb. cbn in Eb. congruence. }
    subst b. rewrite EQ in HS. destruct (SS_app _ _ _ HS) as [HS2 HB].
    assert (LATE : forall w, In w cv -> dtol < Vnorm (Vcross a w) -> In w (v :: post)).
    { intros w Hw Hc. apply IN in Hw. rewrite EQ in Hw. apply in_app_or in Hw. destruct Hw as [[<-|Hw]|Hw]; [unfold par in PA; lra| |exact Hw].
      rewrite Forall_forall in Hp. specialize (Hp w Hw). unfold par in Hp. lra. }
    inversion_clear HS2 as [|? ? HS3 HF]. rewrite Forall_forall in HF. split.
    + intros _. split; [exact Hv|]. intros w Hw Hc. destruct (LATE w Hw Hc) as [<-|H]; [lra|now apply HF].
    + assert (LATE3 : forall w, In w cv -> dtol < Vnorm (Vcross a w) -> dtol < Vdot (Vcross a v) w -> In w post).
      { intros w Hw Hc Ht. destruct (LATE w Hw Hc) as [<-|H]; [|exact H]. rewrite triple_self in Ht. lra. }
      intros (w & Hw & Hc & Ht). pose proof (LATE3 w Hw Hc Ht) as Hpost.
      assert (ESK : skipn (S k) (a :: t) = post).
      { rewrite EQ, Hk. change (S (S (List.length pre))) with (S (List.length (a :: pre))).
        replace ((a :: pre) ++ v :: post) with (((a :: pre) ++ [v]) ++ post) by (rewrite <- app_assoc; reflexivity).
        replace (S (List.length (a :: pre))) with (List.length ((a :: pre) ++ [v])) by (rewrite app_length; cbn; lia).
        now rewrite skipn_app, skipn_all, Nat.sub_diag. }
      unfold j in Ec. rewrite ESK, Ecr in Ec.
      destruct (scan_third_spec dtol (Vcross a v) post (S k)) as [(pre3 & u & post3 & Ep & E3 & Hu & Hp3)|[Hp3 _]].
      * rewrite E3 in Ec.
        assert (c = u). { rewrite EQ, Ep in Ec. replace ((a :: pre) ++ v :: pre3 ++ u :: post3) with (((a :: pre) ++ v :: pre3) ++ u :: post3) in Ec by (rewrite <- app_assoc; reflexivity).
          rewrite nth_error_app2 in Ec by (rewrite app_length; cbn; lia). rewrite app_length in Ec. cbn [List.length] in Ec. rewrite Hk in Ec.
          replace (S (S (List.length pre)) + List.length pre3 - (S (List.length pre) + S (List.length pre3)))%nat with 0%nat in Ec by lia. cbn in Ec. congruence. }
        subst c. split; [exact Hu|]. split.
        { apply HF. rewrite Ep. apply in_or_app. right. now left. }
        intros w' Hw' Hc' Ht'. pose proof (LATE3 w' Hw' Hc' Ht') as H'. rewrite Ep in H', HS3. apply SS_app in HS3. destruct HS3 as [HS4 _].
        inversion_clear HS4 as [|? ? _ HF4]. rewrite Forall_forall in HF4.
        apply in_app_or in H'. destruct H' as [H'|[<-|H']]; [|lra|now apply HF4].
        rewrite Forall_forall in Hp3. specialize (Hp3 w' H'). lra.
      * exfalso. rewrite Forall_forall in Hp3. specialize (Hp3 w Hpost). lra.
  - assert (NO : forall w, In w cv -> Vnorm (Vcross a w) <= dtol).
    { intros w Hw. apply IN in Hw. destruct Hw as [<-|Hw]; [exact PA|]. rewrite Forall_forall in Hp. now apply Hp. }
    split; [intros (w & Hw & Hc)|intros (w & Hw & Hc & _)]; specialize (NO w Hw); lra.
Qed.
Lemma det_triple a b c : Mdet (from_columns a b c) = Vdot (Vcross a b) c.
Proof. unfold Mdet, from_columns, Vdot, Vcross. cbn. ring. Qed.

(** ** find_primitive_cell, step by step *)
(** the thirteen directions, both signs (reduce.rs 132-146) *)
Definition dirs13 : list (vec Z) :=
  [V 1 0 0; V 0 1 0; V 0 0 1; V 1 1 0; V 1 0 1; V 0 1 1; V (-1) 1 0; V (-1) 0 1; V 0 (-1) 1;
   V 1 1 1; V (-1) 1 1; V 1 (-1) 1; V 1 1 (-1)]%Z.
Definition dirs26 : list (vec Z) := dirs13 ++ map zneg dirs13.
Lemma VofZ_neg z : VofZ (zneg z) = Vscal (-1) (VofZ z).
Proof. unfold VofZ, zneg, Vscal. cbn. rewrite !opp_IZR. f_equal; ring. Qed.
Lemma Mapp_scal m k v : Mapp m (Vscal k v) = Vscal k (Mapp m v).
Proof. unfold Mapp, Vscal. cbn. f_equal; ring. Qed.
Lemma combos_in W v : In v (@combination_vecs RNum W) <-> exists z, In z dirs26 /\ v = Mapp W (VofZ z).
Proof.
  unfold combination_vecs. rewrite in_flat_map.
  assert (EB : @base_comb_vecs RNum = map VofZ dirs13) by reflexivity. rewrite EB. unfold dirs26. split.
  - intros (c & Hc & Hv). apply in_map_iff in Hc. destruct Hc as (z & <- & Hz).
    assert (E : v = Mapp W (VofZ z) \/ v = Mapp W (VofZ (zneg z))).
    { rewrite VofZ_neg, Mapp_scal. apply in_app_or in Hv. destruct Hv as [[<-|[<-|[]]]|Hv]; [now left|now right|].
      destruct (@flt RNum _ _); [|destruct Hv]. destruct Hv as [<-|[]]. now right. }
    destruct E as [->|E]; [exists z|exists (zneg z)]; (split; [apply in_or_app|]); auto using in_map.
  - intros (z & Hz & ->). apply in_app_or in Hz. destruct Hz as [Hz|Hz].
    + exists (VofZ z). split; [now apply in_map|]. apply in_or_app. left. now left.
    + apply in_map_iff in Hz. destruct Hz as (y & <- & Hy). exists (VofZ y). split; [now apply in_map|].
      apply in_or_app. left. right. left. rewrite VofZ_neg, Mapp_scal. reflexivity.
Qed.
Lemma dirs26_neg z : In z dirs26 -> In (zneg z) dirs26.
Proof.
  unfold dirs26. intro H. apply in_app_or in H. apply in_or_app. destruct H as [H|H]; [right; now apply in_map|left].
  apply in_map_iff in H. destruct H as (y & <- & Hy). replace (zneg (zneg y)) with y; [exact Hy|].
  unfold zneg. destruct y. cbn. f_equal; ring.
Qed.
Lemma combos_len W : (3 <= List.length (@combination_vecs RNum W))%nat.
Proof. unfold combination_vecs, base_comb_vecs. cbn [map flat_map]. rewrite !app_length. cbn [List.length]. lia. Qed.

Section Prim.
  Context (P : @Pinv RNum) (HO : HashOrd) (path : list nat) (dtol : R) (s : @structure RNum).
  Let L := lattice s.
  Let temp := @normalize_coords RNum s dtol.
  Definition folded (L' : mat R) : list (vec R) * list string :=
    fold_left (@fp_fold_step RNum L (@frac_tols_of RNum L dtol) dtol)
      (combine (map (Mapp (@pinv RNum P L')) (coords temp)) (species temp)) ([], []).
  Definition tvecs (me : string) (bi : nat) (bs : vec R) : list (vec R) :=
    filter (@fp_is_translation RNum dtol temp (@frac_tols_of RNum L dtol)) (@fp_candidates RNum temp (@frac_tols_of RNum L dtol) me bi bs).
  Definition prim_tail (tv : list (vec R)) : res (@structure RNum) :=
    do (v1, v2, v3) <- rshort dtol (map (Mapp L) tv);
    let Li := @pinv RNum P L in
    do (u1, u2, u3) <- rshort dtol (map (Mapp L) (@combination_vecs RNum (from_columns (Mapp Li v1) (Mapp Li v2) (Mapp Li v3))));
    let L' := from_columns u1 u2 u3 in
    Ok (@normalize_coords RNum (Structure (N := RNum) L' (snd (folded L')) (map (Mapp L') (fst (folded L'))) (fst (folded L'))) dtol).
  Lemma prim_eq : @find_primitive_cell RNum P HO path dtol s =
    (do (min_ele, ele_inds, _) <- @get_min_element HO path (species temp);
     do base_i <- of_opt PUnwrapNone (am_get String.eqb min_ele ele_inds);
     do base_site <- of_opt PIndex (nth_error (frac_coords temp) (Z.to_nat base_i));
     prim_tail (tvecs min_ele (Z.to_nat base_i) base_site)).
  Proof.
    unfold find_primitive_cell. fold temp.
    destruct (@get_min_element HO path (species temp)) as [[[me ei] tc]| |]; cbn [bind]; try reflexivity.
    destruct (of_opt PUnwrapNone (am_get String.eqb me ei)) as [bi| |]; cbn [bind]; try reflexivity.
    destruct (of_opt PIndex (nth_error (frac_coords temp) (Z.to_nat bi))) as [bs| |]; cbn [bind]; try reflexivity.
    unfold prim_tail. change (lattice temp) with L. change (lattice s) with L. fold (tvecs me (Z.to_nat bi) bs).
    change (@get_shortest_translation_vecs RNum) with rshort. unfold get_cart_coords. change (@mvmul RNum L) with (Mapp L).
    match goal with |- bind ?x _ = bind ?y _ => change x with y; destruct y as [[[v1 v2] v3]| |]; cbn [bind]; try reflexivity end.
    unfold get_frac_coords. rewrite pseudo_inverse_R. cbn [of_opt bind map].
    match goal with |- bind ?x _ = bind ?y _ => change x with y; destruct y as [[[u1 u2] u3]| |]; cbn [bind]; try reflexivity end.
    rewrite pseudo_inverse_R. cbn [of_opt bind].
    match goal with |- context [fold_left ?f ?l ?i] => change (fold_left f l i) with (folded (from_columns u1 u2 u3)) end.
    destruct (folded (from_columns u1 u2 u3)) as [nfc nsp]. reflexivity.
  Qed.
  Definition site_translation (t : vec R) : Prop :=
    forall x e, In (x, e) (combine (frac_coords s) (species s)) ->
      exists y n, In (y, e) (combine (frac_coords s) (species s)) /\ Vnorm (Mapp L (Vadd (Vsub (Vadd x t) y) (VofZ n))) <= 2 * dtol.
  Hypothesis WF : List.length (species s) = List.length (frac_coords s).
  Lemma temp_site x e : In (x, e) (combine (frac_coords temp) (species temp)) ->
    exists x0 n, In (x0, e) (combine (frac_coords s) (species s)) /\ x = Vadd x0 (VofZ n).
  Proof.
    intro H. apply In_nth_error in H. destruct H as (k & H).
    assert (Q : nth_error (frac_coords temp) k = Some x /\ nth_error (species temp) k = Some e).
    { revert H. generalize (species temp) as sp. generalize (frac_coords temp) as fc. clear. induction k as [|k IH]; intros [|a fc] [|b sp]; cbn; try discriminate.
      - intro E. injection E as -> ->. auto.
      - apply IH. }
    destruct Q as [Q1 Q2]. destruct (normalize_sites s dtol k e x WF Q2 Q1) as (x0 & n & A & B). eauto.
  Qed.
  Lemma temp_site_all x e : In (x, e) (combine (frac_coords s) (species s)) ->
    exists n, In (Vadd x (VofZ n), e) (combine (frac_coords temp) (species temp)).
  Proof.
    intro H. destruct (normalize_sites_all s dtol e x H) as (k & y & n & A & B & ->). exists n. fold temp in A, B.
    revert A B. generalize (species temp) as sp. generalize (frac_coords temp) as fc. clear. induction k as [|k IH]; intros [|a fc] [|b sp]; cbn; try discriminate.
    - intros E1 E2. injection E1 as ->. injection E2 as ->. now left.
    - intros. right. now apply IH.
  Qed.
  Lemma same_site_R (lat : mat R) ft (bound : R) (x y : vec R) : @same_site RNum lat ft bound x y = true ->
    exists n, Vnorm (Mapp lat (Vadd (Vsub x y) (VofZ n))) <= bound.
  Proof.
    unfold same_site. rewrite fle_true. cbn [fabs RNum]. rewrite magnitude_R, abs_norm. destruct (normalize_vec_shift (@vsub RNum x y) ft) as (n & ->).
    intro H. exists n. exact H.
  Qed.
  Lemma accepted t : @fp_is_translation RNum dtol temp (@frac_tols_of RNum L dtol) t = true -> site_translation t.
  Proof.
    unfold fp_is_translation. rewrite forallb_forall. intros H x e Hx. destruct (temp_site_all x e Hx) as (n & Hn).
    specialize (H _ Hn). apply existsb_exists in H. destruct H as ([y e'] & Hy & H). cbn [fst snd] in H. apply andb_prop in H. destruct H as [He H].
    apply String.eqb_eq in He. subst e'. apply same_site_R in H. destruct H as (m & H). destruct (temp_site y e Hy) as (y0 & k & Hy0 & ->).
    exists y0, (V (vx n - vx k + vx m) (vy n - vy k + vy m) (vz n - vz k + vz m))%Z. split; [exact Hy0|].
    replace (2 * dtol) with (@fmul RNum (@f2 RNum) dtol) by reflexivity. eapply Rle_trans; [|exact H]. right. do 2 f_equal.
    unfold vadd, vmap2, Vadd, Vsub, VofZ. cbn. rewrite !plus_IZR, !minus_IZR. f_equal; ring.
  Qed.
End Prim.

Lemma combine_app {A B} (l l' : list A) (m m' : list B) : List.length l = List.length m ->
  combine (l ++ l') (m ++ m') = combine l m ++ combine l' m'.
Proof. revert m. induction l as [|a l IH]; intros [|b m] H; try discriminate H; [reflexivity|]. cbn. f_equal. apply IH. now injection H. Qed.
(** The sites of the new cell: everything [folded] keeps is an input site. *)
Section Fold.
  Context (L : mat R) (ft : vec R) (dtol : R).
  Lemma fold_sites (l : list (vec R * string)) : forall st,
    List.length (fst st) = List.length (snd st) ->
    let r := fold_left (@fp_fold_step RNum L ft dtol) l st in
    List.length (fst r) = List.length (snd r) /\
    (forall x e, In (x, e) (combine (fst r) (snd r)) -> In (x, e) (combine (fst st) (snd st)) \/ In (x, e) l).
  Proof.
    induction l as [|[x e] l IH]; intros [a b] HL; cbn [fold_left]; [split; [exact HL|now left]|].
    cbn [fst snd] in HL.
    assert (C : @fp_fold_step RNum L ft dtol (a, b) (x, e) = (a, b) \/ @fp_fold_step RNum L ft dtol (a, b) (x, e) = (a ++ [x], b ++ [e])).
    { unfold fp_fold_step. destruct (existsb _ _); auto. }
    destruct C as [-> | ->].
    - destruct (IH (a, b) HL) as [A B]. split; [exact A|]. intros y f Hy. destruct (B y f Hy) as [H|H]; [now left|right; now right].
    - destruct (IH (a ++ [x], b ++ [e])) as [A B]; [cbn [fst snd]; rewrite !app_length; cbn [List.length]; f_equal; exact HL|]. split; [exact A|].
      intros y f Hy. destruct (B y f Hy) as [H|H]; [|right; now right]. cbn [fst snd] in H.
      rewrite combine_app in H by exact HL. apply in_app_or in H. destruct H as [H|[H|[]]]; [now left|]. right. left. exact H.
  Qed.
End Fold.
