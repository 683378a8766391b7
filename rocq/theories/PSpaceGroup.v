(** Proofs about SpaceGroup::from_generators *)
From Coq Require Import ZArith Reals List Bool Lia Lra Permutation.
From Flocq Require Import Core.Raux.
From Verif Require Import Num Mat SymmOp SpaceGroup RInst Spec RFacts PUtils PSymmOp.
Import ListNotations.
Open Scope R_scope.

Notation sop := (@symmop RNum).
Definition sop_equiv (tols : vec R) (a b : sop) : Prop :=
  rotation a = rotation b /\ near3 tols (translation a) (translation b).
Lemma is_approx_eq_false (a b : sop) t : tols_ok t ->
  (@is_approx_eq RNum a b t = false <-> ~ sop_equiv t a b).
Proof.
  intro Ht. unfold sop_equiv. rewrite <- is_approx_eq_spec by auto. destruct (@is_approx_eq RNum a b t); split; intro; congruence.
Qed.
Lemma sop_equiv_sym t a b : sop_equiv t a b -> sop_equiv t b a.
Proof. intros [E N]. split; auto. now apply near3_sym. Qed.
(** equal up to whole periods *)
Definition sop_congr (a b : sop) : Prop := rotation a = rotation b /\ Vcongr (translation a) (translation b).
Lemma sop_equiv_congr t a a' b b' : sop_congr a a' -> sop_congr b b' -> sop_equiv t a b -> sop_equiv t a' b'.
Proof.
  intros [E1 C1] [E2 C2] [E N]. split; [congruence|]. eapply near3_congr; eauto.
Qed.
Lemma sop_congr_refl a : sop_congr a a. Proof. split; auto. apply Vcongr_refl. Qed.
Lemma sop_congr_sym a b : sop_congr a b -> sop_congr b a. Proof. intros [E C]. split; auto. now apply Vcongr_sym. Qed.
Lemma op_normalize_congr (a : sop) t : sop_congr (@op_normalize RNum a t) a.
Proof. split; [reflexivity|]. apply normalize_vec_congr. Qed.
Lemma sop_equiv_refl t a : tols_ok t -> sop_equiv t a a. Proof. intro. split; auto. now apply near3_refl. Qed.
Lemma op_normalize_equiv (a : sop) t : tols_ok t -> sop_equiv t (@op_normalize RNum a t) a.
Proof.
  intro Ht. eapply sop_equiv_congr; [apply sop_congr_sym, op_normalize_congr|apply sop_congr_refl|]. now apply sop_equiv_refl.
Qed.

(** ** growth of the list *)
Inductive grown (tols : vec R) (gens : list sop) : list sop -> Prop :=
| g_start : grown tols gens gens
| g_add l a b : grown tols gens l -> In a l -> In b l ->
    (forall s, In s l -> ~ sop_equiv tols s (@op_mul RNum a b)) ->
    grown tols gens (l ++ [@op_normalize RNum (@op_mul RNum a b) tols]).

Section Rounds.
  Variable (tols : vec R).
  Hypothesis Ht : tols_ok tols.

  Lemma sg_pair_step_cases (ops gen : list sop) (p : sop * sop) :
    let o := @op_mul RNum (fst p) (snd p) in
    (exists s, In s ops /\ sop_equiv tols s o /\ @sg_pair_step RNum tols (ops, gen) p = (ops, gen)) \/
    ((forall s, In s ops -> ~ sop_equiv tols s o) /\
     @sg_pair_step RNum tols (ops, gen) p = (ops ++ [@op_normalize RNum o tols], gen ++ [@op_normalize RNum o tols])).
  Proof.
    cbv zeta. unfold sg_pair_step.
    destruct (existsb (fun symm_op : sop => @is_approx_eq RNum symm_op (@op_mul RNum (fst p) (snd p)) tols) ops) eqn:E.
    - left. apply existsb_exists in E. destruct E as (s & Hs & E). apply is_approx_eq_spec in E; auto. exists s. auto.
    - right. split; [|reflexivity]. intros s Hs Q. apply is_approx_eq_spec in Q; auto.
      assert (T : existsb (fun symm_op : sop => @is_approx_eq RNum symm_op (@op_mul RNum (fst p) (snd p)) tols) ops = true).
      { apply existsb_exists. exists s. auto. }
      congruence.
  Qed.

  (** one round: [ops] grows by exactly what is appended to [gen]; every pair ends up represented *)
  Lemma sg_fold_spec (gens : list sop) (pairs : list (sop * sop)) : forall ops gen,
    grown tols gens ops -> (forall p, In p pairs -> In (fst p) ops /\ In (snd p) ops) ->
    exists added,
      fold_left (@sg_pair_step RNum tols) pairs (ops, gen) = (ops ++ added, gen ++ added) /\
      grown tols gens (ops ++ added) /\
      (forall p, In p pairs -> exists s, In s (ops ++ added) /\ sop_equiv tols s (@op_mul RNum (fst p) (snd p))).
  Proof.
    induction pairs as [|p pairs IH]; intros ops gen G HP.
    - exists []. rewrite !app_nil_r. split; [reflexivity|]. split; auto. intros p [].
    - cbn [fold_left]. destruct (HP p (or_introl eq_refl)) as [P1 P2].
      destruct (sg_pair_step_cases ops gen p) as [(s & Hs & Q & ->)|[Q ->]].
      + destruct (IH ops gen G) as (added & E & G' & C). { intros q Hq. apply HP. now right. }
        exists added. rewrite E. split; auto. split; auto.
        intros q [<-|Hq]; [|auto]. exists s. split; auto. apply in_or_app. auto.
      + set (o := @op_normalize RNum (@op_mul RNum (fst p) (snd p)) tols) in *.
        destruct (IH (ops ++ [o]) (gen ++ [o])) as (added & E & G' & C).
        { constructor; auto. }
        { intros q Hq. destruct (HP q (or_intror Hq)). split; apply in_or_app; auto. }
        exists (o :: added). rewrite E, <- !app_assoc in *. cbn [app] in *. split; auto. split; auto.
        intros q [<-|Hq]; [|auto]. exists o. split; [apply in_or_app; right; now left|].
        now apply op_normalize_equiv.
  Qed.

  Lemma In_iproduct {A B} (l : list A) (m : list B) a b : In (a, b) (iproduct l m) <-> In a l /\ In b m.
  Proof.
    unfold iproduct. rewrite in_flat_map. split.
    - intros (x & Hx & H). apply in_map_iff in H. destruct H as (y & E & Hy). injection E as <- <-. auto.
    - intros [H1 H2]. exists a. split; auto. apply in_map_iff. exists b. auto.
  Qed.

  (** closure under left multiplication by generators, except for the pending operations *)
  Definition closed_but (gens ops pending : list sop) : Prop :=
    forall m, In m ops -> In m pending \/
      forall g, In g gens -> exists s, In s ops /\ sop_equiv tols s (@op_mul RNum g m).

  Lemma grown_gens gens l : grown tols gens l -> incl gens l.
  Proof. induction 1; [apply incl_refl|]. intros x Hx. apply in_or_app. left. auto. Qed.

  Lemma sg_rounds_spec (gens : list sop) fuel : forall ops new r,
    grown tols gens ops -> incl new ops -> closed_but gens ops new ->
    @sg_rounds RNum fuel tols ops new = Ok r -> grown tols gens r /\ closed_but gens r [].
  Proof.
    induction fuel as [|fuel IH]; intros ops new r G I C E.
    - destruct new; [|discriminate]. injection E as <-. auto.
    - destruct new as [|n new]; [injection E as <-; auto|].
      cbn [sg_rounds] in E.
      destruct (sg_fold_spec gens (iproduct ops (n :: new)) ops [] G) as (added & Ef & G' & Cp).
      { intros [a b] Hp. apply In_iproduct in Hp. cbn. split; [tauto|]. apply I. tauto. }
      rewrite Ef in E. cbn [app] in E. apply (IH (ops ++ added) added); auto.
      + apply incl_appr, incl_refl.
      + intros m Hm. apply in_app_or in Hm. destruct Hm as [Hm|Hm]; [|auto].
        right. intros g Hg. destruct (C m Hm) as [Hp|Hc].
        * apply (Cp (g, m)). apply In_iproduct. split; auto. eapply grown_gens; eauto.
        * destruct (Hc g Hg) as (s & Hs & Q). exists s. split; auto. apply in_or_app; auto.
  Qed.

  Lemma from_generators_spec fuel (gens r : list sop) :
    @from_generators RNum fuel gens tols = Ok r -> grown tols gens r /\ closed_but gens r [].
  Proof.
    unfold from_generators. apply sg_rounds_spec; [constructor|apply incl_refl|].
    intros m Hm. auto.
  Qed.

  (** indexed form of [grown] *)
  Lemma grown_indexed gens l : grown tols gens l ->
    (exists added, l = gens ++ added) /\
    forall i op, (List.length gens <= i)%nat -> nth_error l i = Some op ->
      (exists j k a b, (j < i)%nat /\ (k < i)%nat /\ nth_error l j = Some a /\ nth_error l k = Some b /\
         sop_congr op (@op_mul RNum a b)) /\
      (forall c, 0 <= vnth tols c <= 1 -> - vnth tols c <= vnth (translation op) c <= 1 - vnth tols c) /\
      (forall j s, (j < i)%nat -> nth_error l j = Some s -> ~ sop_equiv tols s op).
  Proof.
    induction 1 as [|l a b G [[ad ->] IH] Ia Ib Hn].
    - split; [exists []; now rewrite app_nil_r|]. intros i op Hi E.
      exfalso. assert (nth_error gens i <> None) by congruence. apply nth_error_Some in H. lia.
    - split; [eexists; rewrite <- app_assoc; reflexivity|]. intros i op Hi E.
      set (l := gens ++ ad) in *. set (o := @op_normalize RNum (@op_mul RNum a b) tols) in *.
      assert (NE : forall j s, nth_error l j = Some s -> nth_error (l ++ [o]) j = Some s).
      { intros j s Hj. rewrite nth_error_app1; auto. apply nth_error_Some. congruence. }
      destruct (Nat.lt_ge_cases i (List.length l)) as [Hlt|Hge].
      + rewrite nth_error_app1 in E by auto. destruct (IH i op Hi E) as ((j & k & x & y & H1 & H2 & H3 & H4 & H5) & R1 & R2).
        split; [exists j, k, x, y; auto 10|]. split; auto.
        intros j' s Hj Es. apply (R2 j' s Hj). rewrite nth_error_app1 in Es; auto. lia.
      + rewrite nth_error_app2 in E by auto. destruct (i - List.length l)%nat as [|q] eqn:Eq; [|destruct q; discriminate].
        injection E as <-. assert (i = List.length l) by lia. subst i.
        destruct (In_nth_error _ _ Ia) as [j Hj]. destruct (In_nth_error _ _ Ib) as [k Hk].
        assert (Lj : (j < List.length l)%nat) by (apply nth_error_Some; congruence).
        assert (Lk : (k < List.length l)%nat) by (apply nth_error_Some; congruence).
        split; [exists j, k, a, b; repeat split; auto; apply normalize_vec_congr|]. split.
        * intros c Hc. unfold o. cbn [op_normalize translation]. rewrite normalize_vec_vnth_R. now apply normalize1_range.
        * intros j' s Hj' Es. rewrite nth_error_app1 in Es by auto. intro Q.
          apply (Hn s (nth_error_In _ _ Es)).
          eapply sop_equiv_congr; [apply sop_congr_refl|apply op_normalize_congr|exact Q].
  Qed.

  (** ** termination *)
  (** a cell number on each axis; equal cells imply nearness *)
  Definition cell1 (t x : R) : Z := Zfloor ((x - IZR (Zfloor x)) / t).
  Lemma cell1_range t x : 0 < t -> (0 <= cell1 t x <= Zfloor (1 / t))%Z.
  Proof.
    intro H. pose proof (Zfloor_lb x). pose proof (Zfloor_ub x). unfold cell1. split.
    - apply Zfloor_lub. apply Rmult_le_pos; [lra|]. apply Rlt_le, Rinv_0_lt_compat; auto.
    - apply Zfloor_le. apply Rmult_le_compat_r; [apply Rlt_le, Rinv_0_lt_compat; auto|lra].
  Qed.
  Lemma cell1_near t x y : 0 < t -> cell1 t x = cell1 t y -> near1 t x y.
  Proof.
    intros H E. exists (Zfloor x - Zfloor y)%Z. rewrite minus_IZR. unfold cell1 in E.
    set (u := x - IZR (Zfloor x)) in *. set (v := y - IZR (Zfloor y)) in *.
    replace (x - y - (IZR (Zfloor x) - IZR (Zfloor y))) with (u - v) by (unfold u, v; ring).
    pose proof (Zfloor_lb (u / t)). pose proof (Zfloor_ub (u / t)).
    pose proof (Zfloor_lb (v / t)). pose proof (Zfloor_ub (v / t)). rewrite E in *.
    assert (u / t - v / t < 1 /\ v / t - u / t < 1) as [A B] by lra.
    assert (u = u / t * t) by (field; lra). assert (v = v / t * t) by (field; lra).
    apply Rabs_def1; nra.
  Qed.
  Definition key (o : sop) : (Z * Z * Z) * (Z * Z * Z * (Z * Z * Z) * (Z * Z * Z)) :=
    let r := rotation o in let t := translation o in
    ((cell1 (vx tols) (vx t), cell1 (vy tols) (vy t), cell1 (vz tols) (vz t)),
     ((m11 r, m12 r, m13 r), (m21 r, m22 r, m23 r), (m31 r, m32 r, m33 r))).
  Lemma key_equiv a b : key a = key b -> sop_equiv tols a b.
  Proof.
    destruct Ht as (T1 & T2 & T3). unfold key. intro E. injection E as E1 E2 E3 F1 F2 F3 F4 F5 F6 F7 F8 F9.
    split; [now apply mat_ext|]. repeat split; apply cell1_near; auto; lra.
  Qed.
  Definition zseq (lo n : Z) : list Z := map (fun i => lo + Z.of_nat i)%Z (seq 0 (Z.to_nat (n + 1))).
  Lemma zseq_In lo n z : (lo <= z <= lo + n)%Z -> In z (zseq lo n).
  Proof. intro H. unfold zseq. apply in_map_iff. exists (Z.to_nat (z - lo)). split; [lia|]. apply in_seq. lia. Qed.
  Definition keys : list ((Z * Z * Z) * (Z * Z * Z * (Z * Z * Z) * (Z * Z * Z))) :=
    let i8s := zseq (-128) 255 in
    let rows := list_prod (list_prod i8s i8s) i8s in
    list_prod (list_prod (list_prod (zseq 0 (Zfloor (1 / vx tols))) (zseq 0 (Zfloor (1 / vy tols)))) (zseq 0 (Zfloor (1 / vz tols))))
              (list_prod (list_prod rows rows) rows).
  Lemma key_In o : i8_range (rotation o) -> In (key o) keys.
  Proof.
    intro H. unfold i8_range, entries_within in H. destruct Ht as (T1 & T2 & T3).
    unfold key, keys. repeat apply in_prod; apply zseq_In; try lia.
    - pose proof (cell1_range (vx tols) (vx (translation o)) ltac:(lra)). lia.
    - pose proof (cell1_range (vy tols) (vy (translation o)) ltac:(lra)). lia.
    - pose proof (cell1_range (vz tols) (vz (translation o)) ltac:(lra)). lia.
  Qed.

  Lemma grown_added gens l : grown tols gens l -> exists added, l = gens ++ added /\
     (List.length added <= List.length keys)%nat.
  Proof.
    intro G.
    assert (Q : exists added, l = gens ++ added /\ NoDup (map key added) /\ incl (map key added) keys).
    { induction G as [|l a b G (ad & -> & N & I) Ia Ib Hn].
      - exists []. rewrite app_nil_r. split; auto. split; [constructor|intros x []].
      - set (o := @op_normalize RNum (@op_mul RNum a b) tols).
        exists (ad ++ [o]). rewrite app_assoc. split; auto. rewrite map_app. cbn [map]. split.
        + assert (P : NoDup (key o :: map key ad)).
          { constructor; auto. intro K. apply in_map_iff in K. destruct K as (s & E & Hs).
            apply (Hn s); [apply in_or_app; auto|].
            eapply sop_equiv_congr; [apply sop_congr_refl|apply op_normalize_congr|apply key_equiv; exact E]. }
          eapply Permutation_NoDup; [|exact P]. apply Permutation_cons_append.
        + intros x Hx. apply in_app_or in Hx. destruct Hx as [Hx|[<-|[]]]; [auto|].
          apply key_In. unfold o. cbn [op_normalize rotation op_mul]. apply i8_mmul_range. }
    destruct Q as (ad & -> & N & I). exists ad. split; auto.
    rewrite <- (map_length key ad). now apply NoDup_incl_length.
  Qed.

  Lemma sg_rounds_terminates gens fuel : forall ops new added,
    ops = gens ++ added -> grown tols gens ops -> incl new ops ->
    (List.length keys - List.length added < fuel)%nat \/ new = [] ->
    exists r, @sg_rounds RNum fuel tols ops new = Ok r.
  Proof.
    induction fuel as [|fuel IH]; intros ops new added E G I Hf.
    - destruct Hf as [Hf| ->]; [lia|]. exists ops. reflexivity.
    - destruct new as [|n new]; [exists ops; reflexivity|]. destruct Hf as [Hf|]; [|discriminate].
      cbn [sg_rounds].
      destruct (sg_fold_spec gens (iproduct ops (n :: new)) ops [] G) as (ad & Ef & G' & _).
      { intros [a b] Hp. apply In_iproduct in Hp. cbn. split; [tauto|]. apply I. tauto. }
      rewrite Ef. cbn [app]. subst ops.
      apply (IH _ _ (added ++ ad)); auto.
      + now rewrite app_assoc.
      + apply incl_appr, incl_refl.
      + destruct ad as [|x ad]; [auto|]. left.
        destruct (grown_added _ _ G') as (ad' & Ea & La). rewrite <- app_assoc in Ea. apply app_inv_head in Ea. subst ad'.
        rewrite app_length in *. cbn [List.length] in *. lia.
  Qed.
  Lemma from_generators_terminates gens fuel : (List.length keys < fuel)%nat ->
    exists r, @from_generators RNum fuel gens tols = Ok r.
  Proof.
    intro Hf. apply (sg_rounds_terminates gens fuel gens gens []); [now rewrite app_nil_r|constructor|apply incl_refl|].
    left. cbn. lia.
  Qed.
End Rounds.
