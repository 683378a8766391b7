(** The translations of one rotation, indexed by pairs of sites; the accepted operations (analyzer.rs 200-280). *)
From Coq Require Import ZArith Reals String List Bool Lia Lra Permutation.
From Flocq Require Import Core.Raux.
From Verif Require Import Num Mat Utils Structure Analyzer RInst Spec Spec3 PFormula PCoset.
Import ListNotations.
Open Scope R_scope.

(** ** Blocks of equal species *)
Lemma prefix_count (k : string) : forall l, (forall i j, (i <= j)%nat -> nth_error l j = Some k -> nth_error l i = Some k) ->
  forall a, nth_error l a = Some k <-> (a < count_occ string_dec l k)%nat.
Proof.
  induction l as [|x l IH]; intros D a.
  - cbn. destruct a; cbn; split; (discriminate || lia).
  - destruct (string_dec x k) as [->|N].
    + rewrite count_occ_cons_eq by reflexivity. destruct a as [|a]; [cbn; split; [lia|reflexivity]|]. cbn [nth_error]. rewrite IH; [lia|].
      intros i j Hij. specialize (D (S i) (S j)). cbn in D. apply D. lia.
    + rewrite count_occ_cons_neq by assumption. assert (Z : ~ In k l).
      { intro Hi. apply In_nth_error in Hi. destruct Hi as (j & Hj). specialize (D 0%nat (S j) ltac:(lia) Hj). cbn in D. congruence. }
      apply (count_occ_not_In string_dec) in Z. rewrite Z. split; [|lia]. intro E.
      specialize (D 0%nat a ltac:(lia) E). cbn in D. congruence.
Qed.
Lemma nth_error_skipn {A} n : forall (l : list A) i, nth_error (skipn n l) i = nth_error l (n + i).
Proof. induction n as [|n IH]; intros [|x l] i; cbn; auto. now destruct i. Qed.
Lemma block_members names k j0 : grouped names -> nth_error names j0 = Some k -> (forall j, (j < j0)%nat -> nth_error names j <> Some k) ->
  forall a, nth_error names a = Some k <-> (j0 <= a < j0 + count_occ string_dec names k)%nat.
Proof.
  intros G E0 F a.
  assert (C : count_occ string_dec names k = count_occ string_dec (skipn j0 names) k).
  { rewrite <- (firstn_skipn j0 names) at 1. rewrite count_occ_app. replace (count_occ string_dec (firstn j0 names) k) with 0%nat; [reflexivity|].
    symmetry. apply count_occ_not_In. intro Hi. apply In_nth_error in Hi. destruct Hi as (j & Hj).
    assert (Lj : (j < j0)%nat). { assert (j < List.length (firstn j0 names))%nat by (apply nth_error_Some; congruence). rewrite firstn_length in H. lia. }
    apply (F j Lj). rewrite <- (firstn_skipn j0 names). rewrite nth_error_app1; [exact Hj|]. apply nth_error_Some. congruence. }
  rewrite C. assert (P := prefix_count k (skipn j0 names)).
  assert (D : forall i j, (i <= j)%nat -> nth_error (skipn j0 names) j = Some k -> nth_error (skipn j0 names) i = Some k).
  { intros i j Hij. rewrite !nth_error_skipn. intro Ej. exact (G j0 (j0 + i)%nat (j0 + j)%nat k ltac:(lia) E0 Ej). }
  specialize (P D (a - j0)%nat). rewrite nth_error_skipn in P. split.
  - intro E. assert (j0 <= a)%nat by (destruct (Nat.le_gt_cases j0 a) as [Q|Q]; [exact Q|now apply F in Q]).
    replace (j0 + (a - j0))%nat with a in P by lia. apply P in E. lia.
  - intros [A B]. replace (j0 + (a - j0))%nat with a in P by lia. apply P. lia.
Qed.
Lemma concat_pairs {A B C} (f : A -> B -> C) (la : list A) (lb : list B) :
  concat (map (fun a => map (f a) lb) la) = map (fun p => f (fst p) (snd p)) (list_prod la lb).
Proof. induction la as [|a la IH]; [reflexivity|]. cbn. rewrite map_app, map_map, IH. reflexivity. Qed.
Lemma map_res_all {A B} (f : A -> res B) (g : A -> B) l : (forall a, In a l -> f a = Ok (g a)) -> map_res f l = Ok (map g l).
Proof.
  induction l as [|a l IH]; intro E; [reflexivity|]. cbn [map_res map]. rewrite (E a (or_introl eq_refl)). cbn [bind].
  rewrite IH; [reflexivity|]. intros b Hb. apply E. now right.
Qed.
Lemma seq_from j0 n : map (fun i => (j0 + i)%nat) (seq 0 n) = seq j0 n.
Proof. induction n as [|n IH]; [reflexivity|]. rewrite !seq_S, map_app, IH. reflexivity. Qed.

(** ** Translations of one rotation *)
Section Pairs.
  Context {H : HashOrd} (s : @structure RNum) (ft : vec R).
  Let names := species s.
  Let xs : list (vec R) := frac_coords s.
  Hypothesis WF : List.length xs = List.length names.
  Hypothesis BIG : (0 < Z.of_nat (List.length names) <= 65535)%Z.
  Hypothesis GR : grouped names.
  Context (inds counts : list (string * Z)).
  Hypothesis HI : inds_ok names inds.
  Hypothesis HC : tally_ok names counts.

  Definition xat (i : nat) : vec R := nth i xs V0.
  Lemma xat_nth i : (i < List.length names)%nat -> nth_error xs i = Some (xat i).
  Proof. intro Hi. apply nth_error_nth'. lia. Qed.
  Definition tr (r : mat Z) (p : nat * nat) : vec R := @normalize_vec RNum (Vsub (xat (snd p)) (Mapp (MofZ r) (xat (fst p)))) ft.
  Definition blk (p : string * Z) : list nat := seq (Z.to_nat (snd p)) (count_occ string_dec names (fst p)).
  Definition pairs_of (l : list (string * Z)) : list (nat * nat) := concat (map (fun p => list_prod (blk p) (blk p)) l).

  Lemma ind_block k i : In (k, i) inds -> (0 <= i)%Z /\ (forall a, In a (blk (k, i)) <-> nth_error names a = Some k) /\
    (Z.to_nat i + count_occ string_dec names k <= List.length names)%nat.
  Proof.
    destruct HI as [_ HI']. intro Hk. apply HI' in Hk. destruct Hk as (j & -> & E & F). rewrite Nat2Z.id.
    pose proof (block_members names k j GR E F) as B.
    split; [lia|]. split.
    - intro a. unfold blk. cbn [fst snd]. rewrite Nat2Z.id, in_seq, B. reflexivity.
    - assert (P : (0 < count_occ string_dec names k)%nat) by (apply count_occ_In; eapply nth_error_In; exact E).
      assert (Q : nth_error names (j + count_occ string_dec names k - 1) = Some k) by (apply B; lia).
      assert (j + count_occ string_dec names k - 1 < List.length names)%nat by (apply nth_error_Some; congruence). lia.
  Qed.
  Lemma block_ok r j0 n : (j0 + n <= List.length names)%nat ->
    @block_translations RNum s ft (@mcast RNum r) (Z.of_nat j0) (Z.of_nat n) = Ok (map (tr r) (list_prod (seq j0 n) (seq j0 n))).
  Proof.
    intro HJ. unfold block_translations.
    replace (wrap_u16 (Z.of_nat j0 + Z.of_nat n) - Z.of_nat j0)%Z with (Z.of_nat n)
      by (unfold wrap_u16; rewrite Z.mod_small; lia).
    rewrite !Nat2Z.id, seq_from.
    rewrite (map_res_all _ (fun a => map (fun b => tr r (a, b)) (seq j0 n))).
    - cbn [bind]. f_equal. rewrite (concat_pairs (fun a b => tr r (a, b))). apply map_ext. intros [a b]. reflexivity.
    - intros a Ha. apply in_seq in Ha. replace (nth_error (frac_coords s) a) with (Some (xat a)) by (symmetry; apply xat_nth; lia). cbn [of_opt bind]. apply map_res_all.
      intros b Hb. apply in_seq in Hb. replace (nth_error (frac_coords s) b) with (Some (xat b)) by (symmetry; apply xat_nth; lia). reflexivity.
  Qed.
  Lemma op_translations_ok path r : @op_translations RNum H path s ft inds counts r = Ok (map (tr r) (pairs_of (hord path inds))).
  Proof.
    unfold op_translations. rewrite (map_res_all _ (fun p => map (tr r) (list_prod (blk p) (blk p)))).
    - cbn [bind]. f_equal. unfold pairs_of. rewrite concat_map, map_map. reflexivity.
    - intros [k i] Hk. apply (Permutation_in _ (hord_perm path _ inds)) in Hk. destruct (ind_block k i Hk) as (I0 & _ & IB).
      destruct HC as [NC HC']. cbn [fst snd].
      assert (Hin : In k names). { destruct HI as [_ HI']. apply HI' in Hk. destruct Hk as (j & _ & E & _). eapply nth_error_In; exact E. }
      replace (am_get String.eqb k counts) with (Some (Z.of_nat (count_occ string_dec names k)))
        by (symmetry; apply am_get_In; [exact NC|]; apply HC'; auto).
      cbn [of_opt bind]. rewrite <- (Z2Nat.id i) at 1 by exact I0. apply block_ok. exact IB.
  Qed.
  Lemma pairs_In path a b : In (a, b) (pairs_of (hord path inds)) <-> exists e, nth_error names a = Some e /\ nth_error names b = Some e.
  Proof.
    unfold pairs_of. rewrite in_concat. split.
    - intros (l & Hl & Hp). apply in_map_iff in Hl. destruct Hl as ([k i] & <- & Hk). apply (Permutation_in _ (hord_perm path _ inds)) in Hk.
      destruct (ind_block k i Hk) as (_ & B & _). apply in_prod_iff in Hp. exists k. split; apply B; tauto.
    - intros (e & A & B). destruct HI as [_ HI'].
      assert (Q : exists j, nth_error names j = Some e /\ forall j', (j' < j)%nat -> nth_error names j' <> Some e).
      { clear - A. revert a A. induction names as [|x l IH]; intros a A; [destruct a; discriminate|].
        destruct (string_dec x e) as [->|N]; [exists 0%nat; split; [reflexivity|lia]|].
        destruct a as [|a]; [cbn in A; congruence|]. destruct (IH a A) as (j & E & F). exists (S j). split; [exact E|].
        intros [|j'] Hj; [cbn; congruence|]. cbn. apply F. lia. }
      destruct Q as (j & E & F). assert (Hk : In (e, Z.of_nat j) inds) by (apply HI'; exists j; auto).
      exists (list_prod (blk (e, Z.of_nat j)) (blk (e, Z.of_nat j))). split.
      + apply in_map_iff. exists (e, Z.of_nat j). split; [reflexivity|]. apply (Permutation_in _ (Permutation_sym (hord_perm path _ inds))). exact Hk.
      + destruct (ind_block e _ Hk) as (_ & B' & _). apply in_prod; apply B'; assumption.
  Qed.
  Lemma pairs_NoDup path : NoDup (pairs_of (hord path inds)).
  Proof.
    assert (ND : NoDup (map fst (hord path inds))).
    { destruct HI as [N _]. eapply Permutation_NoDup; [|exact N]. apply Permutation_map, Permutation_sym, hord_perm. }
    assert (IN : forall p, In p (hord path inds) -> In p inds) by (intros p Hp; exact (Permutation_in _ (hord_perm path _ inds) Hp)).
    revert ND IN. generalize (hord path inds) as l. unfold pairs_of. induction l as [|[k i] l IH]; intros ND IN; [constructor|].
    cbn [map concat]. inversion ND as [|? ? N1 N2]; subst. apply NoDup_app_intro.
    - apply NoDup_list_prod; apply seq_NoDup.
    - apply IH; [exact N2|]. intros p Hp. apply IN. now right.
    - intros [a b] Hp Hq. apply in_prod_iff in Hp. destruct Hp as [Ha _]. apply (proj1 (proj2 (ind_block k i (IN _ (or_introl eq_refl))))) in Ha.
      apply in_concat in Hq. destruct Hq as (l' & Hl & Hq). apply in_map_iff in Hl. destruct Hl as ([k' i'] & <- & Hk').
      apply in_prod_iff in Hq. destruct Hq as [Hb _]. apply (proj1 (proj2 (ind_block k' i' (IN _ (or_intror Hk'))))) in Hb.
      rewrite Ha in Hb. injection Hb as ->. apply N1. cbn [fst]. apply in_map_iff. exists (k', i'). auto.
  Qed.
End Pairs.
