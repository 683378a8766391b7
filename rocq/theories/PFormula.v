(** Proofs about Structure::get_min_element and Structure::formulas (structure.rs 309-378). *)
From Coq Require Import ZArith String Ascii DecimalString List Bool Lia Permutation Sorting.Sorted Znumtheory.
From Verif Require Import Num Mat Structure Spec PSymmOp PPointGroup PSort.
Import ListNotations.
Open Scope Z_scope.

Notation count sp k := (Z.of_nat (count_occ string_dec sp k)).

Lemma count_snoc sp x k : count (sp ++ [x]) k = count sp k + (if string_dec x k then 1 else 0).
Proof. rewrite count_occ_app. cbn. destruct (string_dec x k); lia. Qed.
Lemma count_pos sp k : In k sp <-> 0 < count sp k.
Proof. rewrite (count_occ_In string_dec). lia. Qed.
Lemma count_prefix sp x k : count sp k <= count (sp ++ [x]) k.
Proof. rewrite count_snoc. destruct (string_dec x k); lia. Qed.

(** the tally of a prefix *)
Definition tally_ok (p : list string) (m : list (string * Z)) : Prop :=
  NoDup (map fst m) /\ forall k c, In (k, c) m <-> In k p /\ c = count p k.

Lemma tally_incr_keys w m k :
  map fst (tally_incr w m k) = if in_dec string_dec k (map fst m) then map fst m else map fst m ++ [k].
Proof.
  induction m as [|[k' c] m IH]; cbn [tally_incr]; [reflexivity|].
  destruct (String.eqb_spec k k') as [->|N].
  - cbn [map fst]. destruct (in_dec string_dec k' (k' :: map fst m)) as [|Hn]; [reflexivity|]. exfalso. apply Hn. now left.
  - cbn [map fst]. rewrite IH.
    destruct (in_dec string_dec k (map fst m)), (in_dec string_dec k (k' :: map fst m)) as [H|H]; auto.
    + exfalso. apply H. now right.
    + destruct H; congruence || tauto.
Qed.
Lemma tally_incr_In w m k : NoDup (map fst m) -> forall k' c',
  In (k', c') (tally_incr w m k) <->
  (k' <> k /\ In (k', c') m) \/
  (k' = k /\ ((exists c, In (k, c) m /\ c' = w (c + 1)) \/ (~ In k (map fst m) /\ c' = w 1))).
Proof.
  induction m as [|[k0 c0] m IH]; intros ND k' c'; cbn [tally_incr].
  - cbn. split.
    + intros [E|[]]. injection E as <- <-. right. auto.
    + intros [[_ []]|[-> [(c & [] & _)|[_ ->]]]]. auto.
  - cbn [map fst] in ND. inversion ND as [|? ? NI ND']; subst.
    destruct (String.eqb_spec k k0) as [->|N].
    + cbn [In]. split.
      * intros [E|H].
        -- injection E as <- <-. right. split; auto. left. exists c0. auto.
        -- left. split; [|now right]. intros ->. apply NI. change k0 with (fst (k0, c')). now apply in_map.
      * intros [[Hn [E|H]]|[-> [(c & [E|H] & ->)|[Hn _]]]].
        -- injection E as <- _. congruence.
        -- now right.
        -- injection E as <-. now left.
        -- exfalso. apply NI. change k0 with (fst (k0, c)). now apply in_map.
        -- exfalso. apply Hn. now left.
    + cbn [In]. rewrite (IH ND'). cbn [map fst In]. split.
      * intros [E|[[Hn H]|[-> [(c & H & ->)|[Hn ->]]]]].
        -- injection E as <- <-. left. split; [congruence|now left].
        -- left. auto.
        -- right. split; auto. left. eauto.
        -- right. split; auto. right. split; auto. intros [E|H]; [congruence|auto].
      * intros [[Hn [E|H]]|[-> [(c & [E|H] & ->)|[Hn ->]]]].
        -- now left.
        -- right. left. auto.
        -- injection E as E1 E2. congruence.
        -- right. right. split; auto. left. eauto.
        -- right. right. split; [reflexivity|]. right. split; [tauto|reflexivity].
Qed.
Lemma tally_ok_key p m k : tally_ok p m -> In k (map fst m) <-> In k p.
Proof.
  intros [_ H]. split.
  - intro K. apply in_map_iff in K. destruct K as ([k' c] & <- & K). now apply H in K.
  - intro K. change k with (fst (k, count p k)). apply in_map. apply H. auto.
Qed.
Lemma tally_snoc w p m x : w (count p x + 1) = count p x + 1 ->
  tally_ok p m -> tally_ok (p ++ [x]) (tally_incr w m x).
Proof.
  intros Hw T. pose proof T as [ND H]. split.
  - rewrite tally_incr_keys. destruct (in_dec string_dec x (map fst m)); auto. now apply NoDup_snoc.
  - intros k c. rewrite tally_incr_In by exact ND. rewrite in_app_iff, count_snoc. split.
    + intros [[Hn Hi]|[-> [(c0 & Hi & ->)|[Hn ->]]]].
      * apply H in Hi. destruct Hi as [Hi ->]. split; [auto|]. destruct (string_dec x k); [congruence|lia].
      * apply H in Hi. destruct Hi as [Hi ->]. split; [auto|]. destruct (string_dec x x); [|congruence]. exact Hw.
      * split; [right; now left|]. assert (C0 : count p x = 0).
        { assert (~ In x p) by (intro Q; apply Hn; now apply (tally_ok_key p m x T)). apply (count_occ_not_In string_dec) in H0. lia. }
        rewrite C0 in *. destruct (string_dec x x); [|congruence]. exact Hw.
    + intros [Hi ->]. destruct (string_dec x k) as [<-|N].
      * right. split; auto. destruct (in_dec string_dec x p) as [Hp|Hp].
        -- left. exists (count p x). split; [apply H; auto|]. symmetry. exact Hw.
        -- right. split; [now rewrite (tally_ok_key p m x T)|].
           assert (C0 : count p x = 0) by (apply (count_occ_not_In string_dec) in Hp; lia).
           rewrite C0 in *. symmetry. exact Hw.
      * left. split; [congruence|]. apply H. split; [|lia]. destruct Hi as [Hi|[E|[]]]; [auto|congruence].
Qed.
Lemma tally_fold w B sp : (forall z, 1 <= z <= B -> w z = z) -> (forall k, count sp k <= B) ->
  tally_ok sp (fold_left (tally_incr w) sp []).
Proof.
  intro Hw. induction sp as [|x sp IH] using rev_ind; intro HB.
  - split; [constructor|]. cbn. tauto.
  - rewrite fold_left_app. cbn [fold_left]. apply tally_snoc.
    + apply Hw. specialize (HB x). rewrite count_snoc in HB. destruct (string_dec x x); [lia|congruence].
    + apply IH. intro k. specialize (HB k). pose proof (count_prefix sp x k). lia.
Qed.
Lemma am_get_In (m : list (string * Z)) k c : NoDup (map fst m) -> (am_get String.eqb k m = Some c <-> In (k, c) m).
Proof.
  induction m as [|[k' c'] m IH]; intro ND; cbn; [split; [discriminate|tauto]|].
  cbn in ND. inversion ND as [|? ? NI ND']; subst. destruct (String.eqb_spec k k') as [->|N].
  - split; [intro E; injection E as <-; auto|]. intros [E|H]; [injection E as <-; auto|].
    exfalso. apply NI. change k' with (fst (k', c)). now apply in_map.
  - rewrite IH by auto. split; [auto|]. intros [E|H]; [injection E; congruence|auto].
Qed.
Lemma am_get_none_iff (m : list (string * Z)) k : am_get String.eqb k m = None <-> ~ In k (map fst m).
Proof.
  induction m as [|[k' c'] m IH]; cbn; [tauto|]. destruct (String.eqb_spec k k') as [->|N].
  - split; [discriminate|tauto].
  - rewrite IH. split; [intros H [E|H']; [congruence|tauto]|tauto].
Qed.

(** first indices *)
Definition first_at (p : list string) (k : string) (i : Z) : Prop :=
  exists j, i = Z.of_nat j /\ nth_error p j = Some k /\ forall j', (j' < j)%nat -> nth_error p j' <> Some k.
Definition inds_ok (p : list string) (m : list (string * Z)) : Prop :=
  NoDup (map fst m) /\ forall k i, In (k, i) m <-> first_at p k i.

Lemma first_at_snoc_old p x k i : In k p -> (first_at (p ++ [x]) k i <-> first_at p k i).
Proof.
  intro Hk. split; intros (j & -> & Hj & Hf).
  - exists j. split; auto. assert (L : (j < List.length p)%nat).
    { destruct (Nat.lt_ge_cases j (List.length p)) as [L|L]; auto. exfalso.
      apply In_nth_error in Hk. destruct Hk as [j' Hj'].
      assert (L' : (j' < List.length p)%nat) by (apply nth_error_Some; congruence).
      apply (Hf j'); [lia|]. rewrite nth_error_app1 by auto. exact Hj'. }
    split; [rewrite nth_error_app1 in Hj; auto|].
    intros j' H'. specialize (Hf j' H'). rewrite nth_error_app1 in Hf by lia. exact Hf.
  - exists j. split; auto. assert (L : (j < List.length p)%nat) by (apply nth_error_Some; congruence).
    split; [rewrite nth_error_app1; auto|]. intros j' H'. rewrite nth_error_app1 by lia. now apply Hf.
Qed.
Lemma first_at_snoc_new p x i : ~ In x p -> (first_at (p ++ [x]) x i <-> i = Z.of_nat (List.length p)).
Proof.
  intro Hx. split.
  - intros (j & -> & Hj & Hf). destruct (Nat.lt_ge_cases j (List.length p)) as [L|L].
    + rewrite nth_error_app1 in Hj by auto. apply nth_error_In in Hj. tauto.
    + destruct (Nat.eq_dec j (List.length p)) as [->|N]; auto. exfalso. apply (Hf (List.length p)); [lia|].
      rewrite nth_error_app2, Nat.sub_diag by lia. reflexivity.
  - intros ->. exists (List.length p). split; auto. rewrite nth_error_app2, Nat.sub_diag by lia. split; [reflexivity|].
    intros j' H'. rewrite nth_error_app1 by auto. intro E. apply nth_error_In in E. tauto.
Qed.
Lemma first_at_In p k i : first_at p k i -> In k p.
Proof. intros (j & _ & E & _). now apply nth_error_In in E. Qed.
Lemma first_at_exists p k : In k p -> exists i, first_at p k i.
Proof.
  induction p as [|x p IH] using rev_ind; [intros []|]. intro H. destruct (in_dec string_dec k p) as [Hp|Hp].
  - destruct (IH Hp) as [i Hi]. exists i. now apply first_at_snoc_old.
  - apply in_app_iff in H. destruct H as [|[->|[]]]; [tauto|]. eexists. now apply first_at_snoc_new.
Qed.
Lemma inds_ok_key p m k : inds_ok p m -> (In k (map fst m) <-> In k p).
Proof.
  intros [_ H]. split.
  - intro K. apply in_map_iff in K. destruct K as ([k' i] & <- & K). apply H in K. now apply first_at_In in K.
  - intro K. destruct (first_at_exists p k K) as [i Hi]. change k with (fst (k, i)). apply in_map. now apply H.
Qed.
Lemma combine_seq_snoc (p : list string) x :
  combine (seq 0 (List.length (p ++ [x]))) (p ++ [x]) = combine (seq 0 (List.length p)) p ++ [(List.length p, x)].
Proof.
  rewrite app_length. cbn [List.length]. rewrite Nat.add_1_r, seq_S. cbn [plus].
  assert (G : forall (a : list nat) (b : list string), List.length a = List.length b ->
     forall u v, combine (a ++ [u]) (b ++ [v]) = combine a b ++ [(u, v)]).
  { induction a; destruct b; cbn; intros; try congruence. f_equal. auto. }
  apply G. now rewrite seq_length.
Qed.
Lemma inds_fold sp : Z.of_nat (List.length sp) <= 65536 ->
  inds_ok sp (fold_left (fun m p => entry_or_insert m (snd p) (wrap_u16 (Z.of_nat (fst p)))) (combine (seq 0 (List.length sp)) sp) []).
Proof.
  induction sp as [|x sp IH] using rev_ind; intro HL.
  - split; [constructor|]. intros k i. cbn. split; [tauto|]. intros (j & _ & E & _). destruct j; discriminate.
  - rewrite combine_seq_snoc, fold_left_app. cbn [fold_left fst snd].
    rewrite app_length in HL. cbn in HL.
    specialize (IH ltac:(lia)). set (m := fold_left _ _ _) in *. unfold entry_or_insert.
    pose proof IH as [ND H].
    destruct (am_get String.eqb x m) as [c|] eqn:E.
    + apply am_get_In in E; auto. assert (Hx : In x sp) by (apply H in E; now apply first_at_In in E).
      split; auto. intros k i. rewrite H. destruct (string_dec k x) as [->|N].
      * now rewrite first_at_snoc_old.
      * destruct (in_dec string_dec k sp) as [Hk|Hk]; [now rewrite first_at_snoc_old|].
        split; intro F; apply first_at_In in F; [tauto|]. apply in_app_iff in F. destruct F as [|[->|[]]]; tauto.
    + apply am_get_none_iff in E. rewrite (inds_ok_key sp m x IH) in E. split.
      * rewrite map_app. cbn. apply NoDup_snoc; auto. now rewrite (inds_ok_key sp m x IH).
      * intros k i. rewrite in_app_iff, H. assert (W : wrap_u16 (Z.of_nat (List.length sp)) = Z.of_nat (List.length sp)).
        { unfold wrap_u16. apply Z.mod_small. lia. }
        rewrite W. destruct (string_dec k x) as [->|N].
        -- rewrite first_at_snoc_new by auto. split.
           ++ intros [F|[F|[]]]; [apply first_at_In in F; tauto|]. now injection F as ->.
           ++ intros ->. right. now left.
        -- split.
           ++ intros [F|[F|[]]]; [|congruence]. apply first_at_snoc_old; auto. now apply first_at_In in F.
           ++ intro F. left. pose proof (first_at_In _ _ _ F) as K. apply in_app_iff in K. destruct K as [K|[->|[]]]; [|congruence].
              now apply (first_at_snoc_old sp x k i K).
Qed.

(** the first minimum *)
Lemma min_by_count_spec (l : list (string * Z)) : l <> [] ->
  exists m l1 l2, min_by_count l = Some m /\ l = l1 ++ m :: l2 /\
    (forall x, In x l1 -> snd m < snd x) /\ (forall x, In x l2 -> snd m <= snd x).
Proof.
  induction l as [|a l IH]; [congruence|]. intros _. destruct l as [|b l].
  - exists a, [], []. cbn. repeat split; tauto.
  - destruct IH as (m & l1 & l2 & E & El & H1 & H2); [discriminate|].
    remember (b :: l) as t. cbn [min_by_count]. rewrite E. destruct (Z.leb_spec (snd a) (snd m)).
    + exists a, [], t. repeat split; [|intros x Hx]; [intros ? []|]. rewrite El in Hx. apply in_app_iff in Hx.
      destruct Hx as [Hx|[<-|Hx]]; [specialize (H1 _ Hx); lia|lia|specialize (H2 _ Hx); lia].
    + exists m, (a :: l1), l2. rewrite El. repeat split; auto. intros x [<-|Hx]; auto.
Qed.
Lemma SS_split {A} (R : A -> A -> Prop) l1 m l2 : StronglySorted R (l1 ++ m :: l2) -> forall x, In x l2 -> R m x.
Proof.
  induction l1 as [|a l1 IH]; cbn; intro H; inversion H; subst; auto.
  rewrite Forall_forall in *. auto.
Qed.

Lemma get_min_element_spec {H : HashOrd} path (sp : list string) :
  0 < Z.of_nat (List.length sp) <= 65535 ->
  exists e inds counts, get_min_element path sp = Ok (e, inds, counts) /\
    In e sp /\ (forall k, In k sp -> count sp e < count sp k \/ (count sp e = count sp k /\ String.leb e k = true)) /\
    inds_ok sp inds /\ tally_ok sp counts.
Proof.
  intro HL. unfold get_min_element.
  set (tc := fold_left (tally_incr wrap_u16) sp []).
  assert (T : tally_ok sp tc).
  { apply (tally_fold wrap_u16 65535).
    - intros z Hz. unfold wrap_u16. apply Z.mod_small. lia.
    - intro k. pose proof (count_occ_bound string_dec k sp). lia. }
  pose proof (inds_fold sp ltac:(lia)) as I. set (inds := fold_left _ (combine _ _) []) in *.
  set (sorted := sort_by _ (hord path tc)).
  assert (Pm : Permutation sorted tc).
  { unfold sorted. etransitivity; [apply (sort_perm fst)|apply hord_perm]. }
  assert (SS : StronglySorted (fun a b => String.leb (fst a) (fst b) = true) sorted) by exact (sort_sorted fst (hord path tc)).
  assert (NE : sorted <> []).
  { intro E. rewrite E in Pm. apply Permutation_nil in Pm. destruct sp as [|x sp]; [cbn in HL; lia|].
    assert (K : In x (map fst tc)) by (apply (tally_ok_key _ _ x T); now left). rewrite Pm in K. exact K. }
  destruct (min_by_count_spec sorted NE) as (m & l1 & l2 & E & El & H1 & H2).
  rewrite E. cbn [of_opt bind]. exists (fst m), inds, tc. split; [reflexivity|].
  assert (Mi : In m tc) by (eapply Permutation_in; [exact Pm|rewrite El; apply in_app_iff; right; now left]).
  destruct m as [e c]. apply T in Mi. destruct Mi as [Me Mc]. cbn [fst snd] in *. split; [exact Me|]. split; [|auto].
  intros k Hk. assert (Ki : In (k, count sp k) sorted) by (eapply Permutation_in; [apply Permutation_sym; exact Pm|]; apply T; auto).
  rewrite El in Ki. apply in_app_iff in Ki. destruct Ki as [Ki|[Ki|Ki]].
  - left. specialize (H1 _ Ki). cbn in H1. lia.
  - injection Ki as Ek Ec. right. subst k. split; [lia|]. apply leb_refl.
  - specialize (H2 _ Ki). cbn in H2. destruct (Z.lt_ge_cases c (count sp k)); [left; lia|right]. split; [lia|].
    rewrite El in SS. exact (SS_split _ _ _ _ SS _ Ki).
Qed.

(** ** formulas *)
Definition max_ok (p : list string) (mx : Z) : Prop :=
  (forall k, count p k <= mx) /\ ((p = [] /\ mx = 0) \/ exists k, In k p /\ mx = count p k).
Lemma tally_step_fold sp : (forall k, count sp k <= 127) ->
  tally_ok sp (fst (fold_left tally_step sp ([], 0))) /\ max_ok sp (snd (fold_left tally_step sp ([], 0))).
Proof.
  induction sp as [|x sp IH] using rev_ind; intro HB.
  - split; [split; [constructor|cbn; tauto]|]. split; [intro; cbn; lia|left; auto].
  - rewrite fold_left_app. cbn [fold_left].
    assert (HB' : forall k, count sp k <= 127) by (intro k; specialize (HB k); pose proof (count_prefix sp x k); lia).
    specialize (IH HB'). destruct (fold_left tally_step sp ([], 0)) as [m mx]. cbn [fst snd] in IH. destruct IH as [T [M1 M2]].
    unfold tally_step. cbn [fst snd].
    assert (Cx : count (sp ++ [x]) x = count sp x + 1) by (rewrite count_snoc; destruct (string_dec x x); [lia|congruence]).
    assert (T' : tally_ok (sp ++ [x]) (tally_incr wrap_i8 m x)).
    { apply tally_snoc; auto. apply wrap_i8_id. specialize (HB x). lia. }
    split; [exact T'|].
    assert (G : am_get String.eqb x (tally_incr wrap_i8 m x) = Some (count sp x + 1)).
    { apply am_get_In; [apply T'|]. apply T'. split; [apply in_app_iff; right; now left|]. lia. }
    rewrite G. split.
    + intro k. rewrite count_snoc. specialize (M1 k). destruct (string_dec x k) as [<-|N];
        destruct (Z.ltb_spec mx (count sp x + 1)); lia.
    + right. destruct (Z.ltb_spec mx (count sp x + 1)) as [L|L].
      * exists x. split; [apply in_app_iff; right; now left|]. lia.
      * destruct M2 as [[-> ->]|(k & Hk & ->)]; [cbn in L; lia|]. exists k. split; [apply in_app_iff; auto|].
        rewrite count_snoc. destruct (string_dec x k) as [<-|]; lia.
Qed.

Lemma last_div_spec (P : Z -> bool) n :
  let r := fold_left (fun g d => if P d then d else g) (map (fun i => Z.of_nat i + 2) (seq 0 n)) 1 in
  1 <= r <= Z.of_nat n + 1 /\ (r = 1 \/ P r = true) /\ forall d, r < d <= Z.of_nat n + 1 -> P d = false.
Proof.
  induction n as [|n IH]; cbv zeta in *; [cbn; split; [lia|split; [auto|intros; lia]]|].
  rewrite seq_S, map_app, fold_left_app. cbn [map fold_left plus].
  set (r := fold_left _ _ 1) in *. destruct IH as (B & C & D).
  destruct (P (Z.of_nat n + 2)) eqn:E.
  - split; [lia|]. split; [auto|]. intros d Hd. lia.
  - split; [lia|]. split; [exact C|]. intros d Hd. destruct (Z.eq_dec d (Z.of_nat n + 2)) as [->|]; auto.
    apply D. lia.
Qed.
Lemma zgcd_list_divides l z : In z l -> (zgcd_list l | z).
Proof.
  induction l as [|a l IH]; [intros []|]. intros [<-|H]; cbn [zgcd_list fold_right].
  - apply Z.gcd_divide_l.
  - eapply Z.divide_trans; [apply Z.gcd_divide_r|]. now apply IH.
Qed.
Lemma zgcd_list_greatest l d : (forall z, In z l -> (d | z)) -> (d | zgcd_list l).
Proof.
  induction l as [|a l IH]; intro H; cbn [zgcd_list fold_right]; [apply Z.divide_0_r|].
  apply Z.gcd_greatest; [apply H; now left|]. apply IH. intros z Hz. apply H. now right.
Qed.
Lemma zgcd_list_nonneg l : 0 <= zgcd_list l.
Proof. destruct l; cbn; [lia|apply Z.gcd_nonneg]. Qed.

Lemma gcf_spec sp (tally : list (string * Z)) mx : sp <> [] -> mx <= 126 ->
  (forall k c, In (k, c) tally <-> In k sp /\ c = count sp k) -> max_ok sp mx ->
  gcf_of tally mx = zgcd_list (map (fun k => count sp k) sp).
Proof.
  intros NE Hm T [M1 M2]. unfold gcf_of. set (P := fun d => forallb (fun p : string * Z => Z.rem (snd p) d =? 0) tally).
  assert (W : wrap_i8 (mx + 1) = mx + 1).
  { apply wrap_i8_id. destruct M2 as [[-> ->]|(k & Hk & ->)]; lia. }
  rewrite W. destruct M2 as [[-> _]|(k0 & Hk0 & Emx)]; [congruence|].
  assert (Pk : 0 < mx) by (rewrite Emx; now apply count_pos).
  pose proof (last_div_spec P (Z.to_nat (mx + 1 - 2))) as L. cbv zeta in L.
  set (r := fold_left _ _ 1) in *. destruct L as (B & C & D).
  rewrite Z2Nat.id in * by lia.
  assert (PD : forall d, 0 < d -> (P d = true <-> forall k, In k sp -> (d | count sp k))).
  { intros d Hd. unfold P. rewrite forallb_forall. split.
    - intros Q k Hk. specialize (Q (k, count sp k)). cbn in Q. apply Z.rem_divide; [lia|]. apply Z.eqb_eq, Q, T. auto.
    - intros Q [k c] Hk. apply T in Hk. destruct Hk as [Hk ->]. cbn. apply Z.eqb_eq, Z.rem_divide; [lia|auto]. }
  set (g := zgcd_list (map (fun k => count sp k) sp)).
  assert (G1 : forall k, In k sp -> (g | count sp k)).
  { intros k Hk. apply zgcd_list_divides. apply in_map_iff. eauto. }
  assert (G0 : 0 < g).
  { pose proof (zgcd_list_nonneg (map (fun k => count sp k) sp)). fold g in H.
    destruct (Z.eq_dec g 0) as [E|]; [|lia]. specialize (G1 k0 Hk0). rewrite E in G1. apply Z.divide_0_l in G1. lia. }
  assert (G2 : g <= mx) by (apply Z.divide_pos_le; [lia|]; rewrite Emx; auto).
  assert (Rd : forall k, In k sp -> (r | count sp k)).
  { destruct C as [-> |C]; [intros; apply Z.divide_1_l|]. apply PD; [lia|exact C]. }
  assert (Rg : (r | g)).
  { apply zgcd_list_greatest. intros z Hz. apply in_map_iff in Hz. destruct Hz as (k & <- & Hk). auto. }
  apply Z.le_antisymm; [now apply Z.divide_pos_le|].
  apply Z.nlt_ge. intro Lt. specialize (D g ltac:(lia)).
  assert (P g = true) by (apply PD; auto). congruence.
Qed.

Lemma fold_append (f : string * Z -> string) l : forall s,
  fold_left (fun s p => String.append s (f p)) l s = String.append s (String.concat "" (map f l)).
Proof.
  assert (AA : forall a b c, String.append (String.append a b) c = String.append a (String.append b c)).
  { intros a b c. induction a; cbn; congruence. }
  assert (AE : forall a, String.append a "" = a) by (induction a; cbn; congruence).
  induction l as [|p l IH]; intro s; cbn [fold_left map].
  - cbn [String.concat]. now rewrite AE.
  - rewrite IH, AA. f_equal. destruct l as [|q l]; cbn [map String.concat]; [apply AE|reflexivity].
Qed.

(** element followed by its number unless that is 1 *)
Definition piece (e : string) (n : Z) : string :=
  String.append e (if n =? 1 then "" else NilZero.string_of_int (Z.to_int n)).
Lemma append_nil_r a : String.append a "" = a. Proof. induction a; cbn; congruence. Qed.
Lemma formula_piece_eq e n : formula_piece e n = piece e n.
Proof. unfold formula_piece, piece, i8_to_string. destruct (n =? 1); auto. now rewrite append_nil_r. Qed.

Lemma formulas_spec {H : HashOrd} path (sp : list string) : (forall k, count sp k <= 126) ->
  exists els, NoDup els /\ StronglySorted (fun a b => String.leb a b = true) els /\ (forall k, In k els <-> In k sp) /\
    formulas path sp =
      (String.concat "" (map (fun k => piece k (count sp k)) els),
       String.concat "" (map (fun k => piece k (count sp k / zgcd_list (map (fun k => count sp k) sp))) els)).
Proof.
  intro HB. unfold formulas. destruct (tally_step_fold sp) as [T M]; [intro k; specialize (HB k); lia|].
  destruct (fold_left tally_step sp ([], 0)) as [tally mx]. cbn [fst snd] in T, M.
  set (sorted := sort_by _ (hord (1%nat :: path) tally)).
  assert (Pm : Permutation sorted tally).
  { unfold sorted. etransitivity; [apply (sort_perm fst)|apply hord_perm]. }
  assert (SS : StronglySorted (fun a b => String.leb (fst a) (fst b) = true) sorted) by exact (sort_sorted fst (hord (1%nat :: path) tally)).
  pose proof T as [ND TI].
  assert (V : forall p, In p sorted -> In (fst p) sp /\ snd p = count sp (fst p)).
  { intros [k c] Hp. eapply Permutation_in in Hp; [|exact Pm]. now apply TI in Hp. }
  exists (map fst sorted). split; [|split; [|split]].
  - eapply Permutation_NoDup; [|exact ND]. now apply Permutation_map, Permutation_sym.
  - apply SS_map. exact SS.
  - intro k. rewrite <- (tally_ok_key sp tally k T). split; apply Permutation_in; [|apply Permutation_sym]; now apply Permutation_map.
  - rewrite !fold_append. cbn [String.append]. rewrite !map_map. f_equal.
    + f_equal. apply map_ext_in. intros p Hp. destruct (V p Hp) as [_ ->]. apply formula_piece_eq.
    + f_equal. apply map_ext_in. intros p Hp. destruct (V p Hp) as [Hi ->]. rewrite formula_piece_eq. f_equal.
      rewrite (gcf_spec sp); auto.
      * apply Z.quot_div_nonneg; [lia|]. set (g := zgcd_list _).
        assert (G : (g | count sp (fst p))) by (apply zgcd_list_divides, in_map_iff; eauto).
        pose proof (zgcd_list_nonneg (map (fun k => count sp k) sp)) as Hg. fold g in Hg.
        destruct (Z.eq_dec g 0) as [E|]; [|lia]. rewrite E in G. apply Z.divide_0_l in G.
        apply count_pos in Hi. lia.
      * intro E. rewrite E in Hi. exact Hi.
      * destruct M as [_ [[_ ->]|(k & _ & ->)]]; [lia|apply HB].
      * intros k c. rewrite hord_In. apply TI.
Qed.

(** the tally of one B followed by n > 0 times A *)
Lemma tally_repeat_wrap n : (0 < n)%nat ->
  fold_left (tally_incr wrap_u16) (repeat "A"%string n) (tally_incr wrap_u16 [] "B"%string)
  = [("B"%string, 1); ("A"%string, wrap_u16 (Z.of_nat n))].
Proof.
  induction n as [|n IH]; [lia|]. intros _. destruct n as [|n]; [reflexivity|].
  specialize (IH ltac:(lia)). change (repeat "A"%string (S (S n))) with ("A"%string :: repeat "A"%string (S n)).
  rewrite repeat_cons, fold_left_app, IH. cbn [fold_left tally_incr String.eqb].
  change (String.eqb "A" "B") with false. change (String.eqb "A" "A") with true. cbv iota.
  assert (E : wrap_u16 (wrap_u16 (Z.of_nat (S n)) + 1) = wrap_u16 (Z.of_nat (S (S n)))).
  { unfold wrap_u16. rewrite Zplus_mod_idemp_l. f_equal. lia. }
  now rewrite E.
Qed.
