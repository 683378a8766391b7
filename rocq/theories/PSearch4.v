(** The search as a whole: what is accepted is a symmetry, and every exact symmetry is accepted (analyzer.rs 164-283). *)
From Coq Require Import ZArith Reals String List Bool Lia Lra Permutation.
From Flocq Require Import Core.Raux.
From Verif Require Import Num Mat DataCore DataPG SymmOp PointGroup Structure Analyzer RInst Spec Spec3 RFacts PSymmOp PFormula PPointGroup2 PSpaceGroup2 PAnalyzer2 PSearch PSearch2 PSearch3.
Import ListNotations.
Open Scope R_scope.

Lemma nth_error_combine {A B} : forall (l : list A) (m : list B) i a b,
  nth_error (combine l m) i = Some (a, b) <-> nth_error l i = Some a /\ nth_error m i = Some b.
Proof.
  induction l as [|x l IH]; intros [|y m] [|i] a b; cbn; try (split; [discriminate|intros [? ?]; discriminate]).
  - split; [intro E; injection E as -> ->; auto|intros [E F]; injection E as ->; injection F as ->; reflexivity].
  - apply IH.
Qed.
Section Accept.
  Context {H : HashOrd} (s : @structure RNum) (dtol : R).
  Let L : mat R := lattice s.
  Let names := species s.
  Let xs : list (vec R) := frac_coords s.
  Let ft : vec R := @frac_tols_of RNum L dtol.
  Let sites : list (vec R * string) := combine xs names.
  Hypothesis WF : List.length xs = List.length names.
  Hypothesis BIG : (0 < Z.of_nat (List.length names) <= 65535)%Z.
  Hypothesis GR : grouped names.
  Hypothesis fine : forall k, (k < 3)%nat -> 2 / 1000000000 * Vnorm (Ccol L k) <= dtol.
  Hypothesis SEP : sites_apart (4 * dtol) L sites.
  Context (inds counts : list (string * Z)).
  Hypothesis HI : inds_ok names inds.
  Hypothesis HC : tally_ok names counts.
  Notation x := (xat s).
  Notation T := (tr s ft).

  Lemma site_at a e : nth_error names a = Some e <-> nth_error sites a = Some (x a, e).
  Proof.
    unfold sites. rewrite nth_error_combine. split; [|tauto]. intro E. split; [|exact E].
    apply xat_nth; [exact WF|]. apply nth_error_Some. change (nth_error names a <> None). congruence.
  Qed.
  Lemma same_site_index a b e : nth_error names a = Some e -> nth_error names b = Some e -> closer L (4 * dtol) (x a) (x b) -> a = b.
  Proof.
    intros A B (n & Q). destruct (Nat.eq_dec a b) as [E|N]; [exact E|exfalso]. apply site_at in A. apply site_at in B.
    pose proof (SEP a b _ _ e n N A B). lra.
  Qed.
  Lemma tr_congr r a b : Vcongr (T r (a, b)) (Vsub (x b) (Mapp (MofZ r) (x a))).
  Proof. apply normalize_vec_congr. Qed.

  (** *** what is accepted is a symmetry *)
  Lemma accepted_sound path r pairs op : NoDup pairs ->
    (forall a b, In (a, b) pairs -> exists e, nth_error names a = Some e /\ nth_error names b = Some e) ->
    In op (@accepted_ops RNum H path dtol s ft (r, map (T r) pairs)) ->
    rotation op = r /\ operation_within (2 * dtol) L sites r (translation op).
  Proof.
    intros ND PI. unfold accepted_ops. intro Q. apply in_map_iff in Q. destruct Q as ([k c] & <- & Q). apply filter_In in Q. destruct Q as [Q C].
    cbn [fst snd] in *. apply Z.eqb_eq in C. split; [reflexivity|]. cbn [translation].
    apply (Permutation_in _ (hord_perm _ _ _)) in Q.
    assert (F : Forall small_vec (map (T r) pairs)) by (apply Forall_forall; intros t Ht; apply in_map_iff in Ht; destruct Ht as (p & <- & _); apply normalize_vec_small).
    pose proof (fold_backed L ft dtol fine (0%nat :: path) (map (T r) pairs) F [] [] ltac:(intros ? ? []) k c Q) as (I & NI & CI & BI).
    cbn [app] in BI. rewrite C in CI. unfold num_sites in CI. change (species s) with names in CI. apply Nat2Z.inj in CI.
    assert (PB : forall i, In i I -> exists a b e, nth_error pairs i = Some (a, b) /\ nth_error names a = Some e /\ nth_error names b = Some e /\
                  closer L (2 * dtol) (Vsub (x b) (Mapp (MofZ r) (x a))) (fkey k)).
    { intros i Hi. destruct (BI i Hi) as (t & E & Cl). rewrite nth_error_map in E. destruct (nth_error pairs i) as [[a b]|] eqn:Ep; [|discriminate].
      cbn in E. injection E as <-. destruct (PI a b (nth_error_In _ _ Ep)) as (e & A & B). exists a, b, e. split; [reflexivity|]. split; [exact A|]. split; [exact B|].
      replace (2 * dtol) with (0 + 2 * dtol) by ring. eapply closer_trans; [|exact Cl]. apply closer_congr. apply Vcongr_sym, tr_congr. }
    set (A := map (fun i => fst (nth i pairs (0, 0)%nat)) I).
    assert (NA : NoDup A).
    { apply NoDup_map_on; [exact NI|]. intros i j Hi Hj E. destruct (PB i Hi) as (a & b & e & Ei & Ea & Eb & Ci).
      destruct (PB j Hj) as (a' & b' & e' & Ej & Ea' & Eb' & Cj).
      rewrite (nth_error_nth _ _ _ Ei), (nth_error_nth _ _ _ Ej) in E. cbn [fst] in E. subst a'. rewrite Ea in Ea'. injection Ea' as <-.
      assert (b = b').
      { apply (same_site_index b b' e Eb Eb'). replace (4 * dtol) with (2 * dtol + 2 * dtol) by ring.
        apply (closer_eq L _ (Vsub (x b) (Mapp (MofZ r) (x a))) (Vsub (x b') (Mapp (MofZ r) (x a)))).
        - destruct (x b) as [b1 b2 b3], (x b') as [c1 c2 c3], (Mapp (MofZ r) (x a)) as [d1 d2 d3]. unfold Vsub. cbn. f_equal; ring.
        - eapply closer_trans; [exact Ci|apply closer_sym; exact Cj]. }
      subst b'. rewrite NoDup_nth_error in ND. apply ND; [apply nth_error_Some; congruence|congruence]. }
    assert (CA : incl (seq 0 (List.length names)) A).
    { apply NoDup_length_incl; [exact NA|unfold A; rewrite map_length, seq_length; lia|].
      intros a Ha. apply in_map_iff in Ha. destruct Ha as (i & <- & Hi). destruct (PB i Hi) as (a & b & e & Ei & Ea & _).
      rewrite (nth_error_nth _ _ _ Ei). cbn [fst]. apply in_seq. assert (a < List.length names)%nat by (apply nth_error_Some; congruence). lia. }
    intros y e Hy. apply In_nth_error in Hy. destruct Hy as (a & Ha). assert (HA : nth_error names a = Some e) by (unfold sites in Ha; apply nth_error_combine in Ha; tauto).
    pose proof (proj1 (site_at a e) HA) as Ha'. rewrite Ha in Ha'. injection Ha' as ->.
    assert (Hin : In a A) by (apply CA, in_seq; assert (a < List.length names)%nat by (apply nth_error_Some; congruence); lia).
    apply in_map_iff in Hin. destruct Hin as (i & Ei & Hi). destruct (PB i Hi) as (a' & b & e' & Ep & Ea & Eb & Cl).
    rewrite (nth_error_nth _ _ _ Ep) in Ei. cbn [fst] in Ei. subst a'. rewrite HA in Ea. injection Ea as <-.
    apply closer_sym in Cl. destruct Cl as (n & Cl). exists (x b), n. split; [apply (nth_error_In _ b), site_at, Eb|].
    eapply Rle_trans; [|exact Cl]. right. do 2 f_equal. f_equal. unfold act.
    destruct (x b) as [b1 b2 b3], (Mapp (MofZ r) (x a)) as [d1 d2 d3], (fkey k) as [k1 k2 k3]. unfold Vadd, Vsub. cbn. f_equal; ring.
  Qed.

  (** *** every exact symmetry is accepted *)
  Hypothesis tols : forall k, (k < 3)%nat -> 2 * dtol <= Vnorm (Ccol L k).
  Hypothesis positive : forall k, (k < 3)%nat -> 0 < Vnorm (Ccol L k).
  Lemma ft_range : forall k, (k < 3)%nat -> 1 / 1000000000 < vnth ft k <= / 2.
  Proof.
    assert (G : forall n, 0 < n -> 2 / 1000000000 * n <= dtol -> 2 * dtol <= n -> 1 / 1000000000 < dtol / n <= / 2).
    { intros n Hn A B. split.
      - apply (Rmult_lt_reg_r n); [exact Hn|]. replace (dtol / n * n) with dtol by (field; lra). lra.
      - apply (Rmult_le_reg_r n); [exact Hn|]. replace (dtol / n * n) with dtol by (field; lra). lra. }
    intros k Hk. destruct k as [|[|[|k]]]; [| | |lia].
    - change (1 / 1000000000 < dtol / Vnorm (Ccol L 0) <= / 2). apply G; [apply positive|apply fine|apply tols]; lia.
    - change (1 / 1000000000 < dtol / Vnorm (Ccol L 1) <= / 2). apply G; [apply positive|apply fine|apply tols]; lia.
    - change (1 / 1000000000 < dtol / Vnorm (Ccol L 2) <= / 2). apply G; [apply positive|apply fine|apply tols]; lia.
  Qed.
  Lemma accepted_complete path r tau pairs : NoDup pairs ->
    (forall a b, In (a, b) pairs <-> exists e, nth_error names a = Some e /\ nth_error names b = Some e) ->
    exact_operation sites r tau ->
    exists op, In op (@accepted_ops RNum H path dtol s ft (r, map (T r) pairs)) /\ rotation op = r /\
      exists n, Rabs (vx (translation op) - vx tau - IZR (vx n)) <= 1 / 1000000000 /\
                Rabs (vy (translation op) - vy tau - IZR (vy n)) <= 1 / 1000000000 /\
                Rabs (vz (translation op) - vz tau - IZR (vz n)) <= 1 / 1000000000.
  Proof.
    intros ND PI EX.
    assert (IMG : forall a e, nth_error names a = Some e -> exists b, nth_error names b = Some e /\ Vcongr (Vsub (x b) (Mapp (MofZ r) (x a))) tau).
    { intros a e Ha. destruct (EX (x a) e) as (y & Hy & (n & Q)); [apply (nth_error_In _ a), site_at, Ha|].
      apply In_nth_error in Hy. destruct Hy as (b & Hb). assert (HB : nth_error names b = Some e) by (unfold sites in Hb; apply nth_error_combine in Hb; tauto).
      exists b. split; [exact HB|]. pose proof (proj1 (site_at b e) HB) as Hb'. rewrite Hb in Hb'. injection Hb' as ->.
      exists (zneg n). rewrite VofZ_neg. unfold act in Q. destruct (x b) as [b1 b2 b3], (Mapp (MofZ r) (x a)) as [d1 d2 d3], tau as [t1 t2 t3], n as [n1 n2 n3].
      unfold Vadd, Vsub, Vscal, VofZ in *. cbn in *. injection Q as Q1 Q2 Q3. f_equal; lra. }
    assert (UNI : forall a b b0 e, nth_error names a = Some e -> nth_error names b = Some e -> nth_error names b0 = Some e ->
              Vcongr (Vsub (x b0) (Mapp (MofZ r) (x a))) tau -> closer L (4 * dtol) (T r (a, b)) tau -> b = b0).
    { intros a b b0 e Ha Hb H0 E0 Cl. apply (same_site_index b b0 e Hb H0).
      apply (closer_eq L _ (Vsub (x b) (Mapp (MofZ r) (x a))) (Vsub (x b0) (Mapp (MofZ r) (x a)))).
      - destruct (x b) as [b1 b2 b3], (x b0) as [c1 c2 c3], (Mapp (MofZ r) (x a)) as [d1 d2 d3]. unfold Vsub. cbn. f_equal; ring.
      - replace (4 * dtol) with (0 + 4 * dtol + 0) by ring. eapply closer_trans; [eapply closer_trans; [|exact Cl]|].
        + apply closer_congr, Vcongr_sym, tr_congr.
        + apply closer_congr, Vcongr_sym, E0. }
    assert (GOOD : Forall (good L dtol tau) (map (T r) pairs)).
    { apply Forall_forall. intros t Ht. apply in_map_iff in Ht. destruct Ht as ([a b] & <- & Hp). split; [apply normalize_vec_small|].
      intro Cl. apply PI in Hp. destruct Hp as (e & Ha & Hb). destruct (IMG a e Ha) as (b0 & H0 & E0).
      rewrite (UNI a b b0 e Ha Hb H0 E0 Cl). eapply Vcongr_trans; [apply tr_congr|exact E0]. }
    pose proof (fold_inv L ft dtol fine ft_range tau (0%nat :: path) (map (T r) pairs) GOOD [] [] ltac:(constructor)
      ltac:(constructor; [intros ? ? []|left; intros ? []])) as [_ INV].
    cbn [app List.length] in INV.
    assert (NN : List.length (filter (fun t => congrb t tau) (map (T r) pairs)) = List.length names).
    { assert (E : forall l : list (nat * nat), List.length (filter (fun t => congrb t tau) (map (T r) l)) = List.length (map fst (filter (fun p => congrb (T r p) tau) l))).
      { intro l. rewrite map_length. induction l as [|p l IH]; [reflexivity|]. cbn [map filter]. destruct (congrb (T r p) tau); cbn [List.length]; now rewrite IH. }
      rewrite E, <- (seq_length (List.length names) 0). apply Permutation_length, NoDup_Permutation.
      - apply NoDup_map_on; [now apply NoDup_filter|]. intros [a b] [a' b'] Hp Hq Ea. cbn [fst] in Ea. subst a'. apply filter_In in Hp. apply filter_In in Hq.
        destruct Hp as [Hp Cp], Hq as [Hq Cq]. apply PI in Hp. apply PI in Hq. destruct Hp as (e & Ha & Hb), Hq as (e' & Ha' & Hb').
        rewrite Ha in Ha'. injection Ha' as <-. apply congrb_iff in Cp. apply congrb_iff in Cq. destruct (IMG a e Ha) as (b0 & H0 & E0).
        pose proof (dtol_nonneg L dtol fine) as DN.
        rewrite (UNI a b b0 e Ha Hb H0 E0), (UNI a b' b0 e Ha Hb' H0 E0); [reflexivity| |]; (apply (closer_le _ 0); [lra|now apply closer_congr]).
      - apply seq_NoDup.
      - intro a. rewrite in_seq, in_map_iff. split.
        + intros ([a' b] & Ea & Hp). cbn [fst] in Ea. subst a'. apply filter_In in Hp. destruct Hp as [Hp _]. apply PI in Hp. destruct Hp as (e & Ha & _).
          assert (a < List.length names)%nat by (apply nth_error_Some; congruence). lia.
        + intros [_ Ha]. cbn in Ha. destruct (nth_error names a) as [e|] eqn:He; [|apply nth_error_None in He; lia].
          destruct (IMG a e He) as (b & Hb & Eb). exists (a, b). split; [reflexivity|]. apply filter_In. split; [apply PI; eauto|].
          apply congrb_iff. eapply Vcongr_trans; [apply tr_congr|exact Eb]. }
    rewrite NN in INV. destruct INV as [INV|(k0 & G0 & (t0 & Ht0 & E0 & ->) & _)].
    - exfalso. destruct (nth_error names 0) as [e|] eqn:He; [|apply nth_error_None in He; lia].
      destruct (IMG 0%nat e He) as (b & Hb & Eb). apply (INV (T r (0%nat, b))); [apply in_map, PI; eauto|]. eapply Vcongr_trans; [apply tr_congr|exact Eb].
    - exists (SymmOp (N := RNum) r (fkey (ikey t0))). split; [|split; [reflexivity|]].
      + unfold accepted_ops. apply in_map_iff. exists (ikey t0, Z.of_nat (List.length names)). split; [reflexivity|]. apply filter_In. split; [|apply Z.eqb_refl].
        apply (Permutation_in _ (Permutation_sym (hord_perm _ _ _))). apply get_In. exact G0.
      + cbn [translation]. apply in_map_iff in Ht0. destruct Ht0 as ([a b] & <- & Hp).
        destruct (key_err_small (T r (a, b)) (normalize_vec_small _ _)) as (X & Y & Z). destruct E0 as (n & E0). exists n.
        unfold key_err in X, Y, Z. set (K := fkey (ikey (T r (a, b)))) in *. clearbody K. rewrite E0 in X, Y, Z. revert X Y Z. clear.
        destruct K as [k1 k2 k3], tau as [u1 u2 u3], n as [n1 n2 n3]. unfold Vsub, Vadd, VofZ. cbn [vx vy vz].
        intros X Y Z. rewrite Rabs_minus_sym in X, Y, Z. split; [|split].
        * replace (k1 - u1 - IZR n1) with (k1 - (u1 + IZR n1)) by ring. exact X.
        * replace (k2 - u2 - IZR n2) with (k2 - (u2 + IZR n2)) by ring. exact Y.
        * replace (k3 - u3 - IZR n3) with (k3 - (u3 + IZR n3)) by ring. exact Z.
  Qed.
End Accept.

(** ** The HashMap of analyzer.rs 200-223 *)
Lemma insert_all_fold (l : list (mat Z * list (vec R))) : forall m0 r tvs,
  am_get zmat_eqb r (fold_left (fun m p => am_insert zmat_eqb (fst p) (snd p) m) l m0) = Some tvs ->
  In (r, tvs) l \/ am_get zmat_eqb r m0 = Some tvs.
Proof.
  induction l as [|[r1 t1] l IH]; intros m0 r tvs E; [now right|]. cbn [fold_left fst snd] in E. destruct (IH _ _ _ E) as [Q|Q]; [left; now right|].
  destruct (zmat_eqb r r1) eqn:Er.
  - apply zmat_eqb_spec in Er. subst r1. rewrite am_get_insert_same in Q. injection Q as ->. left. now left.
  - assert (N : r <> r1) by (intros ->; rewrite (proj2 (zmat_eqb_spec r1 r1) eq_refl) in Er; discriminate). rewrite am_get_insert_other in Q by exact N. now right.
Qed.
Lemma mat_insert_In {V} k (v : V) m k' c : In (k', c) (am_insert zmat_eqb k v m) -> In (k', c) m \/ (k' = k /\ c = v).
Proof.
  induction m as [|[k1 c1] m IH]; cbn [am_insert].
  - intros [Q|[]]. injection Q as <- <-. now right.
  - destruct (zmat_eqb k k1) eqn:E.
    + apply zmat_eqb_spec in E. subst k1. intros [Q|Q]; [|left; now right]. injection Q as <- <-. now right.
    + intros [Q|Q]; [left; now left|]. destruct (IH Q) as [Q'|Q']; [left; now right|now right].
Qed.
Lemma insert_all_In (l : list (mat Z * list (vec R))) : forall m0 r tvs,
  In (r, tvs) (fold_left (fun m p => am_insert zmat_eqb (fst p) (snd p) m) l m0) -> In (r, tvs) l \/ In (r, tvs) m0.
Proof.
  induction l as [|[r1 t1] l IH]; intros m0 r tvs E; [now right|]. cbn [fold_left fst snd] in E. destruct (IH _ _ _ E) as [Q|Q]; [left; now right|].
  apply mat_insert_In in Q. destruct Q as [Q|[-> ->]]; [now right|left; now left].
Qed.
Lemma insert_all_get (l : list (mat Z * list (vec R))) : forall m0 r, (In r (map fst l) \/ am_get zmat_eqb r m0 <> None) ->
  exists tvs, am_get zmat_eqb r (fold_left (fun m p => am_insert zmat_eqb (fst p) (snd p) m) l m0) = Some tvs.
Proof.
  induction l as [|[r1 t1] l IH]; intros m0 r E.
  - destruct E as [[]|E]. cbn. destruct (am_get zmat_eqb r m0) as [t|]; [now exists t|congruence].
  - cbn [fold_left fst snd]. apply IH. cbn [map fst] in E. destruct (zmat_eqb r r1) eqn:Er.
    + apply zmat_eqb_spec in Er. subst r1. right. rewrite am_get_insert_same. discriminate.
    + apply zmat_eqb_false in Er. destruct E as [[E|E]|E]; [congruence|now left|right]. now rewrite am_get_insert_other.
Qed.
Lemma map_res_combine_seq {A B} (f : nat * A -> res B) l :
  (forall io, In io (combine (seq 0 (List.length l)) l) -> exists b, f io = Ok b) ->
  exists bs, map_res f (combine (seq 0 (List.length l)) l) = Ok bs.
Proof.
  generalize (combine (seq 0 (List.length l)) l) as q. induction q as [|a q IH]; intro E; [now exists []|].
  destruct (E a (or_introl eq_refl)) as (b & Eb). destruct IH as (bs & Ebs); [intros io Hio; apply E; now right|].
  exists (b :: bs). cbn [map_res]. rewrite Eb. cbn [bind]. rewrite Ebs. reflexivity.
Qed.
Lemma combine_seq_In {A} (l : list A) a : In a l -> forall n, exists i, In (i, a) (combine (seq n (List.length l)) l).
Proof.
  induction l as [|x l IH]; intros [] n; cbn [List.length seq combine].
  - subst x. exists n. now left.
  - destruct (IH H (S n)) as (i & Q). exists i. now right.
Qed.

Section Search.
  Context {H : HashOrd} (s : @structure RNum) (dtol : R) (fuel : nat) (path : list nat) (b : bravais).
  Hypothesis HF : (48 <= fuel)%nat.
  Hypothesis WF : List.length (frac_coords s) = List.length (species s).
  Hypothesis BIG : (0 < Z.of_nat (List.length (species s)) <= 65535)%Z.
  Hypothesis GR : grouped (species s).
  Hypothesis fine : forall k, (k < 3)%nat -> 2 / 1000000000 * Vnorm (Ccol (lattice s) k) <= dtol.
  Let sites : list (vec R * string) := combine (frac_coords s) (species s).
  Hypothesis SEP : sites_apart (4 * dtol) (lattice s) sites.
  Notation ft := (@frac_tols_of RNum (lattice s) dtol).

  Lemma search_unfold : exists n c P Pi pg pg' inds counts entries,
    am_get bravais_eqb b BRAVAIS_TO_HOLOHEDRY_NUM = Some n /\ bravais_centering b = Ok c /\ @prim_trans_of RNum c = Some P /\ inverse_of P Pi /\
    pg_from_number fuel (0%nat :: path) n = Ok pg /\ matrix_group (pg_operations pg') /\
    Forall2 (conj_rel P Pi) (pg_operations pg) (pg_operations pg') /\
    inds_ok (species s) inds /\ tally_ok (species s) counts /\
    (forall r tvs, In (r, tvs) entries -> In r (pg_operations pg') /\ exists p, tvs = map (tr s ft r) (pairs_of s (hord p inds))) /\
    (forall r, In r (pg_operations pg') -> In r (map fst entries)) /\
    @get_primitive_space_group_ops RNum H fuel path dtol s b =
      Ok (let l := hord (3%nat :: path) (@insert_all RNum entries) in
          concat (map (fun ie => @accepted_ops RNum H (fst ie :: 4%nat :: path) dtol s ft (snd ie)) (combine (seq 0 (List.length l)) l))).
  Proof.
    destruct (holo_spec fuel (0%nat :: path) b HF) as (n & c & P & Pi & pg & pg' & En & Ec & EP & HI & Epg & _ & Epg' & F2 & MG).
    destruct (@get_min_element_spec H (1%nat :: path) (species s) BIG) as (e & inds & counts & Eg & _ & _ & Hi & Hc).
    set (f := fun io : nat * mat Z => do tvs <- @op_translations RNum H (fst io :: 2%nat :: path) s ft inds counts (snd io); Ok (snd io, tvs)).
    assert (Ef : forall io, f io = Ok (snd io, map (tr s ft (snd io)) (pairs_of s (hord (fst io :: 2%nat :: path) inds)))).
    { intros io. unfold f. rewrite op_translations_ok; auto. }
    set (ops := pg_operations pg') in *.
    exists n, c, P, Pi, pg, pg', inds, counts,
      (map (fun io => (snd io, map (tr s ft (snd io)) (pairs_of s (hord (fst io :: 2%nat :: path) inds)))) (combine (seq 0 (List.length ops)) ops)).
    repeat (split; [assumption|]). split; [|split].
    - intros r tvs Q. apply in_map_iff in Q. destruct Q as ([i r'] & E & Q). cbn [fst snd] in E. injection E as <- <-.
      split; [eapply in_combine_r; exact Q|eauto].
    - intros r Hr. destruct (combine_seq_In ops r Hr 0%nat) as (i & Q). rewrite map_map. apply in_map_iff. exists (i, r). auto.
    - unfold get_primitive_space_group_ops. rewrite En. cbn [of_opt bind]. rewrite Epg. cbn [bind]. rewrite Ec. cbn [bind]. rewrite EP. cbn [of_opt bind].
      rewrite Epg'. cbn [bind]. rewrite Eg. cbn [bind]. fold ops. change (fun io : nat * mat Z => do tvs <- @op_translations RNum H (fst io :: 2%nat :: path) s ft inds counts (snd io); Ok (snd io, tvs)) with f.
      rewrite (map_res_all f _ _ (fun a _ => Ef a)). reflexivity.
  Qed.
  Lemma search_sound : exists n c P Pi pg ops,
    am_get bravais_eqb b BRAVAIS_TO_HOLOHEDRY_NUM = Some n /\ bravais_centering b = Ok c /\ @prim_trans_of RNum c = Some P /\ inverse_of P Pi /\
    pg_from_number fuel (0%nat :: path) n = Ok pg /\
    @get_primitive_space_group_ops RNum H fuel path dtol s b = Ok ops /\
    forall op, In op ops ->
      (exists h, In h (pg_operations pg) /\ Mmul (Mmul Pi (MofZ h)) P = MofZ (rotation op)) /\
      operation_within (2 * dtol) (lattice s) sites (rotation op) (translation op).
  Proof.
    destruct search_unfold as (n & c & P & Pi & pg & pg' & inds & counts & entries & En & Ec & EP & HI & Epg & MG & F2 & Hi & Hc & EN & _ & E).
    exists n, c, P, Pi, pg, (let l := hord (3%nat :: path) (@insert_all RNum entries) in
          concat (map (fun ie => @accepted_ops RNum H (fst ie :: 4%nat :: path) dtol s ft (snd ie)) (combine (seq 0 (List.length l)) l))).
    repeat (split; [assumption|]). cbv zeta. intros op Hop. apply in_concat in Hop. destruct Hop as (l & Hl & Hop). apply in_map_iff in Hl.
    destruct Hl as ([i [r tvs]] & <- & Hie). cbn [fst snd] in Hop. apply in_combine_r in Hie. apply (Permutation_in _ (hord_perm _ _ _)) in Hie.
    apply insert_all_In in Hie. destruct Hie as [Hie|[]]. destruct (EN r tvs Hie) as (Hr & p & ->).
    destruct (accepted_sound s dtol WF BIG fine SEP (i :: 4%nat :: path) r (pairs_of s (hord p inds)) op) as [R1 R2].
    - apply pairs_NoDup; assumption.
    - intros a a' Q. apply pairs_In in Q; assumption.
    - exact Hop.
    - rewrite R1. split; [|exact R2]. clear - F2 Hr. induction F2 as [|h r' hs rs C F IH]; [destruct Hr|]. destruct Hr as [->|Hr].
      + exists h. split; [now left|exact C].
      + destruct (IH Hr) as (h' & A & B). exists h'. split; [now right|exact B].
  Qed.
  Hypothesis tols : forall k, (k < 3)%nat -> 2 * dtol <= Vnorm (Ccol (lattice s) k).
  Hypothesis positive : forall k, (k < 3)%nat -> 0 < Vnorm (Ccol (lattice s) k).
  Lemma search_complete : exists n c P Pi pg ops,
    am_get bravais_eqb b BRAVAIS_TO_HOLOHEDRY_NUM = Some n /\ bravais_centering b = Ok c /\ @prim_trans_of RNum c = Some P /\ inverse_of P Pi /\
    pg_from_number fuel (0%nat :: path) n = Ok pg /\
    @get_primitive_space_group_ops RNum H fuel path dtol s b = Ok ops /\
    forall h r t, In h (pg_operations pg) -> Mmul (Mmul Pi (MofZ h)) P = MofZ r -> exact_operation sites r t ->
      exists op k, In op ops /\ rotation op = r /\
        Rabs (vx (translation op) - vx t - IZR (vx k)) <= 1 / 1000000000 /\
        Rabs (vy (translation op) - vy t - IZR (vy k)) <= 1 / 1000000000 /\
        Rabs (vz (translation op) - vz t - IZR (vz k)) <= 1 / 1000000000.
  Proof.
    destruct search_unfold as (n & c & P & Pi & pg & pg' & inds & counts & entries & En & Ec & EP & HI & Epg & MG & F2 & Hi & Hc & EN & EK & E).
    exists n, c, P, Pi, pg, (let l := hord (3%nat :: path) (@insert_all RNum entries) in
          concat (map (fun ie => @accepted_ops RNum H (fst ie :: 4%nat :: path) dtol s ft (snd ie)) (combine (seq 0 (List.length l)) l))).
    repeat (split; [assumption|]). cbv zeta. intros h r t Hh Hr EX.
    assert (Hr' : In r (pg_operations pg')).
    { clear - F2 Hh Hr. induction F2 as [|h' r' hs rs C F IH]; [destruct Hh|]. destruct Hh as [->|Hh]; [left|right; now apply IH].
      unfold conj_rel in C. apply MofZ_inj. congruence. }
    destruct (insert_all_get entries [] r (or_introl (EK r Hr'))) as (tvs & G). pose proof (insert_all_fold _ _ _ _ G) as [Q|Q]; [|discriminate].
    destruct (EN r tvs Q) as (_ & p & ->).
    assert (GI : In (r, map (tr s ft r) (pairs_of s (hord p inds))) (@insert_all RNum entries)).
    { destruct (am_get_in _ _ _ _ G) as (k' & Ek & I). apply zmat_eqb_spec in Ek. subst k'. exact I. }
    set (l := hord (3%nat :: path) (@insert_all RNum entries)).
    assert (GL : In (r, map (tr s ft r) (pairs_of s (hord p inds))) l) by (apply (Permutation_in _ (Permutation_sym (hord_perm _ _ _))); exact GI).
    destruct (combine_seq_In l _ GL 0%nat) as (i & Hi').
    destruct (accepted_complete s dtol WF BIG fine SEP tols positive (i :: 4%nat :: path) r t (pairs_of s (hord p inds))) as (op & Hop & R1 & k & R2).
    - apply pairs_NoDup; assumption.
    - intros a a'. apply pairs_In; assumption.
    - exact EX.
    - exists op, k. split; [|split; [exact R1|exact R2]]. apply in_concat. eexists. split; [apply in_map_iff; exists (i, (r, map (tr s ft r) (pairs_of s (hord p inds)))); split; [reflexivity|exact Hi']|].
      exact Hop.
  Qed.
End Search.
