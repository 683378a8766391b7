(** The operations accepted for a crystal whose approximate symmetries are all close to exact ones (analyzer.rs 164-283):
    one for each exact operation modulo the lattice. *)
From Coq Require Import ZArith Reals String List Bool Lia Lra Permutation.
From Flocq Require Import Core.Raux.
From Verif Require Import Num Mat Utils DataCore DataPG SymmOp PointGroup SpaceGroup Structure Reduce Analyzer RInst Spec Spec3 RFacts
  PUtils PSymmOp PStructure PStructure3 PFormula PPrim PPointGroup PPointGroup2 PSpaceGroup2 PCoset PAnalyzer2 PSearch PSearch2 PSearch3 PSearch4.
Import ListNotations.
Open Scope R_scope.

(** ** Keys are distinct *)
Lemma incr_fst k m : map fst (count_incr k m) = map fst m.
Proof. induction m as [|[k1 c1] m IH]; [reflexivity|]. cbn [count_incr]. destruct (zvec_eqb k k1); cbn [map fst]; [reflexivity|now rewrite IH]. Qed.
Lemma insert_fst {V} k (v : V) m k' : In k' (map fst (am_insert zvec_eqb k v m)) -> In k' (map fst m) \/ k' = k.
Proof. intro Q. apply in_map_iff in Q. destruct Q as ([k1 c] & <- & Q). apply insert_In in Q. destruct Q as [Q|[-> _]]; [left; now apply (in_map fst) in Q|now right]. Qed.
Lemma insert_NoDup {V} k (v : V) m : NoDup (map fst m) -> NoDup (map fst (am_insert zvec_eqb k v m)).
Proof.
  induction m as [|[k1 c1] m IH]; intro N; cbn [am_insert].
  - repeat constructor. intros [].
  - destruct (zvec_eqb k k1) eqn:E; [exact N|]. cbn [map fst] in *. inversion N as [|? ? N1 N2]; subst. constructor; [|now apply IH].
    intro Q. apply insert_fst in Q. destruct Q as [Q|Q]; [contradiction|]. subst k1. rewrite (proj2 (zvec_eqb_iff k k) eq_refl) in E. discriminate.
Qed.
Lemma step_NoDup {H : HashOrd} path dtol L ft m it : NoDup (map fst m) -> NoDup (map fst (@count_step RNum H path dtol L ft m it)).
Proof.
  intro N. destruct it as [i t]. unfold count_step. destruct (find_match _ _ _ _ _); [now rewrite incr_fst|now apply insert_NoDup].
Qed.
Lemma fold_NoDup {H : HashOrd} path dtol L ft l : forall m, NoDup (map fst m) -> NoDup (map fst (fold_left (@count_step RNum H path dtol L ft) l m)).
Proof. induction l as [|it l IH]; intros m N; [exact N|]. cbn [fold_left]. now apply IH, step_NoDup. Qed.
Lemma step_keys {H : HashOrd} path dtol L ft m i t k : In k (map fst (@count_step RNum H path dtol L ft m (i, t))) -> In k (map fst m) \/ k = ikey t.
Proof. unfold count_step. destruct (find_match _ _ _ _ _); [rewrite incr_fst; now left|]. apply insert_fst. Qed.
Lemma fold_keys {H : HashOrd} path dtol L ft tvs : forall n m k,
  In k (map fst (fold_left (@count_step RNum H path dtol L ft) (combine (seq n (List.length tvs)) tvs) m)) ->
  In k (map fst m) \/ exists t, In t tvs /\ k = ikey t.
Proof.
  induction tvs as [|t tvs IH]; intros n m k; cbn [List.length seq combine fold_left]; [now left|]. intro Q. apply IH in Q.
  destruct Q as [Q|(t' & Ht & ->)]; [|right; exists t'; split; [now right|reflexivity]]. apply step_keys in Q. destruct Q as [Q| ->]; [now left|].
  right. exists t. split; [now left|reflexivity].
Qed.
Lemma fkey_inj k k' : fkey k = fkey k' -> k = k'.
Proof.
  assert (G : forall x y : Z, IZR x / 1000000000 = IZR y / 1000000000 -> x = y) by (intros x y E; apply eq_IZR; lra).
  destruct k as [a b c], k' as [a' b' c']. intro E. injection E as E1 E2 E3. f_equal; apply G; assumption.
Qed.
Lemma mat_insert_fst {V} k (v : V) m k' : In k' (map fst (am_insert zmat_eqb k v m)) -> In k' (map fst m) \/ k' = k.
Proof. intro Q. apply in_map_iff in Q. destruct Q as ([k1 c] & <- & Q). apply mat_insert_In in Q. destruct Q as [Q|[-> _]]; [left; now apply (in_map fst) in Q|now right]. Qed.
Lemma insert_all_NoDup (l : list (mat Z * list (vec R))) : forall m, NoDup (map fst m) ->
  NoDup (map fst (fold_left (fun m p => am_insert zmat_eqb (fst p) (snd p) m) l m)).
Proof.
  induction l as [|[r t] l IH]; intros m N; [exact N|]. cbn [fold_left fst snd]. apply IH. clear IH. revert N. induction m as [|[k1 c1] m IH]; intro N; cbn [am_insert].
  - repeat constructor. intros [].
  - destruct (zmat_eqb r k1) eqn:E; [exact N|]. cbn [map fst] in *. inversion N as [|? ? N1 N2]; subst. constructor; [|now apply IH].
    intro Q. apply mat_insert_fst in Q. destruct Q as [Q|Q]; [contradiction|]. subst k1. rewrite (proj2 (zmat_eqb_spec r r) eq_refl) in E. discriminate.
Qed.

Definition nano (u v : vec R) : Prop := exists n : vec Z,
  Rabs (vx u - vx v - IZR (vx n)) <= 1 / 1000000000 /\ Rabs (vy u - vy v - IZR (vy n)) <= 1 / 1000000000 /\ Rabs (vz u - vz v - IZR (vz n)) <= 1 / 1000000000.

Section Accept2.
  Context {H : HashOrd} (s : @structure RNum) (dtol : R).
  Let L : mat R := lattice s.
  Let names := species s.
  Let xs : list (vec R) := frac_coords s.
  Let ft : vec R := @frac_tols_of RNum L dtol.
  Let sites : list (vec R * string) := combine xs names.
  Hypothesis WF : List.length xs = List.length names.
  Hypothesis BIG : (0 < Z.of_nat (List.length names) <= 65535)%Z.
  Hypothesis GR : grouped names.
  Hypothesis fine : forall k, (k < 3)%nat -> 2 / 1000000000 * Vnorm (Ccol L k) <= dtol.
  Hypothesis SEP : sites_apart (4 * dtol) L sites.
  Hypothesis tols : forall k, (k < 3)%nat -> 2 * dtol <= Vnorm (Ccol L k).
  Hypothesis positive : forall k, (k < 3)%nat -> 0 < Vnorm (Ccol L k).
  Notation x := (xat s).
  Notation T := (tr s ft).

  Lemma nano_close u v : nano u v -> closer L (3 / 2 * dtol) u v.
  Proof.
    intros (n & X & Y & Z). exists (zneg n).
    assert (E : Vadd (Vsub u v) (VofZ (zneg n)) = V (vx u - vx v - IZR (vx n)) (vy u - vy v - IZR (vy n)) (vz u - vz v - IZR (vz n))).
    { destruct u, v, n. unfold Vadd, Vsub, VofZ, zneg. cbn. rewrite !opp_IZR. f_equal; ring. }
    rewrite E. eapply Rle_trans; [apply (norm_components L _ (1 / 1000000000)); cbn [vx vy vz]; assumption|].
    pose proof (eta_le L dtol fine) as HE. cbv zeta in HE. exact HE.
  Qed.
  Lemma exact_good r tau pairs : (forall a b, In (a, b) pairs -> exists e, nth_error names a = Some e /\ nth_error names b = Some e) ->
    exact_operation sites r tau -> Forall (good L dtol tau) (map (T r) pairs).
  Proof.
    intros PI EX. apply Forall_forall. intros t Ht. apply in_map_iff in Ht. destruct Ht as ([a b] & <- & Hp). split; [apply normalize_vec_small|].
    intro Cl. apply PI in Hp. destruct Hp as (e & Ha & Hb).
    pose proof (proj1 (site_at s WF BIG a e) Ha) as Sa.
    destruct (EX (x a) e) as (y & Hy & (n & Q)); [exact (nth_error_In _ _ Sa)|].
    apply In_nth_error in Hy. destruct Hy as (b0 & Hb0). assert (HB : nth_error names b0 = Some e) by (unfold sites in Hb0; apply nth_error_combine in Hb0; tauto).
    pose proof (proj1 (site_at s WF BIG b0 e) HB) as Sb. change (combine (frac_coords s) (species s)) with sites in Sb. rewrite Hb0 in Sb. injection Sb as ->.
    assert (E0 : Vcongr (Vsub (x b0) (Mapp (MofZ r) (x a))) tau).
    { exists (zneg n). rewrite VofZ_neg. unfold act in Q. destruct (x b0) as [b1 b2 b3], (Mapp (MofZ r) (x a)) as [d1 d2 d3], tau as [t1 t2 t3], n as [n1 n2 n3].
      unfold Vadd, Vsub, Vscal, VofZ in *. cbn in *. injection Q as Q1 Q2 Q3. f_equal; lra. }
    assert (b = b0).
    { apply (same_site_index s dtol WF BIG SEP b b0 e Hb HB).
      apply (closer_eq L _ (Vsub (x b) (Mapp (MofZ r) (x a))) (Vsub (x b0) (Mapp (MofZ r) (x a)))).
      - destruct (x b) as [b1 b2 b3], (x b0) as [c1 c2 c3], (Mapp (MofZ r) (x a)) as [d1 d2 d3]. unfold Vsub. cbn. f_equal; ring.
      - replace (4 * dtol) with (0 + 4 * dtol + 0) by ring. eapply closer_trans; [eapply closer_trans; [|exact Cl]|].
        + apply closer_congr, Vcongr_sym. apply (tr_congr s dtol).
        + apply closer_congr, Vcongr_sym, E0. }
    subst b0. eapply Vcongr_trans; [apply (tr_congr s dtol)|exact E0].
  Qed.
  Lemma nano_key r p tau : Vcongr (T r p) tau -> nano (fkey (ikey (T r p))) tau.
  Proof.
    intros (n & E). destruct (key_err_small (T r p) (normalize_vec_small _ _)) as (X & Y & Z). exists n.
    unfold key_err in X, Y, Z. set (K := fkey (ikey (T r p))) in *. clearbody K. rewrite E in X, Y, Z. revert X Y Z. clear.
    destruct K as [k1 k2 k3], tau as [u1 u2 u3], n as [n1 n2 n3]. unfold Vsub, Vadd, VofZ. cbn [vx vy vz].
    intros X Y Z. rewrite Rabs_minus_sym in X, Y, Z. split; [|split].
    - replace (k1 - u1 - IZR n1) with (k1 - (u1 + IZR n1)) by ring. exact X.
    - replace (k2 - u2 - IZR n2) with (k2 - (u2 + IZR n2)) by ring. exact Y.
    - replace (k3 - u3 - IZR n3) with (k3 - (u3 + IZR n3)) by ring. exact Z.
  Qed.
  Lemma accepted_origin path r pairs op : In op (@accepted_ops RNum H path dtol s ft (r, map (T r) pairs)) ->
    rotation op = r /\ exists p, In p pairs /\ translation op = fkey (ikey (T r p)) /\
      exists c, In (ikey (T r p), c) (fold_left (@count_step RNum H (0%nat :: path) dtol L ft)
                             (combine (seq 0 (List.length (map (T r) pairs))) (map (T r) pairs)) []).
  Proof.
    unfold accepted_ops. intro Q. apply in_map_iff in Q. destruct Q as ([k c] & <- & Q). apply filter_In in Q. destruct Q as [Q C].
    cbn [fst snd] in *. split; [reflexivity|]. cbn [translation]. apply (Permutation_in _ (hord_perm _ _ _)) in Q.
    pose proof (in_map fst _ _ Q) as Q'. cbn [fst] in Q'. apply fold_keys in Q'. destruct Q' as [[]|(t & Ht & ->)].
    apply in_map_iff in Ht. destruct Ht as (p & <- & Hp). exists p. split; [exact Hp|]. split; [reflexivity|]. exists c. exact Q.
  Qed.
  (** an accepted operation close to an exact one is that one, to 1e-9 *)
  Lemma accepted_exact path r tau pairs op :
    (forall a b, In (a, b) pairs -> exists e, nth_error names a = Some e /\ nth_error names b = Some e) ->
    exact_operation sites r tau -> In op (@accepted_ops RNum H path dtol s ft (r, map (T r) pairs)) ->
    closer L (2 * dtol) (translation op) tau -> nano (translation op) tau.
  Proof.
    intros PI EX Q Cl. apply accepted_origin in Q. destruct Q as (_ & p & Hp & Et & _). rewrite Et in *. apply nano_key.
    pose proof (exact_good r tau pairs PI EX) as G. rewrite Forall_forall in G. destruct (G (T r p) (in_map _ _ _ Hp)) as [S G']. apply G'.
    apply (closer_le _ (3 / 2 * dtol + 2 * dtol)); [pose proof (dtol_nonneg L dtol fine); lra|].
    eapply closer_trans; [apply key_close; [exact fine|exact S]|exact Cl].
  Qed.
  (** two accepted operations standing for the same exact one are the same *)
  Lemma accepted_unique path r tau pairs op op' :
    (forall a b, In (a, b) pairs -> exists e, nth_error names a = Some e /\ nth_error names b = Some e) ->
    exact_operation sites r tau ->
    In op (@accepted_ops RNum H path dtol s ft (r, map (T r) pairs)) -> In op' (@accepted_ops RNum H path dtol s ft (r, map (T r) pairs)) ->
    nano (translation op) tau -> nano (translation op') tau -> op = op'.
  Proof.
    intros PI EX Q Q' N N'. apply accepted_origin in Q. apply accepted_origin in Q'. destruct Q as (R1 & p & Hp & Et & c & Hc). destruct Q' as (R2 & p' & Hp' & Et' & c' & Hc').
    pose proof (exact_good r tau pairs PI EX) as GOOD.
    pose proof (fold_inv L ft dtol fine (ft_range s dtol WF fine tols positive) tau (0%nat :: path) (map (T r) pairs) GOOD [] [] ltac:(constructor)
      ltac:(constructor; [intros ? ? []|left; intros ? []])) as [_ INV].
    cbn [app List.length] in INV. rewrite Forall_forall in GOOD.
    assert (G : forall q, In q pairs -> nano (fkey (ikey (T r q))) tau -> Vcongr (T r q) tau).
    { intros q Hq Nq. destruct (GOOD (T r q) (in_map _ _ _ Hq)) as [S G']. apply G'.
      apply (closer_le _ (3 / 2 * dtol + 3 / 2 * dtol)); [pose proof (dtol_nonneg L dtol fine); lra|].
      eapply closer_trans; [apply key_close; [exact fine|exact S]|now apply nano_close]. }
    rewrite Et in N. rewrite Et' in N'. apply G in N; [|exact Hp]. apply G in N'; [|exact Hp'].
    destruct INV as [INV|(k0 & _ & _ & U)]; [now apply INV in N; [|apply in_map]|].
    pose proof (U _ _ Hc (in_map _ _ _ Hp) N) as E1. pose proof (U _ _ Hc' (in_map _ _ _ Hp') N') as E2.
    destruct op as [ro to], op' as [ro' to']. cbn [rotation translation] in *. congruence.
  Qed.
  Lemma accepted_NoDup path r tvs : NoDup (@accepted_ops RNum H path dtol s ft (r, tvs)).
  Proof.
    unfold accepted_ops. apply NoDup_map_on.
    - apply NoDup_filter. apply (NoDup_map_inv fst). eapply Permutation_NoDup; [apply Permutation_map, Permutation_sym, hord_perm|].
      apply fold_NoDup. constructor.
    - intros [k c] [k' c'] Q Q' E. cbn [fst] in E. apply (f_equal (@translation RNum)) in E. cbn [translation] in E.
      apply filter_In in Q. apply filter_In in Q'. destruct Q as [_ Q]. destruct Q' as [_ Q']. cbn [snd] in Q, Q'. apply Z.eqb_eq in Q, Q'. subst c c'.
      f_equal. now apply fkey_inj.
  Qed.
End Accept2.


Lemma NoDup_concat_blocks {A B} (f : B -> list A) (key : A -> mat Z) (kb : B -> mat Z) (l : list B) :
  NoDup (map kb l) -> (forall y, In y l -> NoDup (f y)) -> (forall y a, In y l -> In a (f y) -> key a = kb y) -> NoDup (concat (map f l)).
Proof.
  induction l as [|y l IH]; intros N F K; [constructor|]. cbn [map concat] in *. inversion N as [|? ? N1 N2]; subst.
  assert (NC : NoDup (concat (map f l))) by (apply IH; auto; intros; [apply F|apply K]; auto; now right).
  assert (D : forall a, In a (f y) -> ~ In a (concat (map f l))).
  { intros a Ha Q. apply in_concat in Q. destruct Q as (fl & Hl & Q). apply in_map_iff in Hl. destruct Hl as (z & <- & Hz).
    apply N1. rewrite <- (K y a (or_introl eq_refl) Ha), (K z a (or_intror Hz) Q). now apply in_map. }
  pose proof (F y (or_introl eq_refl)) as NY. revert NY D. generalize (f y). intros g NY D. induction NY as [|a g Ha NY IHg]; [exact NC|].
  cbn [app]. constructor; [|apply IHg; intros; apply D; now right]. intro Q. apply in_app_or in Q. destruct Q as [Q|Q]; [contradiction|]. exact (D a (or_introl eq_refl) Q).
Qed.
Lemma combine_seq_snd {A} (l : list A) : forall n, map snd (combine (seq n (List.length l)) l) = l.
Proof. induction l as [|a l IH]; intro n; [reflexivity|]. cbn [List.length seq combine map snd]. now rewrite IH. Qed.
Lemma NoDup_map_eq {A B} (f : A -> B) l a b : NoDup (map f l) -> In a l -> In b l -> f a = f b -> a = b.
Proof.
  induction l as [|x l IH]; [intros _ []|]. cbn [map]. intros N [->|Ha] [->|Hb] E; auto; inversion N as [|? ? N1 N2]; subst.
  - elim N1. rewrite E. now apply in_map.
  - elim N1. rewrite <- E. now apply in_map.
  - now apply IH.
Qed.

Section Search2.
  Context {H : HashOrd} (s : @structure RNum) (dtol : R) (fuel : nat) (path : list nat) (b : bravais).
  Hypothesis HF : (48 <= fuel)%nat.
  Hypothesis WF : List.length (frac_coords s) = List.length (species s).
  Hypothesis BIG : (0 < Z.of_nat (List.length (species s)) <= 65535)%Z.
  Hypothesis GR : grouped (species s).
  Hypothesis fine : forall k, (k < 3)%nat -> 2 / 1000000000 * Vnorm (Ccol (lattice s) k) <= dtol.
  Let sites : list (vec R * string) := combine (frac_coords s) (species s).
  Hypothesis SEP : sites_apart (4 * dtol) (lattice s) sites.
  Hypothesis tols : forall k, (k < 3)%nat -> 2 * dtol <= Vnorm (Ccol (lattice s) k).
  Hypothesis positive : forall k, (k < 3)%nat -> 0 < Vnorm (Ccol (lattice s) k).
  Notation ft := (@frac_tols_of RNum (lattice s) dtol).
  Lemma search_exact : exists n c P Pi pg ops,
    am_get bravais_eqb b BRAVAIS_TO_HOLOHEDRY_NUM = Some n /\ bravais_centering b = Ok c /\ @prim_trans_of RNum c = Some P /\ inverse_of P Pi /\
    pg_from_number fuel (0%nat :: path) n = Ok pg /\
    @get_primitive_space_group_ops RNum H fuel path dtol s b = Ok ops /\
    let rots r := exists h, In h (pg_operations pg) /\ Mmul (Mmul Pi (MofZ h)) P = MofZ r in
    (rigid (2 * dtol) (lattice s) sites rots ->
     NoDup ops /\
     (forall op, In op ops -> rots (rotation op) /\ exists t, exact_operation sites (rotation op) t /\ nano (translation op) t) /\
     (forall r t, rots r -> exact_operation sites r t -> exists op, In op ops /\ rotation op = r /\ nano (translation op) t) /\
     (forall a b t, In a ops -> In b ops -> rotation a = rotation b -> exact_operation sites (rotation a) t ->
        nano (translation a) t -> nano (translation b) t -> a = b)).
  Proof.
    destruct (search_unfold s dtol fuel path b HF WF BIG GR) as (n & c & P & Pi & pg & pg' & inds & counts & entries & En & Ec & EP & HI & Epg & MG & F2 & Hi & Hc & EN & EK & E).
    exists n, c, P, Pi, pg, (let l := hord (3%nat :: path) (@insert_all RNum entries) in
          concat (map (fun ie => @accepted_ops RNum H (fst ie :: 4%nat :: path) dtol s ft (snd ie)) (combine (seq 0 (List.length l)) l))).
    repeat (split; [assumption|]). cbv zeta.
    set (l := hord (3%nat :: path) (@insert_all RNum entries)).
    set (rots := fun r => exists h, In h (pg_operations pg) /\ Mmul (Mmul Pi (MofZ h)) P = MofZ r).
    set (pairs := fun p => pairs_of s (hord p inds)).
    assert (LE : forall r tvs, In (r, tvs) l -> In r (pg_operations pg') /\ exists p, tvs = map (tr s ft r) (pairs p)).
    { intros r tvs Q. apply (Permutation_in _ (hord_perm _ _ _)) in Q. apply insert_all_In in Q. destruct Q as [Q|[]]. exact (EN r tvs Q). }
    assert (LR : forall r, In r (pg_operations pg') <-> rots r).
    { intro r. unfold rots. split.
      - intro Hr. clear - F2 Hr. induction F2 as [|h r' hs rs C F IH]; [destruct Hr|]. destruct Hr as [->|Hr].
        + exists h. split; [now left|exact C].
        + destruct (IH Hr) as (h' & A & B). exists h'. split; [now right|exact B].
      - intros (h & Hh & Hr). clear - F2 Hh Hr. induction F2 as [|h' r' hs rs C F IH]; [destruct Hh|]. destruct Hh as [->|Hh]; [left|right; now apply IH].
        unfold conj_rel in C. apply MofZ_inj. congruence. }
    assert (PA : forall p a a', In (a, a') (pairs p) <-> exists e, nth_error (species s) a = Some e /\ nth_error (species s) a' = Some e)
      by (intros p a a'; apply pairs_In; assumption).
    assert (PA1 : forall p a a', In (a, a') (pairs p) -> exists e, nth_error (species s) a = Some e /\ nth_error (species s) a' = Some e)
      by (intros p a a' Q; now apply PA in Q).
    assert (PN : forall p, NoDup (pairs p)) by (intro p; apply pairs_NoDup; assumption).
    assert (LN : NoDup (map fst l)).
    { eapply Permutation_NoDup; [apply Permutation_map, Permutation_sym, hord_perm|]. apply insert_all_NoDup. constructor. }
    set (il := combine (seq 0 (List.length l)) l).
    assert (IN : NoDup (map (fun ie => fst (snd ie)) il)).
    { unfold il. rewrite <- (map_map snd fst), combine_seq_snd. exact LN. }
    assert (IE : forall ie, In ie il -> In (snd ie) l) by (intros [i e] Q; now apply in_combine_r in Q).
    assert (OP : forall op, In op (concat (map (fun ie => @accepted_ops RNum H (fst ie :: 4%nat :: path) dtol s ft (snd ie)) il)) ->
              exists i r p, In (i, (r, map (tr s ft r) (pairs p))) il /\ In r (pg_operations pg') /\ rotation op = r /\
                 In op (@accepted_ops RNum H (i :: 4%nat :: path) dtol s ft (r, map (tr s ft r) (pairs p)))).
    { intros op Q. apply in_concat in Q. destruct Q as (g & Hg & Q). apply in_map_iff in Hg. destruct Hg as ([i [r tvs]] & <- & Hie). cbn [fst snd] in Q.
      destruct (LE r tvs (IE _ Hie)) as (Hr & p & ->). exists i, r, p. split; [exact Hie|]. split; [exact Hr|]. split; [|exact Q].
      unfold accepted_ops in Q. apply in_map_iff in Q. destruct Q as (kc & <- & _). reflexivity. }
    intro RIG. split; [|split; [|split]].
    - apply (NoDup_concat_blocks _ (@rotation RNum) (fun ie => fst (snd ie))); [exact IN| |].
      + intros [i [r tvs]] _. apply accepted_NoDup.
      + intros [i [r tvs]] a _ Q. cbn [fst snd] in *. unfold accepted_ops in Q. apply in_map_iff in Q. destruct Q as (kc & <- & _). reflexivity.
    - intros op Hop. destruct (OP op Hop) as (i & r & p & Hie & Hr & Er & Q). rewrite Er. apply LR in Hr. split; [exact Hr|].
      destruct (accepted_sound s dtol WF BIG fine SEP (i :: 4%nat :: path) r (pairs p) op (PN p) (PA1 p) Q) as [_ S].
      destruct (RIG r (translation op) Hr S) as (t0 & m & EX & Cl). exists t0. split; [exact EX|].
      apply (accepted_exact s dtol WF BIG fine SEP (i :: 4%nat :: path) r t0 (pairs p) op (PA1 p) EX Q). exists m. exact Cl.
    - intros r t Hr EX. apply LR in Hr. destruct (insert_all_get entries [] r (or_introl (EK r Hr))) as (tvs & G).
      assert (GI : In (r, tvs) l).
      { apply (Permutation_in _ (Permutation_sym (hord_perm _ _ _))). destruct (am_get_in _ _ _ _ G) as (k' & Ek & I). apply zmat_eqb_spec in Ek. subst k'. exact I. }
      destruct (LE r tvs GI) as (_ & p & ->). destruct (combine_seq_In l _ GI 0%nat) as (i & Hi'). fold il in Hi'.
      destruct (accepted_complete s dtol WF BIG fine SEP tols positive (i :: 4%nat :: path) r t (pairs p) (PN p) (PA p) EX) as (op & Hop & R1 & R2).
      exists op. split; [|split; [exact R1|exact R2]]. apply in_concat. eexists. split; [apply in_map_iff; exists (i, (r, map (tr s ft r) (pairs p))); split; [reflexivity|exact Hi']|].
      exact Hop.
    - intros a a' t Ha Ha' Er EX Na Na'. destruct (OP a Ha) as (i & r & p & Hie & Hr & R1 & Q). destruct (OP a' Ha') as (i' & r' & p' & Hie' & Hr' & R1' & Q').
      assert (RR : r = r') by congruence. clear R1'. subst r'. pose proof (NoDup_map_eq _ _ _ _ IN Hie Hie' eq_refl) as EQ. injection EQ as <- EQ. rewrite <- EQ in Q'. rewrite R1 in EX.
      exact (accepted_unique s dtol WF BIG fine SEP tols positive (i :: 4%nat :: path) r t (pairs p) a a' (PA1 p) EX Q Q' Na Na').
  Qed.
End Search2.
