(** Soundness and completeness of the accepted operations (analyzer.rs 225-280). *)
From Coq Require Import ZArith Reals String List Bool Lia Lra Permutation.
From Flocq Require Import Core.Raux.
From Verif Require Import Num Mat Utils Structure Analyzer RInst Spec RFacts PUtils PPrim PAnalyzer2 PSearch.
Import ListNotations.
Open Scope R_scope.

Lemma closer_eq L r u v u' v' : Vsub u v = Vsub u' v' -> closer L r u v -> closer L r u' v'.
Proof. intros E (n & Q). exists n. now rewrite <- E. Qed.
Lemma NoDup_map_on {A B} (f : A -> B) l : NoDup l -> (forall a b, In a l -> In b l -> f a = f b -> a = b) -> NoDup (map f l).
Proof.
  induction 1 as [|a l Ha N IH]; intro I; [constructor|]. cbn. constructor.
  - intro Hi. apply in_map_iff in Hi. destruct Hi as (b & E & Hb). rewrite (I b a) in Hb; auto; [now right|now left].
  - apply IH. intros x y Hx Hy. apply I; now right.
Qed.

(** ** Whole periods, decidably *)
Definition congrb1 (x y : R) : bool := Req_bool (x - y - IZR (Ztrunc (x - y))) 0.
Lemma congrb1_iff x y : congrb1 x y = true <-> congr1 x y.
Proof.
  unfold congrb1. split.
  - intro E. exists (Ztrunc (x - y)). revert E. case Req_bool_spec; [lra|discriminate].
  - intros (z & E). rewrite E, Ztrunc_IZR. apply Req_bool_true. lra.
Qed.
Definition congrb (u v : vec R) : bool := congrb1 (vx u) (vx v) && congrb1 (vy u) (vy v) && congrb1 (vz u) (vz v).
Lemma congrb_iff u v : congrb u v = true <-> Vcongr u v.
Proof.
  unfold congrb. rewrite !andb_true_iff, !congrb1_iff. split.
  - intros (((a & A) & (b & B)) & (c & C)). exists (V a b c). destruct u, v. unfold Vadd, VofZ. cbn in *. f_equal; lra.
  - intros (n & ->). unfold Vadd, VofZ. cbn. split; [split|]; eexists; ring_simplify; reflexivity.
Qed.

(** ** Association lists *)
Section CMap.
  Implicit Types (m : list (vec Z * Z)) (k : vec Z).
  Lemma get_incr_same k m c : am_get zvec_eqb k m = Some c -> am_get zvec_eqb k (count_incr k m) = Some (c + 1)%Z.
  Proof.
    induction m as [|[k1 c1] m IH]; [discriminate|]. cbn [am_get count_incr]. destruct (zvec_eqb k k1) eqn:E; intro Q.
    - injection Q as ->. cbn [am_get]. now rewrite E.
    - cbn [am_get]. rewrite E. now apply IH.
  Qed.
  Lemma get_incr_other k k' m : k' <> k -> am_get zvec_eqb k' (count_incr k m) = am_get zvec_eqb k' m.
  Proof.
    intro N. induction m as [|[k1 c1] m IH]; [reflexivity|]. cbn [am_get count_incr]. destruct (zvec_eqb k k1) eqn:E; cbn [am_get].
    - apply zvec_eqb_iff in E. subst k1. destruct (zvec_eqb k' k) eqn:E'; [apply zvec_eqb_iff in E'; congruence|reflexivity].
    - destruct (zvec_eqb k' k1); [reflexivity|exact IH].
  Qed.
  Lemma get_insert_same k c m : am_get zvec_eqb k (am_insert zvec_eqb k c m) = Some c.
  Proof.
    induction m as [|[k1 c1] m IH]; cbn [am_insert am_get].
    - now rewrite (proj2 (zvec_eqb_iff k k) eq_refl).
    - destruct (zvec_eqb k k1) eqn:E; cbn [am_get]; rewrite E; [reflexivity|exact IH].
  Qed.
  Lemma get_insert_other k k' c m : k' <> k -> am_get zvec_eqb k' (am_insert zvec_eqb k c m) = am_get zvec_eqb k' m.
  Proof.
    intro N. assert (E' : zvec_eqb k' k = false) by (destruct (zvec_eqb k' k) eqn:E; [apply zvec_eqb_iff in E; congruence|reflexivity]).
    induction m as [|[k1 c1] m IH]; cbn [am_insert am_get].
    - now rewrite E'.
    - destruct (zvec_eqb k k1) eqn:E; cbn [am_get].
      + apply zvec_eqb_iff in E. subst k1. now rewrite E'.
      + destruct (zvec_eqb k' k1); [reflexivity|exact IH].
  Qed.
  Lemma incr_keys k m k' c : In (k', c) (count_incr k m) -> exists c', In (k', c') m.
  Proof. intro Q. apply count_incr_In in Q. destruct Q as [Q|[-> Q]]; eauto. Qed.
  Lemma get_In k m c : am_get zvec_eqb k m = Some c -> In (k, c) m.
  Proof. intro Q. destruct (am_get_in _ _ _ _ Q) as (k' & E & I). apply zvec_eqb_iff in E. now subst k'. Qed.
End CMap.

(** ** Completeness of the count *)
Section Complete.
  Context {H : HashOrd} (L : mat R) (ft : vec R) (dtol : R).
  Hypothesis fine : forall k, (k < 3)%nat -> 2 / 1000000000 * Vnorm (Ccol L k) <= dtol.
  Hypothesis tols : forall k, (k < 3)%nat -> 1 / 1000000000 < vnth ft k <= / 2.
  Context (tau : vec R).
  Notation step path := (@count_step RNum H path dtol L ft).

  (** a translation equal to [tau] up to periods matches the key of another such translation *)
  Lemma match_own t t0 : Vcongr t t0 -> small_vec t0 -> @counts_match RNum dtol L ft t (ikey t0) = true.
  Proof.
    intros (n & ->) H0. unfold counts_match, same_site. apply fle_true. rewrite mvmul_R, magnitude_R, vsub_R.
    destruct (key_err_small t0 H0) as (X & Y & Z). unfold key_err in X, Y, Z.
    assert (E : @normalize_vec RNum (Vsub (Vadd t0 (VofZ n)) (fkey (ikey t0))) ft = Vsub t0 (fkey (ikey t0))).
    { pose proof (tols 0 ltac:(lia)) as T0. pose proof (tols 1 ltac:(lia)) as T1. pose proof (tols 2 ltac:(lia)) as T2. cbn [vnth] in T0, T1, T2.
      destruct t0 as [a b c], n as [n1 n2 n3]. unfold Vsub, Vadd, VofZ in *. cbn [vx vy vz] in *. apply vec_ext; cbn [vx vy vz normalize_vec vmap2].
      - rewrite (normalize1_near _ _ 0 n1); [match goal with |- ?a = ?b => change (@eq R a b) end; ring|split; [eapply Rlt_trans; [|exact (proj1 T0)]; lra|exact (proj2 T0)]|]. eapply Rle_lt_trans; [|exact (proj1 T0)]. eapply Rle_trans; [|exact X]. right. f_equal. ring.
      - rewrite (normalize1_near _ _ 0 n2); [match goal with |- ?a = ?b => change (@eq R a b) end; ring|split; [eapply Rlt_trans; [|exact (proj1 T1)]; lra|exact (proj2 T1)]|]. eapply Rle_lt_trans; [|exact (proj1 T1)]. eapply Rle_trans; [|exact Y]. right. f_equal. ring.
      - rewrite (normalize1_near _ _ 0 n3); [match goal with |- ?a = ?b => change (@eq R a b) end; ring|split; [eapply Rlt_trans; [|exact (proj1 T2)]; lra|exact (proj2 T2)]|]. eapply Rle_lt_trans; [|exact (proj1 T2)]. eapply Rle_trans; [|exact Z]. right. f_equal. ring. }
    rewrite E. cbn [fabs RNum]. rewrite abs_norm. eapply Rle_trans; [apply (norm_components L _ _ X Y Z)|].
    pose proof (eta_le L dtol fine) as HE. cbv zeta in HE. pose proof (dtol_nonneg L dtol fine) as HD. change (@fmul RNum (@f2 RNum) dtol) with (2 * dtol). lra.
  Qed.

  (** state after the list [l]: the translations equal to [tau] are all counted under one key *)
  Record inv (l : list (vec R)) (m : list (vec Z * Z)) : Prop := {
    inv_keys : forall k c, In (k, c) m -> exists t, In t l /\ k = ikey t;
    inv_count : (forall t, In t l -> ~ Vcongr t tau) \/
                exists k0, am_get zvec_eqb k0 m = Some (Z.of_nat (List.length (filter (fun t => congrb t tau) l))) /\
                  (exists t0, In t0 l /\ Vcongr t0 tau /\ k0 = ikey t0) /\
                  forall t c, In (ikey t, c) m -> In t l -> Vcongr t tau -> ikey t = k0 }.
  Definition good (t : vec R) : Prop := small_vec t /\ (closer L (4 * dtol) t tau -> Vcongr t tau).

  Lemma near_key t t' : good t -> good t' -> Vcongr t' tau -> closer L (5 / 2 * dtol) t (fkey (ikey t')) -> Vcongr t tau.
  Proof.
    intros [S C] [S' _] E Q. apply C. replace (4 * dtol) with (5 / 2 * dtol + 3 / 2 * dtol + 0) by field.
    eapply closer_trans; [eapply closer_trans; [exact Q|]|].
    - apply closer_sym, key_close; [exact fine|exact S'].
    - now apply closer_congr.
  Qed.
  Lemma same_key t t' : good t -> good t' -> Vcongr t' tau -> ikey t = ikey t' -> Vcongr t tau.
  Proof.
    intros G G' E K. apply (near_key t t' G G' E). rewrite <- K. eapply closer_le; [|apply key_close; [exact fine|exact (proj1 G)]].
    pose proof (dtol_nonneg L dtol fine). lra.
  Qed.
  Lemma close_match t t' : good t -> good t' -> Vcongr t' tau -> closer L (2 * dtol) t (fkey (ikey t')) -> Vcongr t tau.
  Proof. intros G G' E K. apply (near_key t t' G G' E). eapply closer_le; [|exact K]. pose proof (dtol_nonneg L dtol fine). lra. Qed.
  (** a key matched by a translation equal to [tau] belongs to such a translation *)
  Lemma match_congr t t' : good t' -> Vcongr t tau -> closer L (2 * dtol) t (fkey (ikey t')) -> Vcongr t' tau.
  Proof.
    intros [S' C'] E K. apply C'. apply (closer_le _ (3 / 2 * dtol + 2 * dtol + 0)); [pose proof (dtol_nonneg L dtol fine); lra|].
    eapply closer_trans; [eapply closer_trans; [apply key_close; [exact fine|exact S']|apply closer_sym; exact K]|now apply closer_congr].
  Qed.

  Lemma step_inv path i l m t : Forall good l -> good t -> inv l m -> inv (l ++ [t]) (step path m (i, t)).
  Proof.
    intros Gl Gt [K C]. rewrite Forall_forall in Gl. unfold count_step.
    assert (PM : forall k c, In (k, c) (hord (i :: path) m) <-> In (k, c) m)
      by (intros k c; split; intro Q; [exact (Permutation_in _ (hord_perm _ _ m) Q)|exact (Permutation_in _ (Permutation_sym (hord_perm _ _ m)) Q)]).
    destruct (find_match _ _ _ _ _) as [k|] eqn:E.
    - (* counted under an existing key *)
      apply find_match_some in E. destruct E as (c & Hc & M). apply PM in Hc. apply match_close in M. destruct (K _ _ Hc) as (t1 & Ht1 & ->).
      constructor.
      { intros k' c' Q. apply incr_keys in Q. destruct Q as (c'' & Q). destruct (K _ _ Q) as (t2 & Ht2 & ->). exists t2. split; [apply in_or_app; now left|reflexivity]. }
      destruct (congrb t tau) eqn:Et.
      + apply congrb_iff in Et. pose proof (match_congr t t1 (Gl _ Ht1) Et M) as E1. right.
        destruct C as [C|(k0 & C1 & (t0 & Ht0 & E0 & ->) & C3)]; [now apply C in E1|]. pose proof (C3 t1 c Hc Ht1 E1) as EK. rewrite EK.
        exists (ikey t0). split; [|split].
        * rewrite filter_app, app_length. cbn [filter]. rewrite (proj2 (congrb_iff _ _) Et). cbn [List.length]. rewrite Nat2Z.inj_add. now apply get_incr_same.
        * exists t0. split; [apply in_or_app; now left|auto].
        * intros t2 c2 Q Ht2 E2. apply incr_keys in Q. destruct Q as (c3 & Q). destruct (K _ _ Q) as (t3 & Ht3 & EK3).
          rewrite EK3. assert (G2 : good t2) by (apply in_app_or in Ht2; destruct Ht2 as [Ht2|[<-|[]]]; [now apply Gl|exact Gt]).
          apply (C3 t3 c3); [now rewrite <- EK3|exact Ht3|]. exact (same_key t3 t2 (Gl _ Ht3) G2 E2 (eq_sym EK3)).
      + assert (Nt : ~ Vcongr t tau) by (intro Q; apply congrb_iff in Q; congruence).
        destruct C as [C|(k0 & C1 & (t0 & Ht0 & E0 & ->) & C3)].
        * left. intros t2 Ht2. apply in_app_or in Ht2. destruct Ht2 as [Ht2|[<-|[]]]; [now apply C|exact Nt].
        * right. exists (ikey t0). split; [|split].
          -- rewrite filter_app, app_length. cbn [filter]. rewrite Et. cbn [List.length]. rewrite Nat.add_0_r, get_incr_other; [exact C1|].
             intro EK. rewrite <- EK in M. apply Nt. exact (close_match t t0 Gt (Gl _ Ht0) E0 M).
          -- exists t0. split; [apply in_or_app; now left|auto].
          -- intros t2 c2 Q Ht2 E2. apply incr_keys in Q. destruct Q as (c3 & Q). apply in_app_or in Ht2. destruct Ht2 as [Ht2|[<-|[]]]; [|tauto].
             exact (C3 t2 c3 Q Ht2 E2).
    - (* a new key *)
      constructor.
      { intros k' c' Q. apply insert_In in Q. destruct Q as [Q|[-> _]].
        - destruct (K _ _ Q) as (t2 & Ht2 & ->). exists t2. split; [apply in_or_app; now left|reflexivity].
        - exists t. split; [apply in_or_app; right; now left|reflexivity]. }
      destruct (congrb t tau) eqn:Et.
      + apply congrb_iff in Et. right. destruct C as [C|(k0 & C1 & (t0 & Ht0 & E0 & ->) & C3)].
        * exists (ikey t). split; [|split].
          -- rewrite get_insert_same, filter_app, app_length. cbn [filter]. rewrite (proj2 (congrb_iff _ _) Et).
             replace (filter (fun t1 => congrb t1 tau) l) with (@nil (vec R)); [reflexivity|]. symmetry.
             clear - C. induction l as [|a l IH]; [reflexivity|]. cbn [filter]. destruct (congrb a tau) eqn:Ea.
             ++ apply congrb_iff in Ea. exfalso. apply (C a); [now left|exact Ea].
             ++ apply IH. intros t1 Ht1. apply C. now right.
          -- exists t. split; [apply in_or_app; right; now left|auto].
          -- intros t2 c2 Q Ht2 E2. apply in_app_or in Ht2. destruct Ht2 as [Ht2|[<-|[]]]; [now apply C in E2|reflexivity].
        * exfalso. pose proof (get_In _ _ _ C1) as Q. apply PM in Q. pose proof (find_match_none L ft dtol _ _ _ _ E Q) as F.
          rewrite match_own in F; [discriminate| |exact (proj1 (Gl _ Ht0))]. eapply Vcongr_trans; [exact Et|now apply Vcongr_sym].
      + assert (Nt : ~ Vcongr t tau) by (intro Q; apply congrb_iff in Q; congruence).
        destruct C as [C|(k0 & C1 & (t0 & Ht0 & E0 & ->) & C3)].
        * left. intros t2 Ht2. apply in_app_or in Ht2. destruct Ht2 as [Ht2|[<-|[]]]; [now apply C|exact Nt].
        * right. exists (ikey t0). split; [|split].
          -- rewrite filter_app, app_length. cbn [filter]. rewrite Et. cbn [List.length]. rewrite Nat.add_0_r, get_insert_other; [exact C1|].
             intro EK. apply Nt. exact (same_key t t0 Gt (Gl _ Ht0) E0 (eq_sym EK)).
          -- exists t0. split; [apply in_or_app; now left|auto].
          -- intros t2 c2 Q Ht2 E2. apply in_app_or in Ht2. destruct Ht2 as [Ht2|[<-|[]]]; [|tauto]. apply insert_In in Q. destruct Q as [Q|[EK _]].
             ++ exact (C3 t2 c2 Q Ht2 E2).
             ++ exfalso. apply Nt. exact (same_key t t2 Gt (Gl _ Ht2) E2 (eq_sym EK)).
  Qed.
  Lemma fold_inv path tvs : Forall good tvs -> forall l m, Forall good l -> inv l m ->
    inv (l ++ tvs) (fold_left (step path) (combine (seq (List.length l) (List.length tvs)) tvs) m).
  Proof.
    intro F. induction F as [|t tvs Ht F IH]; intros l m G I; cbn [List.length seq combine fold_left].
    - now rewrite app_nil_r.
    - replace (S (List.length l)) with (List.length (l ++ [t])) by (rewrite app_length; cbn; lia).
      replace (l ++ t :: tvs) with ((l ++ [t]) ++ tvs) by (now rewrite <- app_assoc). apply IH; [apply Forall_app; split; [exact G|now constructor]|].
      now apply step_inv.
  Qed.
End Complete.
