(** Supercells: Structure::apply_transformation finds every site once when the sites are separated. *)
From Coq Require Import ZArith Reals String List Bool Lia Lra Psatz Permutation Sorting.Sorted.
From Flocq Require Import Core.Raux.
From Verif Require Import Num Mat Utils SpaceGroup Structure RInst Spec RFacts PUtils PSymmOp PStructure PCoset PStructure2.
Import ListNotations.
Open Scope R_scope.

Lemma normalize1_whole (z : Z) (t : R) : 0 <= t <= 1 -> @normalize1 RNum (IZR z) t = 0.
Proof.
  intro H. unfold normalize1. cbn [frem1 flt fm1 f1 fofZ fmul fsub fadd RNum]. rewrite Ztrunc_IZR.
  replace (IZR z - IZR z) with 0 by ring.
  rewrite Rlt_bool_false by lra. rewrite Rlt_bool_false by lra. reflexivity.
Qed.
Lemma Vnorm_V0 : Vnorm V0 = 0.
Proof. unfold Vnorm, Vdot, V0; cbn. rewrite !Rmult_0_l, !Rplus_0_l. apply sqrt_0. Qed.

Section Super.
  Variables (T : mat Z) (s : rstruct) (pt : R).
  Let N := List.length (species s).
  Let Ti := Madj_inv (MofZ T).
  Let D := Z.abs (ZMdet T).
  Let ft := @frac_tols_of RNum (lattice s) pt.
  Hypothesis (HD : ZMdet T <> 0%Z) (Hpt : 0 <= pt).
  Hypothesis (Hft : forall k, 0 <= vnth ft k <= 1).
  Hypothesis (Hl1 : List.length (frac_coords s) = N) (Hl2 : List.length (coords s) = N).
  Hypothesis sep : forall i j x y m,
    nth_error (frac_coords s) i = Some x -> nth_error (frac_coords s) j = Some y ->
    i <> j \/ ~ (exists n, m = ZMapp T n) ->
    2 * pt < Vnorm (Mapp (lattice s) (Mapp Ti (Vadd (Vsub x y) (VofZ m)))).
  Variables (reps : list (vec Z)) (rp : vec Z -> vec Z).
  Hypothesis (R1 : NoDup reps) (R2 : List.length reps = Z.to_nat D) (R3 : forall v, In (rp v) reps).
  Hypothesis (R4 : forall a b, zequiv T a b <-> rp a = rp b) (R5 : forall r, In r reps -> rp r = r).
  Hypothesis R6 : forall r, In r reps -> (0 <= vx r < D /\ 0 <= vy r < D /\ 0 <= vz r < D)%Z.

  Let X (i : nat) : vec R := nth i (frac_coords s) V0.
  Let Sp (i : nat) : string := nth i (species s) EmptyString.
  Definition tag_pos (t : nat * vec Z) : vec R := cand Ti (X (fst t)) (snd t).
  Definition st_of (tags : list (nat * vec Z)) : list (vec R) * list string :=
    (map tag_pos tags, map (fun t => Sp (fst t)) tags).
  Definition tkey (t : nat * vec Z) : nat * vec Z := (fst t, rp (snd t)).
  Definition good (tags : list (nat * vec Z)) : Prop :=
    NoDup (map tkey tags) /\ forall t, In t tags -> (fst t < N)%nat.

  Lemma inv_T : inverse_of (MofZ T) Ti.
  Proof. apply Madj_inverse. rewrite MofZ_det. intro E. apply HD. now apply eq_IZR in E. Qed.
  Lemma X_nth i : (i < N)%nat -> nth_error (frac_coords s) i = Some (X i).
  Proof. intro H. apply nth_error_nth'. lia. Qed.

  Lemma cand_diff x y m m' : Vsub (cand Ti x m) (cand Ti y m') = Mapp Ti (Vadd (Vsub x y) (VofZ (ZVadd m (ZVopp m')))).
  Proof.
    unfold cand. rewrite <- Mapp_sub. f_equal. rewrite VofZ_add.
    unfold ZVopp, VofZ, Vadd, Vsub; cbn [vx vy vz]. rewrite !opp_IZR. apply vec_ext; cbn [vx vy vz]; ring.
  Qed.
  Lemma same_site_iff t u : (fst t < N)%nat -> (fst u < N)%nat ->
    @same_site RNum (lattice s) ft (pt * @f2 RNum) (tag_pos t) (tag_pos u) = true <-> tkey t = tkey u.
  Proof.
    intros Ht Hu. destruct t as [i m], u as [j m']. cbn [fst] in *. unfold same_site, tag_pos, tkey. cbn [fst snd].
    rewrite fle_true. rewrite mvmul_R, magnitude_R, vsub_R, cand_diff. cbn [fabs fmul f2 fofZ RNum].
    rewrite (Rabs_pos_eq _ (Vnorm_nonneg _)).
    set (d := Vadd (Vsub (X i) (X j)) (VofZ (ZVadd m (ZVopp m')))).
    split.
    - intro H. destruct (normalize_vec_shift (Mapp Ti d) ft) as [n Hn]. numR. rewrite Hn in H.
      assert (E : Vadd (Mapp Ti d) (VofZ n) = Mapp Ti (Vadd (Vsub (X i) (X j)) (VofZ (ZVadd (ZVadd m (ZVopp m')) (ZMapp T n))))).
      { unfold d. rewrite (VofZ_add (ZVadd m _)), <- Vadd_assoc, (Mapp_add Ti _ (VofZ (ZMapp T n))), MofZ_app, inv_app
          by apply inverse_sym, inv_T. reflexivity. }
      rewrite E in H.
      destruct (Nat.eq_dec i j) as [Eij|Nij].
      2: { exfalso. pose proof (sep i j (X i) (X j) (ZVadd (ZVadd m (ZVopp m')) (ZMapp T n)) (X_nth i Ht) (X_nth j Hu) (or_introl Nij)). lra. }
      f_equal; auto. apply R4.
      destruct (vec_Z_dec (rp m) (rp m')) as [Er|Nr].
      + now apply R4.
      + exfalso. assert (Q : i <> j \/ ~ (exists k, ZVadd (ZVadd m (ZVopp m')) (ZMapp T n) = ZMapp T k)).
        { right. intros [k Hk]. apply Nr, R4. exists (ZVadd k (ZVopp n)). rewrite ZMapp_add, ZMapp_opp, <- Hk.
          unfold ZVadd, ZVopp; apply vec_ext; cbn [vx vy vz]; ring. }
        pose proof (sep i j (X i) (X j) _ (X_nth i Ht) (X_nth j Hu) Q). lra.
    - intro H. injection H as -> Er. apply R4 in Er. destruct Er as [n ->].
      assert (Ed : Mapp Ti d = VofZ n).
      { unfold d. replace (Vadd _ _) with (Mapp (MofZ T) (VofZ n)).
        - apply inv_app, inverse_sym, inv_T.
        - rewrite <- MofZ_app. unfold ZVadd, ZVopp, Vadd, Vsub, VofZ; cbn [vx vy vz].
          rewrite !plus_IZR, !opp_IZR. apply vec_ext; cbn [vx vy vz]; ring. }
      rewrite Ed.
      assert (Z0 : @normalize_vec RNum (VofZ n) ft = V0).
      { unfold normalize_vec, vmap2, VofZ; cbn [vx vy vz].
        pose proof (Hft 0). pose proof (Hft 1). pose proof (Hft 2). cbn [vnth] in *.
        numR. rewrite !normalize1_whole by assumption. reflexivity. }
      numR. rewrite Z0, Mapp_V0, Vnorm_V0. lra.
  Qed.

  Lemma step_tags tags i mult p : good tags -> (i < N)%nat ->
    exists tags', @at_vec_step RNum Ti (lattice s) ft pt mult (X i) (Sp i) (st_of tags)
                    (VofZ (V (fst (fst p)) (snd (fst p)) (snd p))) = st_of tags' /\
      good tags' /\ incl (map tkey tags) (map tkey tags') /\ In (tkey (i, zscale mult p)) (map tkey tags').
  Proof.
    intros [G1 G2] Hi. set (t := (i, zscale mult p)). unfold at_vec_step, st_of at 1. rewrite cand_step.
    change (cand Ti (X i) (zscale mult p)) with (tag_pos t).
    assert (EX : existsb (fun nc => @same_site RNum (lattice s) ft (pt * @f2 RNum)%F (tag_pos t) nc) (map tag_pos tags) = true
                 <-> In (tkey t) (map tkey tags)).
    { rewrite existsb_exists. split.
      - intros (y & Hy & Es). apply in_map_iff in Hy. destruct Hy as (u & <- & Hu).
        apply same_site_iff in Es; auto. rewrite Es. now apply in_map.
      - intro H. apply in_map_iff in H. destruct H as (u & Eu & Hu). exists (tag_pos u). split; [now apply in_map|].
        apply same_site_iff; auto. }
    cbn [num RNum fmul] in *.
    destruct (existsb _ _) eqn:E.
    - exists tags. split; [reflexivity|]. split; [split; auto|]. split; [apply incl_refl|]. now apply EX.
    - exists (tags ++ [t]). split; [|split; [split|split]].
      + unfold st_of. rewrite !map_app. reflexivity.
      + rewrite map_app. apply NoDup_app_intro; auto; [repeat constructor; auto|].
        intros y Hy [<-|[]]. apply EX in Hy. congruence.
      + intros u Hu. apply in_app_iff in Hu. destruct Hu as [Hu|[<-|[]]]; auto.
      + rewrite map_app. apply incl_appl, incl_refl.
      + rewrite map_app. apply in_app_iff. right. now left.
  Qed.
  Lemma site_tags tags i mult : good tags -> (i < N)%nat ->
    exists tags', @at_site_step RNum Ti (lattice s) ft pt mult (st_of tags) (X i, Sp i) = st_of tags' /\
      good tags' /\ incl (map tkey tags) (map tkey tags') /\
      forall p, In p (tri mult) -> In (tkey (i, zscale mult p)) (map tkey tags').
  Proof.
    intros G Hi. rewrite at_site_fold. cbn [fst snd]. revert tags G. induction (tri mult) as [|p l IH]; intros tags G; cbn [fold_left].
    - exists tags. split; [auto|]. split; [auto|]. split; [apply incl_refl|]. intros ? [].
    - destruct (step_tags tags i mult p G Hi) as (t1 & -> & G1 & I1 & K1).
      destruct (IH t1 G1) as (t2 & -> & G2 & I2 & K2). exists t2. split; [auto|]. split; [auto|].
      split; [eapply incl_tran; eauto|]. intros q [<-|Hq]; auto.
  Qed.
  Lemma combine_sites : combine (frac_coords s) (species s) = map (fun i => (X i, Sp i)) (seq 0 N).
  Proof.
    unfold X, Sp, N in *. revert Hl1. generalize (frac_coords s) as fc. generalize (species s) as sp. clear.
    intro sp. induction sp as [|a sp IH]; intros [|x fc]; cbn [List.length]; intro Hl; try discriminate; auto.
    cbn [combine seq map]. f_equal. rewrite <- seq_shift, map_map. cbn [nth]. apply IH. lia.
  Qed.
  Lemma pass_tags mult : forall l tags, good tags -> (forall i, In i l -> (i < N)%nat) ->
    exists tags', fold_left (@at_site_step RNum Ti (lattice s) ft pt mult) (map (fun i => (X i, Sp i)) l) (st_of tags) = st_of tags' /\
      good tags' /\ incl (map tkey tags) (map tkey tags') /\
      forall i p, In i l -> In p (tri mult) -> In (tkey (i, zscale mult p)) (map tkey tags').
  Proof.
    induction l as [|i l IH]; intros tags G Hl; cbn [map fold_left].
    - exists tags. split; [auto|]. split; [auto|]. split; [apply incl_refl|]. intros ? ? [].
    - destruct (site_tags tags i mult G) as (t1 & -> & G1 & I1 & K1); [apply Hl; now left|].
      destruct (IH t1 G1) as (t2 & -> & G2 & I2 & K2); [intros; apply Hl; now right|].
      exists t2. split; [auto|]. split; [auto|]. split; [eapply incl_tran; eauto|].
      intros j p [<-|Hj] Hp; auto.
  Qed.

  Definition all_keys := list_prod (seq 0 N) reps.
  Lemma all_keys_length : List.length all_keys = (N * Z.to_nat D)%nat.
  Proof. unfold all_keys. rewrite prod_length, seq_length, R2. reflexivity. Qed.
  Lemma all_keys_NoDup : NoDup all_keys.
  Proof. apply NoDup_list_prod; auto. apply seq_NoDup. Qed.
  Lemma good_incl tags : good tags -> incl (map tkey tags) all_keys.
  Proof.
    intros [_ G] k Hk. apply in_map_iff in Hk. destruct Hk as ([i m] & <- & Ht). apply in_prod_iff.
    split; [|apply R3]. apply in_seq. specialize (G _ Ht). cbn in *. lia.
  Qed.
  Lemma good_length tags : good tags -> (List.length tags <= N * Z.to_nat D)%nat.
  Proof.
    intro G. rewrite <- all_keys_length, <- (map_length tkey). apply NoDup_incl_length; [apply G|now apply good_incl].
  Qed.
  Definition complete (tags : list (nat * vec Z)) : Prop := incl all_keys (map tkey tags).
  Lemma complete_length tags : complete tags -> (N * Z.to_nat D <= List.length tags)%nat.
  Proof.
    intro C. rewrite <- all_keys_length, <- (map_length tkey tags). apply NoDup_incl_length; [apply all_keys_NoDup|exact C].
  Qed.
  Lemma length_complete tags : good tags -> List.length tags = (N * Z.to_nat D)%nat -> complete tags.
  Proof.
    intros G E. unfold complete. apply NoDup_length_incl; [apply G| |now apply good_incl].
    rewrite all_keys_length, map_length, E. lia.
  Qed.
  (** the pass with mult = D + 1 reaches every class *)
  Lemma pass_complete tags : good tags ->
    exists tags', fold_left (@at_site_step RNum Ti (lattice s) ft pt (Z.to_nat (D + 1))) (combine (frac_coords s) (species s)) (st_of tags) = st_of tags' /\
      good tags' /\ complete tags'.
  Proof.
    intro G. rewrite combine_sites.
    destruct (pass_tags (Z.to_nat (D + 1)) (seq 0 N) tags G) as (t & E & G' & _ & K).
    { intros i Hi. apply in_seq in Hi. lia. }
    exists t. split; [exact E|]. split; [exact G'|]. intros [i r] Hk. apply in_prod_iff in Hk. destruct Hk as [Hi Hr].
    pose proof (R6 r Hr) as B.
    specialize (K i (vx r, vy r, vz r) Hi). rewrite tri_In in K.
    assert (DP : (0 < D)%Z) by (unfold D; lia).
    unfold tkey in K at 1. cbn [fst snd] in K. unfold zscale in K. cbn [fst snd] in K.
    rewrite Z2Nat.id in K by lia.
    replace (rp (ZVscal (D + 1) (V (vx r) (vy r) (vz r)))) with r in K.
    - apply K. lia.
    - rewrite <- (R5 r Hr) at 1. apply R4. apply zequiv_sym. destruct r. apply mult_det_succ.
  Qed.

  Lemma ratio_stop tags : (List.length tags = N * Z.to_nat D)%nat ->
    @ratio_lt RNum (List.length (fst (st_of tags))) (IZR (Z.of_nat N)) (IZR D) = false.
  Proof.
    intro E. unfold st_of; cbn [fst]. rewrite map_length, E.
    destruct (Nat.eq_dec N 0) as [Z|Z].
    - rewrite Z. unfold ratio_lt. replace (@feq RNum _ _) with true; [reflexivity|].
      symmetry. apply feq_true. reflexivity.
    - apply not_true_iff_false. rewrite ratio_lt_true_iff by lia.
      rewrite mult_INR, (INR_IZR_INZ (Z.to_nat D)), Z2Nat.id by (unfold D; lia). lra.
  Qed.
  Lemma ratio_go tags : (List.length tags < N * Z.to_nat D)%nat ->
    @ratio_lt RNum (List.length (fst (st_of tags))) (IZR (Z.of_nat N)) (IZR D) = true.
  Proof.
    intro E. unfold st_of; cbn [fst]. rewrite map_length. apply ratio_lt_true_iff; [lia|].
    apply lt_INR in E. rewrite mult_INR, (INR_IZR_INZ (Z.to_nat D)), Z2Nat.id in E by (unfold D; lia). lra.
  Qed.

  Lemma search_complete fuel : forall mult tags, good tags ->
    ((Z.to_nat D + 2 <= mult)%nat -> complete tags) -> (Z.to_nat D + 2 <= fuel + mult)%nat -> (2 <= mult)%nat ->
    exists tags', @at_search RNum fuel Ti s ft pt (IZR D) mult (st_of tags) = Ok (st_of tags') /\
      good tags' /\ List.length tags' = (N * Z.to_nat D)%nat.
  Proof.
    induction fuel as [|fuel IH]; intros mult tags G C Hf Hm; cbn [at_search];
      rewrite Hl2; cbn [fofZ RNum].
    - assert (E : List.length tags = (N * Z.to_nat D)%nat).
      { apply Nat.le_antisymm; [now apply good_length|]. apply complete_length, C. lia. }
      rewrite ratio_stop by exact E. eauto.
    - destruct (Nat.eq_dec (List.length tags) (N * Z.to_nat D)) as [E|E].
      + rewrite ratio_stop by exact E. eauto.
      + pose proof (good_length tags G). rewrite ratio_go by lia.
        destruct (Nat.eq_dec mult (Z.to_nat D + 1)) as [Em|Em].
        * destruct (pass_complete tags G) as (t & Et & Gt & Ct).
          assert (Em' : mult = Z.to_nat (D + 1)) by lia. clear Em. subst mult.
          numR. rewrite Et. apply IH; auto; lia.
        * rewrite combine_sites.
          destruct (pass_tags mult (seq 0 N) tags G) as (t & Et & Gt & It & _).
          { intros i Hi. apply in_seq in Hi. lia. }
          numR. rewrite Et. apply IH; auto; try lia. intro Hge. intros k Hk. apply It. apply C; auto. lia.
  Qed.

  Lemma apply_complete fuel : (Z.to_nat D <= fuel)%nat ->
    exists s', @apply_transformation RNum fuel s (MofZ T) pt = Ok s' /\
      lattice s' = Mmul (lattice s) (MofZ T) /\
      List.length (species s') = (N * Z.to_nat D)%nat /\
      List.length (frac_coords s') = (N * Z.to_nat D)%nat /\
      coords s' = map (Mapp (lattice s')) (frac_coords s') /\
      forall i e x m, nth_error (species s) i = Some e -> nth_error (frac_coords s) i = Some x ->
        exists k y n, nth_error (species s') k = Some e /\ nth_error (frac_coords s') k = Some y /\
          Mapp (MofZ T) y = Vadd (Vadd x (VofZ m)) (Mapp (MofZ T) (VofZ n)).
  Proof.
    intro Hf. rewrite apply_transformation_unfold by (rewrite MofZ_det; intro E; apply HD; now apply eq_IZR in E).
    rewrite volume_ratio_int. fold D Ti ft.
    destruct (search_complete fuel 2 []) as (tags & E & G & HL).
    { split; [constructor|intros ? []]. }
    { intro. exfalso. assert (0 < D)%Z by (unfold D; lia). lia. }
    { lia. }
    { lia. }
    change (st_of []) with (@nil (vec R), @nil string) in E. cbn [num RNum] in *. rewrite E. unfold st_of. cbn [bind].
    set (s0 := Structure (N := RNum) _ _ _ _). exists (@normalize_coords RNum s0 pt). split; [reflexivity|].
    pose proof (normalize_coords_spec s0 pt) as Nn. cbv zeta in Nn. destruct Nn as (N1 & N2 & N3 & _ & N5 & _).
    cbn [species frac_coords s0] in N3. rewrite !map_length, Nat.min_id, HL in N3.
    split; [exact N1|]. split; [exact N3|]. split; [exact (eq_trans (eq_sym N2) N3)|]. split; [rewrite N1; exact N5|].
    intros i e x m He Hx.
    assert (Hi : (i < N)%nat) by (apply nth_error_Some; congruence).
    assert (K : In (i, rp m) (map tkey tags)).
    { apply (length_complete tags G HL). apply in_prod_iff. split; [apply in_seq; lia|apply R3]. }
    apply in_map_iff in K. destruct K as ([j m'] & Ek & Ht). unfold tkey in Ek. cbn [fst snd] in Ek.
    injection Ek as -> Er. apply R4 in Er. destruct Er as [n Hn].
    destruct (normalize_sites_all s0 pt e (tag_pos (i, m'))) as (k & y & n' & Hk & Hy & Ey).
    { cbn [species frac_coords s0]. clear - Ht He.
      assert (Es : e = Sp (fst (i, m'))) by (cbn [fst]; unfold Sp; symmetry; now apply nth_error_nth).
      rewrite Es. revert Ht. induction tags as [|t tags IH]; cbn [map combine]; [intros []|].
      intros [->|H]; [now left|right; auto]. }
    exists k, y, (ZVadd n n'). split; [exact Hk|]. split; [exact Hy|].
    rewrite Ey, Mapp_add. unfold tag_pos, cand. cbn [fst snd]. rewrite inv_app by apply inv_T.
    assert (Xi : X i = x) by (unfold X; now apply nth_error_nth). rewrite Xi, Hn, !VofZ_add, MofZ_app, Mapp_add.
    rewrite !Vadd_assoc. reflexivity.
  Qed.
End Super.
