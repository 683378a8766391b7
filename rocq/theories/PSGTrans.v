(** SpaceGroup::apply_transformation with an integer matrix of any non-zero determinant (spacegroup.rs 38-133) *)
From Coq Require Import ZArith Reals String List Bool Lia Lra Psatz Permutation.
From Flocq Require Import Core.Raux.
From Verif Require Import Num Mat Utils SymmOp SpaceGroup RInst FInst Spec Spec4 RFacts PUtils PSymmOp PPointGroup2 PSpaceGroup PSpaceGroup2 PStructure PCoset PStructure2 PStructure3.
Import ListNotations.
Open Scope R_scope.

Section Super.
  Variables (T : mat Z) (tols : vec R) (ops : list (@symmop RNum)) (cr : nat -> mat Z).
  Let N := List.length ops.
  Let Ti := Madj_inv (MofZ T).
  Let D := Z.abs (ZMdet T).
  Let O (i : nat) : @symmop RNum := nth i ops (SymmOp (N := RNum) ZMid V0).
  Hypothesis (HD : ZMdet T <> 0%Z) (Ht : tols_ok tols).
  Hypothesis HC : forall i, (i < N)%nat -> ZMmul T (cr i) = ZMmul (rotation (O i)) T.
  Hypothesis HR : forall i, (i < N)%nat -> i8_range (cr i).
  Hypothesis HU : forall i, (i < N)%nat -> has_unit_entry (cr i) = true.
  Hypothesis sep : forall i j m, (i < N)%nat -> (j < N)%nat -> rotation (O i) = rotation (O j) ->
    i <> j \/ ~ (exists n, m = ZMapp T n) ->
    ~ near3 tols (Mapp Ti (Vadd (translation (O i)) (VofZ m))) (Mapp Ti (translation (O j))).
  Variables (reps : list (vec Z)) (rp : vec Z -> vec Z).
  Hypothesis (R1 : NoDup reps) (R2 : List.length reps = Z.to_nat D) (R3 : forall v, In (rp v) reps).
  Hypothesis (R4 : forall a b, zequiv T a b <-> rp a = rp b) (R5 : forall r, In r reps -> rp r = r).
  Hypothesis R6 : forall r, In r reps -> (0 <= vx r < D /\ 0 <= vy r < D /\ 0 <= vz r < D)%Z.

  Lemma s_inv : inverse_of (MofZ T) Ti.
  Proof. apply Madj_inverse. rewrite MofZ_det. intro E. apply HD. now apply eq_IZR in E. Qed.
  Lemma s_conj i : (i < N)%nat -> @mmul RNum (@mmul RNum Ti (@mcast RNum (rotation (O i)))) (MofZ T) = MofZ (cr i).
  Proof.
    intro Hi. change (Mmul (Mmul Ti (MofZ (rotation (O i)))) (MofZ T) = MofZ (cr i)).
    rewrite Mmul_assoc, <- MofZ_mul, <- (HC i Hi), MofZ_mul, <- Mmul_assoc, (proj2 s_inv). apply Mmul_id_l.
  Qed.
  Lemma cr_inj i j : (i < N)%nat -> (j < N)%nat -> cr i = cr j -> rotation (O i) = rotation (O j).
  Proof.
    intros Hi Hj E. pose proof (HC i Hi) as A. rewrite E, (HC j Hj) in A. apply MofZ_inj.
    apply (f_equal MofZ) in A. rewrite !MofZ_mul in A.
    rewrite <- (Mmul_id_r (MofZ (rotation (O i)))), <- (Mmul_id_r (MofZ (rotation (O j)))), <- (proj1 s_inv), <- !Mmul_assoc, A. reflexivity.
  Qed.

  (** the candidate for operation i and lattice vector m, and what is stored for it *)
  Definition c_tr (t : nat * vec Z) : vec R := @normalize_vec RNum (@mvmul RNum Ti (@vadd RNum (translation (O (fst t))) (VofZ (snd t)))) tols.
  Definition t_op (t : nat * vec Z) : @symmop RNum := SymmOp (N := RNum) (cr (fst t)) (@normalize_vec RNum (c_tr t) tols).
  Definition skey (t : nat * vec Z) : nat * vec Z := (fst t, rp (snd t)).
  Definition sgood (tags : list (nat * vec Z)) : Prop :=
    NoDup (map skey tags) /\ forall t, In t tags -> (fst t < N)%nat.
  Lemma c_tr_congr t : Vcongr (c_tr t) (Mapp Ti (Vadd (translation (O (fst t))) (VofZ (snd t)))).
  Proof. unfold c_tr. eapply Vcongr_trans; [apply normalize_vec_congr|]. rewrite mvmul_R, vadd_R. apply Vcongr_refl. Qed.
  Lemma t_op_congr t : Vcongr (translation (t_op t)) (Mapp Ti (Vadd (translation (O (fst t))) (VofZ (snd t)))).
  Proof. unfold t_op. cbn [translation]. eapply Vcongr_trans; [apply normalize_vec_congr|apply c_tr_congr]. Qed.

  Lemma move_cand x m k : Vcongr (Mapp Ti (Vadd x (VofZ (ZVadd m (ZMapp T k))))) (Mapp Ti (Vadd x (VofZ m))).
  Proof. exists k. rewrite VofZ_add, <- Vadd_assoc, Mapp_add, MofZ_app, inv_app by apply inverse_sym, s_inv. reflexivity. Qed.
  (** translating both sides by the same vector *)
  Lemma near3_translate a b v : near3 tols (Vadd a v) (Vadd b v) <-> near3 tols a b.
  Proof.
    unfold near3, near1. cbn [vx vy vz Vadd]. 
    assert (E : forall p q r : R, p + r - (q + r) = p - q) by (intros; ring). rewrite !E. reflexivity.
  Qed.
  Lemma near_iff t u : (fst t < N)%nat -> (fst u < N)%nat -> cr (fst t) = cr (fst u) ->
    (near3 tols (c_tr t) (translation (t_op u)) <-> skey t = skey u).
  Proof.
    intros Hi Hj Ec. destruct t as [i m], u as [j m']. cbn [fst] in *. pose proof (cr_inj i j Hi Hj Ec) as Er.
    assert (Q : near3 tols (c_tr (i, m)) (translation (t_op (j, m'))) <->
      near3 tols (Mapp Ti (Vadd (translation (O i)) (VofZ (ZVadd m (ZVopp m'))))) (Mapp Ti (translation (O j)))).
    { transitivity (near3 tols (Mapp Ti (Vadd (translation (O i)) (VofZ m))) (Mapp Ti (Vadd (translation (O j)) (VofZ m')))).
      - pose proof (c_tr_congr (i, m)) as A. pose proof (t_op_congr (j, m')) as B. split; apply near3_congr; auto using Vcongr_sym.
      - rewrite (Mapp_add Ti (translation (O j))).
        replace (Mapp Ti (Vadd (translation (O i)) (VofZ m))) with
          (Vadd (Mapp Ti (Vadd (translation (O i)) (VofZ (ZVadd m (ZVopp m'))))) (Mapp Ti (VofZ m'))); [apply near3_translate|].
        rewrite <- Mapp_add. f_equal. unfold Vadd, ZVadd, ZVopp, VofZ. apply vec_ext; cbn [vx vy vz]; rewrite ?plus_IZR, ?opp_IZR; ring. }
    rewrite Q. unfold skey. cbn [fst snd]. split.
    - intro H. destruct (Nat.eq_dec i j) as [Eij|Nij]; [|exfalso; exact (sep i j _ Hi Hj Er (or_introl Nij) H)].
      f_equal; [exact Eij|]. destruct (vec_Z_dec (rp m) (rp m')) as [E|NE]; [exact E|]. exfalso.
      refine (sep i j _ Hi Hj Er (or_intror _) H). intros [n En]. apply NE, R4. exists n.
      rewrite <- En. unfold ZVadd, ZVopp; apply vec_ext; cbn [vx vy vz]; ring.
    - intro E. injection E as -> E. apply R4 in E. destruct E as [n ->].
      replace (ZVadd (ZVadd m' (ZMapp T n)) (ZVopp m')) with (ZVadd (V 0 0 0)%Z (ZMapp T n))
        by (unfold ZVadd, ZVopp; apply vec_ext; cbn [vx vy vz]; ring).
      eapply near3_congr; [apply Vcongr_sym; apply (move_cand _ (V 0 0 0)%Z n)|apply Vcongr_refl|].
      rewrite VofZ_0, Vadd_0_r. now apply near3_refl.
  Qed.

  Definition state (found : list (mat Z * list (vec R))) (tags : list (nat * vec Z)) : Prop :=
    found_ok found (map t_op tags).
  Lemma step_tag found tags i p : state found tags -> sgood tags -> (i < N)%nat ->
    exists found' tags',
      @sg_vec_step RNum Ti tols (O i) (cr i) (found, map t_op tags) (VofZ p) = (found', map t_op tags') /\
      state found' tags' /\ sgood tags' /\ incl (map skey tags) (map skey tags') /\ In (skey (i, p)) (map skey tags').
  Proof.
    intros St [G1 G2] Hi. set (t := (i, p)). unfold sg_vec_step.
    change (@normalize_vec RNum (@mvmul RNum Ti (@vadd RNum (translation (O i)) (VofZ p))) tols) with (c_tr t).
    assert (EX : existsb (fun f => @within_tols RNum (@normalize_vec RNum (@vsub RNum (c_tr t) f) tols) tols) (@found_get RNum (cr i) found) = true
                 <-> In (skey t) (map skey tags)).
    { rewrite existsb_exists. split.
      - intros (y & Hy & Es). apply St in Hy. destruct Hy as (o & Ho & Ero & <-). apply in_map_iff in Ho. destruct Ho as (u & <- & Hu).
        apply within_near in Es; [|exact Ht]. apply (near_iff t u Hi (G2 u Hu)) in Es; [rewrite Es; now apply in_map|]. symmetry. exact Ero.
      - intro H. apply in_map_iff in H. destruct H as (u & Eu & Hu). exists (translation (t_op u)).
        assert (Ei : cr (fst u) = cr i) by (unfold skey in Eu; injection Eu as -> _; reflexivity).
        split; [apply St; exists (t_op u); split; [now apply in_map|auto]|].
        apply within_near; [exact Ht|]. apply near_iff; auto. }
    cbn [num RNum] in *. destruct (existsb _ _) eqn:E.
    - exists found, tags. split; [reflexivity|]. split; [exact St|]. split; [split; auto|]. split; [apply incl_refl|]. now apply EX.
    - exists (am_insert zmat_eqb (cr i) (@found_get RNum (cr i) found ++ [@normalize_vec RNum (c_tr t) tols]) found), (tags ++ [t]).
      split; [rewrite map_app; reflexivity|]. split; [|split; [split|split]].
      + intros r' x. rewrite map_app. cbn [map]. destruct (mat_Z_eq_dec r' (cr i)) as [->|Hne].
        * unfold found_get at 1. rewrite am_get_insert_same, in_app_iff, (St (cr i) x). split.
          -- intros [(o & Io & Ero & Et)|[<-|[]]]; [exists o; rewrite in_app_iff; auto|].
             exists (t_op t). rewrite in_app_iff. split; [right; now left|]. auto.
          -- intros (o & Io & Ero & Et). apply in_app_or in Io. destruct Io as [Io|[<-|[]]]; [left; exists o; auto|].
             right. left. exact Et.
        * unfold found_get at 1. rewrite am_get_insert_other by auto. fold (@found_get RNum r' found). rewrite (St r' x). split.
          -- intros (o & Io & Ero & Et). exists o. rewrite in_app_iff. auto.
          -- intros (o & Io & Ero & Et). apply in_app_or in Io. destruct Io as [Io|[<-|[]]]; [exists o; auto|].
             cbn in Ero. congruence.
      + rewrite map_app. apply NoDup_app_intro; auto; [repeat constructor; auto|].
        intros y Hy [<-|[]]. apply EX in Hy. congruence.
      + intros u Hu. apply in_app_iff in Hu. destruct Hu as [Hu|[<-|[]]]; auto.
      + rewrite map_app. apply incl_appl, incl_refl.
      + rewrite map_app. apply in_app_iff. right. now left.
  Qed.
  Definition zvec (p : Z * Z * Z) : vec Z := V (fst (fst p)) (snd (fst p)) (snd p).
  Lemma op_tags found tags i mult n0 : state found tags -> sgood tags -> (i < N)%nat ->
    exists found' tags',
      @sg_op_step RNum Ti (MofZ T) tols (@unit_translations RNum mult) (n0, (found, map t_op tags)) (O i) = (n0, (found', map t_op tags')) /\
      state found' tags' /\ sgood tags' /\ incl (map skey tags) (map skey tags') /\
      forall p, In p (tri mult) -> In (skey (i, zvec p)) (map skey tags').
  Proof.
    intros St G Hi. unfold sg_op_step. cbv zeta. rewrite (s_conj i Hi), keeps_unit, (HU i Hi), mround_i8_MofZ by (now apply HR).
    rewrite unit_translations_tri.
    assert (Q : exists found' tags',
      fold_left (@sg_vec_step RNum Ti tols (O i) (cr i)) (map (fun p => VofZ (zvec p)) (tri mult)) (found, map t_op tags) = (found', map t_op tags') /\
      state found' tags' /\ sgood tags' /\ incl (map skey tags) (map skey tags') /\
      forall p, In p (tri mult) -> In (skey (i, zvec p)) (map skey tags')).
    { revert found tags St G. induction (tri mult) as [|p l IH]; intros found tags St G; cbn [fold_left map].
      - exists found, tags. split; [auto|]. split; [auto|]. split; [auto|]. split; [apply incl_refl|]. intros ? [].
      - destruct (step_tag found tags i (zvec p) St G Hi) as (f1 & t1 & E1 & S1 & G1 & I1 & K1). numR. rewrite E1.
        destruct (IH f1 t1 S1 G1) as (f2 & t2 & E2 & S2 & G2 & I2 & K2). rewrite E2. exists f2, t2. split; [auto|]. split; [auto|]. split; [auto|].
        split; [eapply incl_tran; eauto|]. intros q [<-|Hq]; auto. }
    destruct Q as (f & t & E & Q). exists f, t. split; [|exact Q]. f_equal. exact E.
  Qed.
  Lemma ops_seq : ops = map O (seq 0 N).
  Proof.
    unfold N, O. generalize (SymmOp (N := RNum) ZMid V0) as d. clear. intro d. induction ops as [|a l IH]; [reflexivity|].
    cbn [List.length seq map nth]. f_equal. rewrite <- seq_shift, map_map. exact IH.
  Qed.
  Lemma pass_ops mult n0 : forall l found tags, state found tags -> sgood tags -> (forall i, In i l -> (i < N)%nat) ->
    exists found' tags',
      fold_left (@sg_op_step RNum Ti (MofZ T) tols (@unit_translations RNum mult)) (map O l) (n0, (found, map t_op tags)) = (n0, (found', map t_op tags')) /\
      state found' tags' /\ sgood tags' /\ incl (map skey tags) (map skey tags') /\
      forall i p, In i l -> In p (tri mult) -> In (skey (i, zvec p)) (map skey tags').
  Proof.
    induction l as [|i l IH]; intros found tags St G Hl; cbn [map fold_left].
    - exists found, tags. split; [auto|]. split; [auto|]. split; [auto|]. split; [apply incl_refl|]. intros ? ? [].
    - destruct (op_tags found tags i mult n0 St G) as (f1 & t1 & E1 & S1 & G1 & I1 & K1); [apply Hl; now left|].
      numR. rewrite E1. destruct (IH f1 t1 S1 G1) as (f2 & t2 & E2 & S2 & G2 & I2 & K2); [intros; apply Hl; now right|].
      rewrite E2. exists f2, t2. split; [auto|]. split; [auto|]. split; [auto|]. split; [eapply incl_tran; eauto|].
      intros j p [<-|Hj] Hp; auto.
  Qed.
  Definition skeys := list_prod (seq 0 N) reps.
  Lemma skeys_length : List.length skeys = (N * Z.to_nat D)%nat.
  Proof. unfold skeys. rewrite prod_length, seq_length, R2. reflexivity. Qed.
  Lemma sgood_incl tags : sgood tags -> incl (map skey tags) skeys.
  Proof.
    intros [_ G] k Hk. apply in_map_iff in Hk. destruct Hk as ([i m] & <- & Hin). apply in_prod_iff.
    split; [|apply R3]. apply in_seq. specialize (G _ Hin). cbn in *. lia.
  Qed.
  Lemma sgood_length tags : sgood tags -> (List.length tags <= N * Z.to_nat D)%nat.
  Proof. intro G. rewrite <- skeys_length, <- (map_length skey). apply NoDup_incl_length; [apply G|now apply sgood_incl]. Qed.
  Lemma scomplete_length tags : incl skeys (map skey tags) -> (N * Z.to_nat D <= List.length tags)%nat.
  Proof.
    intro C. rewrite <- skeys_length, <- (map_length skey tags). apply NoDup_incl_length; [|exact C].
    apply NoDup_list_prod; auto. apply seq_NoDup.
  Qed.
  Lemma slength_complete tags : sgood tags -> List.length tags = (N * Z.to_nat D)%nat -> incl skeys (map skey tags).
  Proof.
    intros G E. apply NoDup_length_incl; [apply G| |now apply sgood_incl]. rewrite skeys_length, map_length, E. lia.
  Qed.
  Lemma pass_all mult n0 found tags : (Z.to_nat D <= mult)%nat -> state found tags -> sgood tags ->
    exists found' tags',
      fold_left (@sg_op_step RNum Ti (MofZ T) tols (@unit_translations RNum mult)) ops (n0, (found, map t_op tags)) = (n0, (found', map t_op tags')) /\
      state found' tags' /\ sgood tags' /\ incl skeys (map skey tags').
  Proof.
    intros Hm St G. destruct (pass_ops mult n0 (seq 0 N) found tags St G) as (f & t & E & S' & G' & _ & K).
    { intros i Hi. apply in_seq in Hi. lia. }
    rewrite <- ops_seq in E. exists f, t. split; [exact E|]. split; [exact S'|]. split; [exact G'|].
    intros [i r] Hk. apply in_prod_iff in Hk. destruct Hk as [Hi Hr]. pose proof (R6 r Hr) as B.
    specialize (K i (vx r, vy r, vz r) Hi). rewrite tri_In in K. unfold skey in K at 1. cbn [fst snd zvec] in K.
    unfold zvec in K. cbn [fst snd] in K. replace (V (vx r) (vy r) (vz r)) with r in K by (destruct r; reflexivity).
    rewrite (R5 r Hr) in K. apply K. lia.
  Qed.
  Lemma s_stop (k : nat) : (k = N * Z.to_nat D)%nat -> @ratio_lt RNum k (IZR (Z.of_nat N)) (IZR D) = false.
  Proof.
    intros ->. destruct (Nat.eq_dec N 0) as [Q|Q].
    - rewrite Q. unfold ratio_lt. replace (@feq RNum _ _) with true; [reflexivity|]. symmetry. apply feq_true. reflexivity.
    - apply not_true_iff_false. rewrite ratio_lt_true_iff by lia.
      rewrite mult_INR, (INR_IZR_INZ (Z.to_nat D)), Z2Nat.id by (unfold D; lia). lra.
  Qed.
  Lemma s_go (k : nat) : (k < N * Z.to_nat D)%nat -> @ratio_lt RNum k (IZR (Z.of_nat N)) (IZR D) = true.
  Proof.
    intro E. apply ratio_lt_true_iff; [lia|].
    apply lt_INR in E. rewrite mult_INR, (INR_IZR_INZ (Z.to_nat D)), Z2Nat.id in E by (unfold D; lia). lra.
  Qed.
  Lemma s_search fuel : forall mult found tags, state found tags -> sgood tags ->
    ((Z.to_nat D < mult)%nat -> (2 < mult)%nat -> incl skeys (map skey tags)) -> (Z.to_nat D < fuel + mult)%nat -> (2 < fuel + mult)%nat -> (2 <= mult)%nat ->
    exists tags', @sg_search RNum fuel Ti (MofZ T) tols (IZR D) ops mult (IZR (Z.of_nat N), (found, map t_op tags)) = Ok (map t_op tags') /\
      sgood tags' /\ List.length tags' = (N * Z.to_nat D)%nat.
  Proof.
    induction fuel as [|fuel IH]; intros mult found tags St G C Hf Hf2 Hm; cbn [sg_search].
    - assert (E : List.length tags = (N * Z.to_nat D)%nat).
      { apply Nat.le_antisymm; [now apply sgood_length|]. apply scomplete_length, C; lia. }
      rewrite map_length, s_stop by exact E. eauto.
    - rewrite map_length. destruct (Nat.eq_dec (List.length tags) (N * Z.to_nat D)) as [E|E].
      + rewrite s_stop by exact E. eauto.
      + pose proof (sgood_length tags G). rewrite s_go by lia.
        destruct (le_lt_dec (Z.to_nat D) mult) as [Em|Em].
        * destruct (pass_all mult (IZR (Z.of_nat N)) found tags Em St G) as (f & t & Et & S' & Gt & Ct).
          numR. rewrite Et. apply IH; auto; lia.
        * destruct (pass_ops mult (IZR (Z.of_nat N)) (seq 0 N) found tags St G) as (f & t & Et & S' & Gt & It & _).
          { intros i Hi. apply in_seq in Hi. lia. }
          rewrite <- ops_seq in Et. numR. rewrite Et. apply IH; auto; lia.
  Qed.
  Lemma sg_apply_complete fuel : (Z.to_nat D <= fuel)%nat ->
    exists tags, @sg_apply_transformation RNum fuel ops (MofZ T) tols = Ok (map t_op tags) /\ sgood tags /\ List.length tags = (N * Z.to_nat D)%nat /\
      incl skeys (map skey tags).
  Proof.
    intro Hf. unfold sg_apply_transformation.
    assert (D0 : Mdet (MofZ T) <> 0) by (rewrite MofZ_det; intro E; apply HD; now apply eq_IZR in E).
    rewrite (try_inverse_R _ D0), volume_ratio_int. fold D Ti N.
    destruct (s_search fuel 2 [] []) as (tags & E & G & HL).
    { intros r t. cbn. split; [tauto|]. intros (o & [] & _). }
    { split; [constructor|intros ? []]. }
    { intros. lia. }
    { assert (0 < D)%Z by (unfold D; lia). lia. }
    { assert (0 < D)%Z by (unfold D; lia). lia. }
    { lia. }
    exists tags. split; [exact E|]. split; [exact G|]. split; [exact HL|]. now apply slength_complete.
  Qed.
  Lemma t_op_moved i m m' : (i < N)%nat -> zequiv T m' m -> moved_operation T (rotation (O i)) (translation (O i)) m (rotation (t_op (i, m'))) (translation (t_op (i, m'))).
  Proof using HD HC.
    intros Hi [k Ek]. destruct (t_op_congr (i, m')) as [n En]. cbn [fst snd] in En. exists (ZVadd k n). intro x.
    unfold act. rewrite En. cbn [rotation t_op fst]. rewrite !(Mapp_add (MofZ T) (Mapp _ _)), (inv_app (MofZ T) Ti _ s_inv).
    rewrite <- !Mapp_Mmul, <- !MofZ_mul, (HC i Hi), Ek, !VofZ_add, MofZ_app, Mapp_add. rewrite !Vadd_assoc. reflexivity.
  Qed.
  Lemma t_op_range t c : - vnth tols c <= vnth (translation (t_op t)) c <= 1 - vnth tols c.
  Proof using Ht.
    unfold t_op. cbn [translation]. rewrite normalize_vec_vnth_R. apply normalize1_range.
    destruct Ht as (T1 & T2 & T3). destruct c as [|[|c]]; cbn; lra.
  Qed.
End Super.

(** a conjugate for every operation, by position *)
Lemma conj_choice (T : mat Z) (ops : list (@symmop RNum)) :
  (forall op, In op ops -> exists r, ZMmul T r = ZMmul (rotation op) T /\ i8_range r /\ has_unit_entry r = true) ->
  exists cr : nat -> mat Z,
    (forall i, (i < List.length ops)%nat -> ZMmul T (cr i) = ZMmul (rotation (nth i ops (SymmOp (N := RNum) ZMid V0))) T) /\
    (forall i, (i < List.length ops)%nat -> i8_range (cr i)) /\ (forall i, (i < List.length ops)%nat -> has_unit_entry (cr i) = true).
Proof.
  induction ops as [|a l IH]; intro H.
  - exists (fun _ => ZMid). repeat split; intros; cbn in *; lia.
  - destruct IH as (cr & A & B & C); [intros op Ho; apply H; now right|]. destruct (H a (or_introl eq_refl)) as (r & H1 & H2 & H3).
    exists (fun i => match i with 0%nat => r | S j => cr j end). split; [|split]; intros [|i] Hi; cbn [nth List.length] in *; auto;
    first [apply A | apply B | apply C]; lia.
Qed.
(** more fuel does not change an answer *)
Lemma sg_search_fuel {N : Num} inv t tols ratio ops fuel : forall fuel' mult st, (fuel <= fuel')%nat ->
  sg_search fuel inv t tols ratio ops mult st <> OutOfFuel -> sg_search fuel' inv t tols ratio ops mult st = sg_search fuel inv t tols ratio ops mult st.
Proof.
  induction fuel as [|fuel IH]; intros [|fuel'] mult [n0 [found new]] Hf Hn; cbn [sg_search] in *; try reflexivity; try lia.
  - destruct (ratio_lt _ _ _); [congruence|reflexivity].
  - destruct (ratio_lt _ _ _); [|reflexivity]. apply IH; [lia|exact Hn].
Qed.
Lemma sg_apply_fuel (L : Libm) fuel fuel' ops t tols : (fuel <= fuel')%nat ->
  @sg_apply_transformation (@FNum L) fuel ops t tols <> OutOfFuel ->
  @sg_apply_transformation (@FNum L) fuel' ops t tols = @sg_apply_transformation (@FNum L) fuel ops t tols.
Proof.
  intros Hf. unfold sg_apply_transformation. destruct (try_inverse t); [|reflexivity]. intro Hn. now apply sg_search_fuel.
Qed.
