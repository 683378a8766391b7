(** The stages of the run for a centred lattice: the conventional cell and its primitive cell (structure.rs 141-205, analyzer.rs 286-360) *)
From Coq Require Import ZArith Reals String Ascii List Bool Lia Lra Psatz Permutation Sorting.Sorted.
From Verif Require Import Num Mat Utils DataCore DataPG DataSG SymmOp PointGroup SpaceGroup Structure Reduce Analyzer RInst Spec Spec2 Spec3 Spec5 Spec6 RFacts
  PUtils PSymmOp PStructure PStructure2 PStructure3 PNiggli PDelaunay PPrim PPrim2 PLattice PAnalyzer PAnalyzer2 PPointGroup PPointGroup2 PSpaceGroup PSpaceGroup2 PCode PTables PIdentify
  PSearch PSearch3 PSearch4 PSearch6 PSearch7 PEnd PEnd2 PEnd3 PEnd4 PEnd11 PEnd12 PEnd13 PEnd14 PEnd15 Prop5 PRun PRun2.
Import ListNotations.
Open Scope R_scope.

Lemma Forall2_in_l {A B} (Q : A -> B -> Prop) l m a : Forall2 Q l m -> In a l -> exists b, In b m /\ Q a b.
Proof. intro F. induction F as [|x y l m H F IH]; intros I; [destruct I|]. destruct I as [->|I]; [exists y; split; [now left|exact H]|]. destruct (IH I) as (b & Hb & K). exists b. split; [now right|exact K]. Qed.
Lemma Forall2_in_r {A B} (Q : A -> B -> Prop) l m b : Forall2 Q l m -> In b m -> exists a, In a l /\ Q a b.
Proof. intro F. induction F as [|x y l m H F IH]; intros I; [destruct I|]. destruct I as [->|I]; [exists x; split; [now left|exact H]|]. destruct (IH I) as (a & Ha & K). exists a. split; [now right|exact K]. Qed.

(** ** Back to the primitive cell: sites that are periods of each other are merged, others are kept *)
Section Back.
  Context (dtol : R) (L : mat R) (ft : vec R) (Pi : mat R) (S : list site) (g gi : mat Z).
  Hypothesis (Hft : forall k, 0 <= vnth ft k <= 1) (H0 : 0 < dtol) (HG : ZMmul g gi = ZMid).
  Hypothesis AP : apart (2 * dtol) (Mmul L (MofZ g)) S.
  Definition of_site (y : vec R) (f : string) (p : site) : Prop := forall k, rel (MofZ g) (cand Pi y k, f) p.
  Record kept (l : list site) (st : list (vec R) * list string) : Prop := {
    kp_incl : incl l S;
    kp_nodup : NoDup l;
    kp_len : List.length (fst st) = List.length (snd st);
    kp_rel : Forall2 (rel (MofZ g)) (combine (fst st) (snd st)) l }.
  Lemma rel_pair (a b p q : site) : rel (MofZ g) a p -> rel (MofZ g) b q -> In p S -> In q S -> p <> q -> forall n, 2 * dtol < Vnorm (Mapp L (Vadd (Vsub (fst a) (fst b)) (VofZ n))).
  Proof using HG AP.
    intros Ra Rb Hp Hq NE. apply In_nth_error in Hp. destruct Hp as (i & Hi). apply In_nth_error in Hq. destruct Hq as (j & Hj).
    assert (Hij : i <> j) by (intros ->; congruence).
    assert (A2 : apart (2 * dtol) (Mmul L (MofZ g)) [p; q]).
    { constructor; [constructor; [|constructor]|constructor; constructor]. exact (FOP_nth _ _ i j p q (fun u v => apart_sym _ _ u v) AP Hij Hi Hj). }
    assert (A3 : apart (2 * dtol) L [a; b]) by (apply (apart_rel _ _ gi g [a; b] [p; q] HG); [constructor; [exact Ra|constructor; [exact Rb|constructor]]|exact A2]).
    inversion A3 as [|x l F1 _]; subst. inversion F1; subst. assumption.
  Qed.
  Lemma kept_step mult y f p t l st : of_site y f p -> In p S -> kept l st ->
    exists l', kept l' (@at_vec_step RNum Pi L ft dtol mult y f st (VofZ (V (fst (fst t)) (snd (fst t)) (snd t)))) /\ In p l' /\ incl l l'.
  Proof using Hft H0 HG AP.
    intros HY Hp [K1 K2 K3 K4]. unfold at_vec_step. rewrite cand_step. pose proof (HY (zscale mult t)) as R1. set (z := cand Pi y (zscale mult t)) in *. destruct st as [nfc nsp]. cbn [fst snd] in K3, K4.
    match goal with |- context [@existsb ?A ?h nfc] => destruct (@existsb A h nfc) eqn:EX end.
    - exists l. split; [constructor; assumption|]. split; [|intros x Hx; exact Hx]. apply existsb_exists in EX. destruct EX as (w & Hw & SW). apply same_site_R in SW. destruct SW as (n & SW).
      apply In_nth_error in Hw. destruct Hw as (i & Hi).
      assert (X : exists e, nth_error nsp i = Some e). { destruct (nth_error nsp i) eqn:Q; [eauto|]. apply nth_error_None in Q. pose proof (nth_lt _ _ _ Hi). cbn [num RNum] in *. lia. }
      destruct X as (e & He). pose proof (zip_nth _ _ _ _ _ Hi He) as HZ. apply nth_error_In in HZ. destruct (Forall2_in_l _ _ _ _ K4 HZ) as (q & Hq & Rq).
      assert (D : p = q \/ p <> q).
      { assert (X : {snd p = snd q} + {snd p <> snd q}) by apply string_dec. destruct p as [[p1 p2 p3] pe], q as [[q1 q2 q3] qe]. cbn [snd] in X.
        destruct (Req_dec p1 q1) as [-> |N]; [|right; congruence]. destruct (Req_dec p2 q2) as [-> |N]; [|right; congruence]. destruct (Req_dec p3 q3) as [-> |N]; [|right; congruence].
        destruct X as [-> |N]; [now left|right; congruence]. }
      destruct D as [->|NE]; [exact Hq|]. exfalso. pose proof (rel_pair (z, f) (w, e) p q R1 Rq Hp (K1 q Hq) NE n) as B. cbn [fst] in B.
      change (@fmul RNum dtol (@f2 RNum)) with (dtol * 2) in SW. lra.
    - assert (NI : ~ In p l).
      { intro Hl. destruct (Forall2_in_r _ _ _ _ K4 Hl) as ([w e] & Hw & [_ (n1 & E1)]). destruct R1 as [_ (n2 & E2)]. cbn [fst] in E1, E2.
        apply not_true_iff_false in EX. apply EX. apply existsb_exists. exists w. split; [now apply in_combine_l in Hw|]. rewrite E1, E2. exact (whole_same dtol L ft _ n2 n1 Hft H0). }
      exists (l ++ [p]). split; [|split; [apply in_or_app; right; now left|intros x Hx; apply in_or_app; now left]]. constructor; cbn [fst snd].
      + intros x Hx. apply in_app_or in Hx. destruct Hx as [Hx|[<-|[]]]; [now apply K1|exact Hp].
      + apply (Permutation_NoDup (l := p :: l)); [apply Permutation_cons_append|]. now constructor.
      + rewrite !app_length. cbn [List.length]. cbn [num RNum] in *. lia.
      + rewrite combine_snoc by exact K3. apply Forall2_app; [exact K4|]. constructor; [exact R1|constructor].
  Qed.
  Lemma kept_fold mult y f p : of_site y f p -> In p S -> forall ts l st, kept l st ->
    exists l', kept l' (fold_left (fun st t => @at_vec_step RNum Pi L ft dtol mult y f st (VofZ (V (fst (fst t)) (snd (fst t)) (snd t)))) ts st) /\ (ts <> [] -> In p l') /\ incl l l'.
  Proof using Hft H0 HG AP.
    intros HY Hp. induction ts as [|t ts IH]; intros l st K; cbn [fold_left]; [exists l; split; [exact K|split; [congruence|intros x Hx; exact Hx]]|].
    destruct (kept_step mult y f p t l st HY Hp K) as (l1 & A1 & A2 & A3). destruct (IH l1 _ A1) as (l2 & B1 & _ & B3). exists l2. split; [exact B1|]. split; [intros _; now apply B3|]. intros x Hx. apply B3, A3, Hx.
  Qed.
  Lemma kept_pass mult : (1 <= mult)%nat -> forall sites, (forall y f, In (y, f) sites -> exists p, In p S /\ of_site y f p) -> forall l st, kept l st ->
    exists l', kept l' (fold_left (@at_site_step RNum Pi L ft dtol mult) sites st) /\ incl l l' /\ forall y f p, In (y, f) sites -> of_site y f p -> In p S -> In p l'.
  Proof using Hft H0 HG AP.
    intro HM. assert (NE : tri mult <> []).
    { assert (Q : In (0, 0, 0)%Z (tri mult)) by (apply tri_In; lia). intro E. rewrite E in Q. destruct Q. }
    assert (UN : forall y f p q, of_site y f p -> of_site y f q -> In p S -> In q S -> p = q).
    { intros y f p q Op Oq Hp Hq. assert (D : p = q \/ p <> q).
      { assert (X : {snd p = snd q} + {snd p <> snd q}) by apply string_dec. destruct p as [[p1 p2 p3] pe], q as [[q1 q2 q3] qe]. cbn [snd] in X.
        destruct (Req_dec p1 q1) as [-> |N]; [|right; congruence]. destruct (Req_dec p2 q2) as [-> |N]; [|right; congruence]. destruct (Req_dec p3 q3) as [-> |N]; [|right; congruence].
        destruct X as [-> |N]; [now left|right; congruence]. }
      destruct D as [D|D]; [exact D|exfalso]. pose proof (rel_pair _ _ p q (Op (V 0 0 0)%Z) (Oq (V 0 0 0)%Z) Hp Hq D (V 0 0 0)%Z) as X. cbn [fst] in X.
      replace (Vadd (Vsub (cand Pi y (V 0 0 0)%Z) (cand Pi y (V 0 0 0)%Z)) (VofZ (V 0 0 0)%Z)) with (V0 : vec R) in X by (generalize (cand Pi y (V 0 0 0)%Z); intros [a b c]; unfold Vadd, Vsub, VofZ, V0; cbn; f_equal; ring).
      rewrite Mapp_V0, Vnorm_V0 in X. lra. }
    induction sites as [|[y f] sites IH]; intros HS l st K; cbn [fold_left]; [exists l; split; [exact K|split; [intros x Hx; exact Hx|intros ? ? ? []]]|].
    destruct (HS y f (or_introl eq_refl)) as (p & Hp & HY). rewrite at_site_fold. cbn [fst snd].
    destruct (kept_fold mult y f p HY Hp (tri mult) l st K) as (l1 & A1 & A2 & A3). destruct (IH (fun y' f' H' => HS y' f' (or_intror H')) l1 _ A1) as (l2 & B1 & B2 & B3).
    exists l2. split; [exact B1|]. split; [intros x Hx; apply B2, A3, Hx|]. intros y' f' p' [E|H'] O' P'; [|now apply (B3 y' f')]. injection E as <- <-. rewrite (UN y f p' p O' HY P' Hp). apply B2, A2, NE.
  Qed.
End Back.

(** ** Conventional cell and back *)
Lemma centre_like (dtol : R) (q : @structure RNum) (T : mat Z) (Pm : mat R) (U Ui W Wi : mat Z) (S : list site) fuel :
  like (MofZ Wi) S q -> ZMmul Wi W = ZMid -> roomy dtol (lattice q) -> 0 < dtol -> (1 <= Z.abs (ZMdet T) <= 4)%Z -> (4 <= fuel)%nat -> S <> [] ->
  Mmul (MofZ T) Pm = MofZ U -> ZMmul U Ui = ZMid -> (ZMdet U = 1 \/ ZMdet U = -1)%Z ->
  apart (2 * dtol) (Mmul (Mmul (lattice q) (Madj_inv (MofZ T))) (MofZ Wi)) S ->
  apart (2 * dtol) (Mmul (Mmul (lattice q) (MofZ T)) (MofZ (ZMmul Ui Wi))) S ->
  exists c std, @apply_transformation RNum fuel q (MofZ T) dtol = Ok c /\ @apply_transformation RNum fuel c Pm dtol = Ok std /\
    lattice std = Mmul (lattice q) (MofZ U) /\ like (MofZ (ZMmul Ui Wi)) S std.
Proof.
  intros Lq HW RM H0 HT HF NE EU HU DU A1 A2. assert (HD : ZMdet T <> 0%Z) by lia.
  assert (HDR : Mdet (MofZ T) <> 0) by (rewrite MofZ_det; now apply (IZR_neq _ 0)).
  pose proof (like_apart _ _ W Wi S q HW Lq A1) as AQ. pose proof (zinv_comm _ _ HU) as HU'. pose proof (zinv_comm _ _ HW) as HW'.
  assert (LC : List.length (coords q) = List.length (species q)) by (rewrite (lk_coords _ _ _ Lq), map_length; exact (lk_len _ _ _ Lq)).
  destruct (C68_supercell_complete q T (Madj_inv (MofZ T)) dtol fuel HD (Madj_inverse _ HDR)) as (c & E & EL & N1 & N2 & ECc & H).
  - lra.
  - intro k. pose proof (roomy_col dtol (lattice q) k RM). lra.
  - intro k. pose proof (roomy_col dtol (lattice q) k RM). lra.
  - exact (lk_len _ _ _ Lq).
  - exact LC.
  - intros i j x y z Hx Hy Hz. destruct (Nat.eq_dec i j) as [->|Hij].
    + rewrite Hx in Hy. injection Hy as <-. destruct Hz as [[]|Hz]; [reflexivity|].
      replace (Vadd (Vsub x x) (VofZ z)) with (VofZ z) by (destruct x as [x1 x2 x3]; unfold Vadd, Vsub, VofZ; cbn; f_equal; ring).
      assert (NZ : ZMapp (zadj T) z <> V 0%Z 0%Z 0%Z).
      { intro Q. apply Hz. exists (V 0 0 0)%Z. rewrite ZMapp_0. pose proof (adj_app T z HDR) as A. rewrite Q in A.
        apply VofZ_inj. rewrite <- (inv_app (MofZ T) (Madj_inv (MofZ T)) (VofZ z)) by now apply Madj_inverse.
        replace (Mapp (Madj_inv (MofZ T)) (VofZ z)) with (V0 : vec R); [rewrite Mapp_V0; reflexivity|].
        assert (D0 : IZR (ZMdet T) <> 0) by now rewrite <- MofZ_det.
        destruct (Mapp (Madj_inv (MofZ T)) (VofZ z)) as [a1 a2 a3]. unfold Vscal, VofZ in A. cbn in A. injection A as B1 B2 B3. unfold V0.
        assert (G : forall x, IZR (ZMdet T) * x = 0 -> 0 = x) by (intros x' Hx'; apply Rmult_integral in Hx'; destruct Hx'; [contradiction|auto]).
        f_equal; now apply G. }
      specialize (RM _ NZ). rewrite <- (adj_app T z HDR), Mapp_scal, Vnorm_scal in RM.
      set (d := Vnorm (Mapp (lattice q) (Mapp (Madj_inv (MofZ T)) (VofZ z)))) in *.
      assert (B : Rabs (IZR (ZMdet T)) <= 4) by (rewrite <- abs_IZR; apply IZR_le; lia). assert (0 <= d) by apply Vnorm_nonneg. nra.
    + assert (X : exists e, nth_error (species q) i = Some e).
      { destruct (nth_error (species q) i) eqn:Q; [eauto|]. apply nth_error_None in Q. pose proof (nth_lt _ _ _ Hx). pose proof (lk_len _ _ _ Lq). lia. }
      assert (Y : exists e, nth_error (species q) j = Some e).
      { destruct (nth_error (species q) j) eqn:Q; [eauto|]. apply nth_error_None in Q. pose proof (nth_lt _ _ _ Hy). pose proof (lk_len _ _ _ Lq). lia. }
      destruct X as (e & He), Y as (f & Hf).
      assert (G := FOP_nth _ _ i j (x, e) (y, f) (fun u v => apart_sym _ _ u v) AQ Hij). cbn [fst] in G. rewrite <- Mapp_Mmul. apply G; apply zip_nth; assumption.
  - lia.
  - set (g := ZMmul Ui Wi) in *. set (gi := ZMmul W U). assert (GI : ZMmul g gi = ZMid) by (unfold g, gi; now apply Zcompose).
    assert (DP : Mdet Pm <> 0).
    { intro Q. assert (X : Mdet (MofZ U) = 0) by (rewrite <- EU, Mdet_mul, Q; ring). rewrite MofZ_det in X. apply eq_IZR in X. lia. }
    assert (QP : Madj_inv Pm = Mmul (MofZ Ui) (MofZ T)).
    { rewrite <- (Mmul_id_r (Mmul (MofZ Ui) (MofZ T))), <- (proj1 (Madj_inverse Pm DP)), <- Mmul_assoc, (Mmul_assoc (MofZ Ui)), EU, <- MofZ_mul, HU', MofZ_id. now rewrite Mmul_id_l. }
    set (nn := Z.to_nat (Z.abs (ZMdet T))) in *. set (n0 := List.length (species q)) in *. pose proof (like_length _ _ _ Lq) as NS. fold n0 in NS.
    assert (N0 : (0 < n0)%nat) by (rewrite NS; destruct S; [congruence|cbn; lia]).
    destruct (lk_sites _ _ _ Lq) as (lq & Pl & Fl).
    assert (SC : forall y f, In (y, f) (combine (frac_coords c) (species c)) -> exists p, In p S /\ of_site (Madj_inv Pm) g y f p).
    { intros y f Hy. destruct (apply_transformation_sound _ _ _ _ _ E) as (_ & _ & _ & _ & SD & _). apply In_nth_error in Hy. destruct Hy as (k & Hk). apply nth_combine in Hk. destruct Hk as [K1 K2].
      destruct (SD k f y K2 K1) as (j & x & m1 & n1 & J1 & J2 & J3). pose proof (zip_nth _ _ _ _ _ J2 J1) as HZ. apply nth_error_In in HZ. apply (Permutation_in _ Pl) in HZ.
      destruct (Forall2_in_l _ _ _ _ Fl HZ) as (p & Hp & [R1 (m2 & R2)]). cbn [fst snd] in R1, R2. exists p. split; [exact Hp|]. intro kk. split; [exact R1|]. cbn [fst]. unfold cand.
      exists (ZMapp Ui (ZVadd (ZVadd m2 m1) (ZVadd (ZMapp T n1) (ZMapp T kk)))). unfold g.
      rewrite QP, Mapp_Mmul, Mapp_add, J3, R2, MofZ_mul, (Mapp_Mmul (MofZ Ui) (MofZ Wi)), MofZ_app, <- Mapp_add. f_equal. rewrite !VofZ_add, !MofZ_app.
      generalize (Mapp (MofZ Wi) (fst p)) (Mapp (MofZ T) (VofZ n1)) (Mapp (MofZ T) (VofZ kk)). intros [a1 a2 a3] [b1 b2 b3] [c1 c2 c3]. unfold Vadd, VofZ. cbn. f_equal; ring. }
    assert (HFT : forall k, 0 <= vnth (@frac_tols_of RNum (lattice c) dtol) k <= 1).
    { apply tols_unit; [exact H0|]. intros k Hk. rewrite EL.
      assert (NZ : exists z, z <> V 0%Z 0%Z 0%Z /\ Ccol (MofZ T) k = VofZ z).
      { destruct k as [|[|k]]; [exists (V (m11 T) (m21 T) (m31 T))|exists (V (m12 T) (m22 T) (m32 T))|exists (V (m13 T) (m23 T) (m33 T))];
          (split; [|reflexivity]); intro Q; injection Q as Q1 Q2 Q3; apply HD; unfold ZMdet; rewrite Q1, Q2, Q3; ring. }
      destruct NZ as (z & Hz & Ez). replace (Ccol (Mmul (lattice q) (MofZ T)) k) with (Mapp (lattice q) (Ccol (MofZ T) k)); [rewrite Ez; now apply RM|]. destruct k as [|[|k]]; reflexivity. }
    assert (A2' : apart (2 * dtol) (Mmul (lattice c) (MofZ g)) S) by (rewrite EL; exact A2).
    destruct (kept_pass dtol (lattice c) (@frac_tols_of RNum (lattice c) dtol) (Madj_inv Pm) S g gi HFT H0 GI A2' 2%nat ltac:(lia) _ SC [] ([], [])) as (l' & KP & _ & ALL).
    { constructor; cbn [fst snd combine List.length]; [intros x []|constructor|reflexivity|constructor]. }
    assert (ND : NoDup S) by (apply (apart_distinct (2 * dtol) (Mmul (lattice c) (MofZ g))); [lra|exact A2']).
    assert (PL : Permutation l' S).
    { apply NoDup_Permutation; [exact (kp_nodup _ _ _ _ KP)|exact ND|]. intro p. split; [apply (kp_incl _ _ _ _ KP)|]. intro Hp.
      destruct (Forall2_in_r _ _ _ _ Fl Hp) as ([x e] & Hx & Rx). apply (Permutation_in _ (Permutation_sym Pl)) in Hx. unfold sites_of in Hx. apply In_nth_error in Hx. destruct Hx as (i & Hi). apply nth_combine in Hi. destruct Hi as [Hi1 Hi2].
      destruct (H i e x (V 0 0 0)%Z Hi2 Hi1) as (k & y & n & K1 & K2 & K3). apply (ALL y e); [apply (nth_error_In _ k); now apply zip_nth| |exact Hp].
      intro kk. destruct Rx as [R1 (m2 & R2)]. cbn [fst snd] in R1, R2. split; [exact R1|]. cbn [fst]. unfold cand. exists (ZMapp Ui (ZVadd m2 (ZVadd (ZMapp T n) (ZMapp T kk)))). unfold g.
      rewrite QP, Mapp_Mmul, Mapp_add, K3, R2, MofZ_mul, (Mapp_Mmul (MofZ Ui) (MofZ Wi)), MofZ_app, <- Mapp_add. f_equal. rewrite !VofZ_add, !MofZ_app.
      generalize (Mapp (MofZ Wi) (fst p)) (Mapp (MofZ T) (VofZ n)) (Mapp (MofZ T) (VofZ kk)). intros [a1 a2 a3] [b1 b2 b3] [c1 c2 c3]. unfold Vadd, VofZ. cbn. f_equal; ring. }
    assert (RF : 0 < @volume_ratio RNum Pm /\ @volume_ratio RNum Pm * IZR (Z.abs (ZMdet T)) <= 1).
    { apply ratio_fits; [exact HT|]. assert (X : Rabs (Mdet (Mmul (MofZ T) Pm)) = 1) by (rewrite EU, MofZ_det, <- abs_IZR; destruct DU as [-> | ->]; reflexivity).
      rewrite Mdet_mul, Rabs_mult, MofZ_det, <- abs_IZR in X. lra. }
    assert (LCC : List.length (coords c) = (n0 * nn)%nat) by (rewrite ECc, map_length; exact N2).
    assert (NN : (1 <= nn)%nat) by (unfold nn; lia). assert (LC2 : (0 < List.length (coords c))%nat) by (rewrite LCC; nia).
    exists c. cut (exists std, @apply_transformation RNum fuel c Pm dtol = Ok std /\ lattice std = Mmul (lattice q) (MofZ U) /\ like (MofZ g) S std); [intros (std & Z1 & Z2 & Z3); exists std; split; [exact E|split; [exact Z1|split; [exact Z2|exact Z3]]]|].
    rewrite apply_transformation_unfold by exact DP. destruct fuel as [|fuel]; [lia|]. cbn [at_search fst List.length].
    assert (Go : @ratio_lt RNum 0 (@fofZ RNum (Z.of_nat (List.length (coords c)))) (@volume_ratio RNum Pm) = true).
    { apply ratio_lt_true_iff; [exact LC2|]. cbn [INR]. apply Rmult_lt_0_compat; [exact (proj1 RF)|]. apply lt_0_INR. exact LC2. }
    rewrite Go. set (st := fold_left _ _ _) in *.
    assert (SL : List.length (fst st) = n0).
    { pose proof (F2_length _ _ _ (kp_rel _ _ _ _ KP)) as X. pose proof (kp_len _ _ _ _ KP) as Y. pose proof (zip_length _ _ Y) as Z0. pose proof (Permutation_length PL) as P0. exact (eq_trans Y (eq_trans (eq_sym Z0) (eq_trans X (eq_trans P0 (eq_sym NS))))). }
    assert (St : @ratio_lt RNum (List.length (fst st)) (IZR (Z.of_nat (List.length (coords c)))) (@volume_ratio RNum Pm) = false).
    { apply not_true_iff_false. intro X. apply ratio_lt_true_iff in X; [|exact LC2]. rewrite SL, LCC, mult_INR in X. unfold nn in X. rewrite (INR_IZR_INZ (Z.to_nat _)), Z2Nat.id in X by lia.
      pose proof (pos_INR n0) as PN. pose proof (Rmult_le_compat_r _ _ _ PN (proj2 RF)) as Y. lra. }
    assert (Q : @at_search RNum fuel (Madj_inv Pm) c (@frac_tols_of RNum (lattice c) dtol) dtol (@volume_ratio RNum Pm) 3 st = Ok st).
    { destruct fuel; cbn [at_search]; match goal with |- (if ?b then _ else _) = _ => replace b with false by (symmetry; exact St) end; reflexivity. }
    numR. rewrite Q. cbn [bind]. clearbody st. destruct st as [nfc nsp]. eexists. split; [reflexivity|]. split.
    + rewrite (proj1 (normalize_coords_spec _ dtol)). cbn [lattice]. rewrite EL, Mmul_assoc, EU. reflexivity.
    + pose proof (kp_len _ _ _ _ KP) as LN. pose proof (kp_rel _ _ _ _ KP) as FR. cbn [fst snd] in LN, FR. apply like_normalize; [exact LN|].
      destruct (Forall2_perm_r _ _ _ PL _ FR) as (a' & Q1 & Q2). exists a'. split; [exact Q1|exact Q2].
Qed.

(** from the primitive cell [p] on: [L0] and [S0] describe the crystal in some primitive cell *)
Section Tail.
  Context (P : @Pinv RNum) (HO : HashOrd) (dtol : R) (fuel : nat) (path : list nat) (s p : @structure RNum) (L0 : mat R) (S0 : list site) (Z1 : mat Z).
  Hypothesis (HP : pinv_inverts P) (HF : (48 <= fuel)%nat) (H0 : 0 < dtol) (NES : S0 <> []).
  Hypothesis (RM : roomy dtol L0).
  Let eps := 1 / 100000 * Rpower (Rabs (Mdet L0)) (1 / 3).
  Hypothesis EPS : eps < 1.
  Context (out : mat Z -> Z -> bravais -> Prop).
  Hypothesis (F1 : @find_primitive_cell RNum P HO (0%nat :: path) dtol s = Ok p) (F2 : lattice p = Mmul L0 (MofZ Z1)) (F3 : (ZMdet Z1 = 1 \/ ZMdet Z1 = -1)%Z) (F4 : 0 < Mdet (lattice p)).
  Hypothesis F5 : forall I1, ZMmul Z1 I1 = ZMid -> well_conditioned (lattice p) -> apart (2 * dtol) (Mmul L0 (MofZ I1)) S0 -> like (MofZ I1) S0 p.
  Hypothesis PICKED : exists T n b T0 Pm U, let Q := Mmul (Mmul L0 (MofZ Z1)) (MofZ T) in
      @niggli_loop RNum 100 eps (gram (Mmul L0 (MofZ Z1)), Mid) = Ok (gram Q, MofZ T) /\
      @character_of RNum eps (m11 (gram Q)) (m22 (gram Q)) (m33 (gram Q)) (m23 (gram Q)) (m13 (gram Q)) (m12 (gram Q)) = Ok n /\
      am_get Z.eqb n LATTICE_CHAR_TO_CONV_TRANS = Some T0 /\ @primitive_transformation_matrix RNum n = Ok (Pm, b) /\
      Mmul (MofZ (transpose T0)) Pm = MofZ U /\ ZMdet U = 1%Z /\ (1 <= Z.abs (ZMdet (transpose T0)) <= 4)%Z /\
      well_conditioned (Mmul L0 (MofZ Z1)) /\ well_conditioned Q /\ out (ZMmul (ZMmul Z1 T) U) n b /\
      (forall I1, ZMmul Z1 I1 = ZMid -> apart (2 * dtol) (Mmul L0 (MofZ I1)) S0 /\
        (forall Ti Ui, ZMmul T Ti = ZMid -> ZMmul U Ui = ZMid ->
          apart (2 * dtol) (Mmul (Mmul Q (Madj_inv (MofZ (transpose T0)))) (MofZ (ZMmul Ti I1))) S0 /\
          apart (2 * dtol) (Mmul (Mmul Q (MofZ (transpose T0))) (MofZ (ZMmul Ui (ZMmul Ti I1)))) S0)).
  Lemma c_tail : exists q std Tm Pm n b W Wi, @stages RNum P HO fuel path dtol s p q std Tm Pm n b /\ well_conditioned (lattice p) /\ well_conditioned (lattice q) /\ Mdet Pm <> 0 /\ Mdet Tm <> 0 /\ 0 < Mdet (lattice std) /\
    ZMmul W Wi = ZMid /\ lattice std = Mmul L0 (MofZ W) /\ like (MofZ Wi) S0 std /\ out W n b.
  Proof using All.
    assert (F4' := F4). rewrite F2 in F4'.
    destruct PICKED as (T & n & b & T0 & Pm & U & NL & EC & R2 & R1 & EU & DU & DT0 & W1 & W2 & OUT & APS). clear PICKED.
    set (Q := Mmul (Mmul L0 (MofZ Z1)) (MofZ T)) in *.
    assert (VP : Mdet (lattice p) = Rabs (Mdet L0)).
    { rewrite <- (Rabs_pos_eq (Mdet (lattice p))) by lra. rewrite F2, Mdet_mul, MofZ_det, Rabs_mult, <- abs_IZR. destruct F3 as [-> | ->]; cbn; lra. }
    assert (Wp : well_conditioned (lattice p)) by now rewrite F2.
    destruct (unimodular_inverse Z1 F3) as (I1 & HI1). destruct (APS I1 HI1) as (AP1 & AP2).
    assert (LP : like (MofZ I1) S0 p) by (apply F5; [exact HI1|exact Wp|exact AP1]).
    assert (EX : exists q, @niggli_reduce RNum P dtol p (1 / 100000) = Ok q /\ lattice q = Q).
    { rewrite niggli_reduce_eq, cbrt_pos, VP by exact F4. fold eps. rewrite F2. rewrite NL. eexists. split; [reflexivity|]. rewrite rebuilt_lattice. reflexivity. }
    destruct EX as (q & G1 & G2). assert (Wq : well_conditioned (lattice q)) by now rewrite G2.
    assert (LQ : exists Ti, ZMmul T Ti = ZMid /\ ZMdet T = 1%Z /\ like (MofZ (ZMmul Ti I1)) S0 q).
    { destruct (niggli_like P dtol HP p q _ _ LP F4 ltac:(rewrite VP; fold eps; exact EPS) G1 Wq) as (T' & HT & ET & HTi).
      assert (ETT : T' = T).
      { apply MofZ_inj. assert (DN : Mdet (lattice p) <> 0) by lra. destruct (Madj_inverse _ DN) as [_ I].
        rewrite <- (Mmul_id_l (MofZ T')), <- (Mmul_id_l (MofZ T)), <- I, !Mmul_assoc, <- ET, G2. unfold Q. rewrite <- F2. reflexivity. }
      subst T'. destruct (unimodular_inverse T (or_introl HT)) as (Ti & HI). exists Ti. split; [exact HI|]. split; [exact HT|]. rewrite MofZ_mul. now apply HTi. }
    destruct LQ as (Ti & HTi & DT & LQ). set (Y := ZMmul Z1 T) in *. set (Yi := ZMmul Ti I1) in *.
    assert (YI : ZMmul Y Yi = ZMid) by (unfold Y, Yi; now apply Zcompose).
    assert (LQL : lattice q = Mmul L0 (MofZ Y)) by (rewrite G2; unfold Q, Y; rewrite MofZ_mul, Mmul_assoc; reflexivity).
    destruct (unimodular_inverse _ (or_introl DU)) as (Ui & HUi). destruct (AP2 Ti Ui HTi HUi) as (AP3 & AP4). fold Yi in AP3, AP4. rewrite <- G2 in AP3, AP4.
    assert (RQ : roomy dtol (lattice q)) by (rewrite LQL; exact (roomy_mul dtol L0 Y Yi (zinv_comm _ _ YI) RM)).
    destruct (centre_like dtol q (transpose T0) Pm U Ui Y Yi S0 fuel LQ (zinv_comm _ _ YI) RQ H0 DT0 ltac:(lia) NES EU HUi (or_introl DU) AP3 AP4) as (cc & std & C1 & C2 & K2 & K3).
    set (W := ZMmul Y U) in *. set (Wi := ZMmul Ui Yi) in *.
    assert (WI : ZMmul W Wi = ZMid) by (unfold W, Wi; now apply Zcompose).
    assert (LSL : lattice std = Mmul L0 (MofZ W)) by (rewrite K2, LQL, Mmul_assoc, <- MofZ_mul; reflexivity).
    assert (EC' : @get_lattice_character RNum q (1 / 100000) = Ok n).
    { assert (DQ : Mdet (lattice q) = Rabs (Mdet L0)). { rewrite G2. unfold Q. rewrite <- F2, Mdet_mul, MofZ_det, DT, VP. lra. }
      assert (DQ' : 0 < Mdet (lattice q)) by (rewrite DQ, <- VP; exact F4).
      rewrite (lattice_character_R q (1 / 100000) DQ'). cbv zeta. rewrite DQ, G2. exact EC. }
    assert (D0 : Mdet (MofZ U) <> 0) by (rewrite MofZ_det, DU; lra).
    assert (ST : @stages RNum P HO fuel path dtol s p q std (Mtr (MofZ T0)) Pm n b).
    { change (1 / 100000) with (@tol_1em5 RNum) in *. constructor; [exact F1|exact G1| |exact R1|].
      + unfold conventional_transformation_matrix. rewrite EC'. cbn [bind]. rewrite R2. reflexivity.
      + exists cc. split; [exact C1|exact C2]. }
    exists q, std, (Mtr (MofZ T0)), Pm, n, b, W, Wi. split; [exact ST|]. split; [exact Wp|]. split; [exact Wq|]. split; [|split; [|split; [|split; [exact WI|split; [exact LSL|split; [exact K3|exact OUT]]]]]].
    - intro X. apply D0. rewrite <- EU, Mdet_mul, X. ring.
    - change (Mdet (MofZ (transpose T0)) <> 0). intro X. apply D0. rewrite <- EU, Mdet_mul, X. ring.
    - rewrite LSL. unfold W, Y. rewrite !MofZ_mul, !Mdet_mul, !MofZ_det, DT, DU. rewrite Mdet_mul, MofZ_det in F4'. lra.
  Qed.
End Tail.
Section CStages.
  Context (P : @Pinv RNum) (HO : HashOrd) (dtol : R) (fuel : nat) (path : list nat) (s : @structure RNum).
  Hypothesis (HP : pinv_inverts P) (HF : (48 <= fuel)%nat) (H0 : 0 < dtol) (WF : List.length (frac_coords s) = List.length (species s)).
  Hypothesis BIG : (0 < Z.of_nat (List.length (species s)) <= 65535)%Z.
  Let L := lattice s.
  Hypothesis (Ws : well_conditioned L) (RM : roomy dtol L).
  Hypothesis HN : forall k, (k < 3)%nat -> dtol * Vnorm (Ccol L k) < Rabs (Mdet L).
  Hypothesis HDd : dtol < Rabs (Mdet L).
  Hypothesis NI : no_inner_translation dtol s.
  Let eps := 1 / 100000 * Rpower (Rabs (Mdet L)) (1 / 3).
  Hypothesis EPS : eps < 1.
  Context (out : mat Z -> Z -> bravais -> Prop).
  Hypothesis PICK : forall y1 y2 y3, In y1 dirs26 -> In y2 dirs26 -> In y3 dirs26 -> shortest3 L y1 y2 y3 ->
    (ZMdet (zcols y1 y2 y3) = 1 \/ ZMdet (zcols y1 y2 y3) = -1)%Z -> 0 < Mdet (Mmul L (MofZ (zcols y1 y2 y3))) ->
    (exists p, @find_primitive_cell RNum P HO (0%nat :: path) dtol s = Ok p /\ lattice p = Mmul L (MofZ (zcols y1 y2 y3))) ->
    exists T n b T0 Pm U, let Z1 := zcols y1 y2 y3 in let Q := Mmul (Mmul L (MofZ Z1)) (MofZ T) in
      @niggli_loop RNum 100 eps (gram (Mmul L (MofZ Z1)), Mid) = Ok (gram Q, MofZ T) /\
      @character_of RNum eps (m11 (gram Q)) (m22 (gram Q)) (m33 (gram Q)) (m23 (gram Q)) (m13 (gram Q)) (m12 (gram Q)) = Ok n /\
      am_get Z.eqb n LATTICE_CHAR_TO_CONV_TRANS = Some T0 /\ @primitive_transformation_matrix RNum n = Ok (Pm, b) /\
      Mmul (MofZ (transpose T0)) Pm = MofZ U /\ ZMdet U = 1%Z /\ (1 <= Z.abs (ZMdet (transpose T0)) <= 4)%Z /\
      well_conditioned (Mmul L (MofZ Z1)) /\ well_conditioned Q /\ out (ZMmul (ZMmul Z1 T) U) n b /\
      (forall I1, ZMmul Z1 I1 = ZMid -> apart (2 * dtol) (Mmul L (MofZ I1)) (sites_of s) /\
        (forall Ti Ui, ZMmul T Ti = ZMid -> ZMmul U Ui = ZMid ->
          apart (2 * dtol) (Mmul (Mmul Q (Madj_inv (MofZ (transpose T0)))) (MofZ (ZMmul Ti I1))) (sites_of s) /\
          apart (2 * dtol) (Mmul (Mmul Q (MofZ (transpose T0))) (MofZ (ZMmul Ui (ZMmul Ti I1)))) (sites_of s))).
  Lemma c_stages : exists p q std Tm Pm n b W Wi, frame P HO dtol fuel path s p q std Tm Pm n b W Wi /\ out W n b.
  Proof using All.
    assert (HN' : forall k, (k < 3)%nat -> dtol <= Vnorm (Ccol L k) /\ dtol * Vnorm (Ccol L k) < Rabs (Mdet L)).
    { intros k Hk. split; [pose proof (roomy_col dtol L k RM); lra|now apply HN]. }
    destruct (prim_like P HO dtol HP (0%nat :: path) s WF ltac:(lra) Ws BIG HN' HDd NI) as (p & y1 & y2 & y3 & F1 & F2 & F3 & F4 & J1 & J2 & J3 & S3 & F5).
    fold L in F2, S3, F5. assert (F4' := F4). rewrite F2 in F4'.
    assert (NES : sites_of s <> []). { intro X. assert (X2 : List.length (sites_of s) = List.length (species s)) by (apply zip_length; exact WF). rewrite X in X2. cbn in X2. lia. }
    pose proof (PICK y1 y2 y3 J1 J2 J3 S3 F3 F4' (ex_intro _ p (Logic.conj F1 F2))) as PK. cbv zeta in PK.
    destruct (c_tail P HO dtol fuel path s p L (sites_of s) (zcols y1 y2 y3) HP HF H0 NES RM EPS out F1 F2 F3 F4 F5 PK) as (q & std & Tm & Pm & n & b & W & Wi & ST & Wp & Wq & A1 & A2 & A3 & WI & LSL & K3 & OUT).
    exists p, q, std, Tm, Pm, n, b, W, Wi. split; [|exact OUT]. apply Build_frame; assumption.
  Qed.
End CStages.
