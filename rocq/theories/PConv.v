(** Cubic crystals in the conventional cell of a face-centred or body-centred lattice: the finite facts *)
From Coq Require Import ZArith Reals String Ascii List Bool Lia Lra Psatz Permutation Sorting.Sorted.
From Verif Require Import Num Mat Utils DataCore DataPG DataSG SymmOp PointGroup SpaceGroup Structure Reduce Analyzer RInst Spec Spec2 Spec3 Spec5 Spec6 Spec8 Spec10 Spec11 Spec12 RFacts
  PUtils PSymmOp PStructure PStructure2 PStructure3 PNiggli PDelaunay PPrim PPrim2 PPrim4 PPrim5 PLattice PAnalyzer PAnalyzer2 PPointGroup PPointGroup2
  PNiggli2 PNiggli3 PNiggli4 PSpaceGroup PSpaceGroup2 PCode PTables PIdentify PSearch PSearch3 PSearch4 PSearch6 PSearch7 PEnd PEnd2 PEnd3 PEnd4 PEnd7 PEnd8 PEnd9 PEnd10 PEnd11 PEnd12 PEnd13 PEnd14 Prop5 PRun PHex3 PHex5 PCen PCen2.
Import ListNotations.
Open Scope R_scope.

Definition kH (f : bool) : list (vec Z) := if f then fcc_dirs else bcc_dirs.
Definition C6 : z6 := scale6 4 I6.
(** the cubic axes in terms of the axes of the primitive cell *)
Definition kcubes (f : bool) : list (mat Z) := isometries (km f) C6 2.
(** twice the inverse *)
Definition khalf (C : mat Z) : mat Z := mmap (fun x => Z.div (2 * x) (ZMdet C)) (zadj C).
Definition khalf2 (m : mat Z) : mat Z := mmap (fun x => Z.div x 2) m.
Definition Z2 : mat Z := (M 2 0 0 0 2 0 0 0 2)%Z.
Definition evenv (v : vec Z) : bool := Z.even (vx v) && Z.even (vy v) && Z.even (vz v).
Definition kcube_test (f : bool) (C : mat Z) : bool :=
  negb (ZMdet C =? 0)%Z && (Z.abs (ZMdet C) =? (if f then 4 else 2))%Z && zmat_eqb (ZMmul C (khalf C)) Z2 && zmat_eqb (ZMmul (khalf C) C) Z2 &&
  smallb 1 (khalf C) && col_mod 2 (kH f) (khalf C) && forallb (fun h => evenv (ZMapp C h)) (kH f) && forallb (conj_ok C) (holo_rots (kb f)).
Definition kcell_test (f : bool) (cs : list (mat Z)) (K : mat Z) : bool :=
  match znig 100 (kform I6 K) with Some g => z6_eqb g (km f) | None => false end && (ztr (kform I6 K) <=? 100)%Z &&
  forallb (fun C => let D := ZMmul C K in let Z1 := khalf2 D in zmat_eqb D (ZMmul Z2 Z1) && smallb 1 Z1 && (Z.abs (ZMdet Z1) =? 1)%Z) cs.
Lemma kcubes_checked : forallb (fun f => forallb (kcube_test f) (kcubes f) && boxb (km f) (za C6) 2) [true; false] = true.
Proof. vm_compute. reflexivity. Qed.
Lemma kcells_checked : forallb (fun f => let cs := kcubes f in orders I6 2 (kH f) 1 (kcell_test f cs) && orders I6 2 (kH f) (-1) (kcell_test f cs)) [true; false] = true.
Proof. vm_compute. reflexivity. Qed.
Lemma kdirs_checked : forallb (fun f => forallb (dirb 2) (kH f) && nodupb (o3 :: kH f) && closedb 2 (kH f)) [true; false] = true.
Proof. vm_compute. reflexivity. Qed.
Lemma both (f : bool) : In f [true; false]. Proof. destruct f; cbn; tauto. Qed.
Lemma kdirs f : forallb (dirb 2) (kH f) = true /\ nodupb (o3 :: kH f) = true /\ closedb 2 (kH f) = true.
Proof. pose proof (proj1 (forallb_forall _ _) kdirs_checked f (both f)) as Q. cbv beta in Q. rewrite !andb_true_iff in Q. tauto. Qed.
Lemma kcube_in f C : kform (km f) C = C6 -> In C (kcubes f).
Proof.
  intro H. pose proof (proj1 (forallb_forall _ _) kcubes_checked f (both f)) as Q. cbv beta in Q. apply andb_true_iff in Q. destruct Q as [_ Q]. exact (isometries_in (km f) C6 2 C Q Q Q H).
Qed.
Lemma even_half (v : vec Z) : evenv v = true -> exists w, v = (V (2 * vx w) (2 * vy w) (2 * vz w))%Z.
Proof.
  unfold evenv. rewrite !andb_true_iff, !Z.even_spec. intros (((x & E1) & (y & E2)) & (z & E3)). exists (V x y z). destruct v as [v1 v2 v3]. cbn in *. now subst.
Qed.
Lemma kcube f C : kform (km f) C = C6 -> ZMdet C <> 0%Z /\ Z.abs (ZMdet C) = (if f then 4 else 2)%Z /\ ZMmul C (khalf C) = Z2 /\ ZMmul (khalf C) C = Z2 /\ small 1 (khalf C) /\ col_mod 2 (kH f) (khalf C) = true /\
  (forall h, In h (kH f) -> exists w, ZMapp C h = (V (2 * vx w) (2 * vy w) (2 * vz w))%Z) /\
  (forall r, In r (holo_rots (kb f)) -> exists r', ZMmul C r' = ZMmul r C /\ i8_range r' /\ has_unit_entry r' = true).
Proof.
  intro H. apply kcube_in in H. pose proof (proj1 (forallb_forall _ _) kcubes_checked f (both f)) as Q. cbv beta in Q. apply andb_true_iff in Q. destruct Q as [Q _].
  pose proof (proj1 (forallb_forall _ _) Q C H) as K. clear Q H. unfold kcube_test in K. rewrite !andb_true_iff in K. destruct K as (((((((K1 & K2) & K3) & K4) & K5) & K6) & K7) & K8).
  apply negb_true_iff, Z.eqb_neq in K1. apply Z.eqb_eq in K2. apply zmat_eqb_spec in K3. apply zmat_eqb_spec in K4. apply smallb_spec in K5.
  split; [exact K1|]. split; [exact K2|]. split; [exact K3|]. split; [exact K4|]. split; [exact K5|]. split; [exact K6|]. split.
  - intros h Hh. apply even_half. exact (proj1 (forallb_forall _ _) K7 h Hh).
  - intros r Hr. pose proof (proj1 (forallb_forall _ _) K8 r Hr) as X. unfold conj_ok in X. rewrite !andb_true_iff in X. destruct X as ((X1 & X2) & X3). exists (zconj C r).
    split; [now apply zmat_eqb_spec|]. split; [now apply i8_rangeb_spec|exact X3].
Qed.
Lemma kcells f sg : (sg = 1 \/ sg = -1)%Z -> orders I6 2 (kH f) sg (kcell_test f (kcubes f)) = true.
Proof.
  intro H. pose proof (proj1 (forallb_forall _ _) kcells_checked f (both f)) as Q. cbv beta zeta in Q. apply andb_true_iff in Q. destruct Q as [Q1 Q2]. destruct H as [-> | ->]; [exact Q1|exact Q2].
Qed.
Lemma kcell f C K : kform (km f) C = C6 -> kcell_test f (kcubes f) K = true -> exists Z1, ZMmul C K = ZMmul Z2 Z1 /\ small 1 Z1 /\ (ZMdet Z1 = 1 \/ ZMdet Z1 = -1)%Z /\ (ztr (kform I6 K) <= 100)%Z /\ znig 100 (kform I6 K) = Some (km f).
Proof.
  intros HC TK. apply kcube_in in HC. unfold kcell_test in TK. rewrite !andb_true_iff in TK. destruct TK as ((T1 & T2) & T3). pose proof (proj1 (forallb_forall _ _) T3 C HC) as X. cbv beta zeta in X. rewrite !andb_true_iff in X. destruct X as ((X1 & X2) & X3).
  exists (khalf2 (ZMmul C K)). split; [now apply zmat_eqb_spec|]. split; [now apply smallb_spec|]. apply Z.eqb_eq in X3. split; [lia|]. split; [now apply Z.leb_le|].
  destruct (znig 100 (kform I6 K)) as [g'|]; [|discriminate T1]. apply z6_eqb_eq in T1. now rewrite T1.
Qed.

(** ** The fold over the sites: sites that are periods of each other are merged, others are kept *)
Section Fold.
  Context (dtol : R) (L : mat R) (ft : vec R) (S : list site) (g gi : mat Z).
  Hypothesis (Hft : forall k, 0 <= vnth ft k <= 1) (H0 : 0 < dtol) (HG : ZMmul g gi = ZMid).
  Hypothesis AP : apart (2 * dtol) (Mmul L (MofZ g)) S.
  Let PAIR := rel_pair dtol L S g gi HG AP.
  Lemma site_dec (p q : site) : p = q \/ p <> q.
  Proof using.
    assert (X : {snd p = snd q} + {snd p <> snd q}) by apply string_dec. destruct p as [[p1 p2 p3] pe], q as [[q1 q2 q3] qe]. cbn [snd] in X.
    destruct (Req_dec p1 q1) as [-> |N]; [|right; congruence]. destruct (Req_dec p2 q2) as [-> |N]; [|right; congruence]. destruct (Req_dec p3 q3) as [-> |N]; [|right; congruence].
    destruct X as [-> |N]; [now left|right; congruence].
  Qed.
  Lemma fold_step z f p l st : rel (MofZ g) (z, f) p -> In p S -> kept S g l st -> exists l', kept S g l' (@fp_fold_step RNum L ft dtol st (z, f)) /\ In p l' /\ incl l l'.
  Proof using All.
    intros R1 Hp [K1 K2 K3 K4]. unfold fp_fold_step. destruct st as [nfc nsp]. cbn [fst snd] in K3, K4 |- *.
    match goal with |- context [@existsb ?A ?h nfc] => destruct (@existsb A h nfc) eqn:EX end.
    - exists l. split; [constructor; assumption|]. split; [|intros x Hx; exact Hx]. apply existsb_exists in EX. destruct EX as (w & Hw & SW). apply same_site_R in SW. destruct SW as (n & SW).
      apply In_nth_error in Hw. destruct Hw as (i & Hi).
      assert (X : exists e, nth_error nsp i = Some e). { destruct (nth_error nsp i) eqn:Q; [eauto|]. apply nth_error_None in Q. pose proof (nth_lt _ _ _ Hi). cbn [num RNum] in *. lia. }
      destruct X as (e & He). pose proof (zip_nth _ _ _ _ _ Hi He) as HZ. apply nth_error_In in HZ. destruct (Forall2_in_l _ _ _ _ K4 HZ) as (q & Hq & Rq).
      destruct (site_dec p q) as [->|NE]; [exact Hq|]. exfalso. pose proof (PAIR (z, f) (w, e) p q R1 Rq Hp (K1 q Hq) NE n) as B. cbn [fst] in B.
      change (@fmul RNum dtol (@f2 RNum)) with (dtol * 2) in SW. lra.
    - assert (NI : ~ In p l).
      { intro Hl. destruct (Forall2_in_r _ _ _ _ K4 Hl) as ([w e] & Hw & [_ (n1 & E1)]). destruct R1 as [_ (n2 & E2)]. cbn [fst] in E1, E2.
        apply not_true_iff_false in EX. apply EX. apply existsb_exists. exists w. split; [now apply in_combine_l in Hw|]. rewrite E1, E2. exact (whole_same dtol L ft _ n2 n1 Hft H0). }
      exists (l ++ [p]). split; [|split; [apply in_or_app; right; now left|intros x Hx; apply in_or_app; now left]]. constructor; cbn [fst snd].
      + intros x Hx. apply in_app_or in Hx. destruct Hx as [Hx|[<-|[]]]; [now apply K1|exact Hp].
      + apply (Permutation_NoDup (l := p :: l)); [apply Permutation_cons_append|]. now constructor.
      + rewrite !app_length. cbn [List.length]. cbn [num RNum] in *. lia.
      + rewrite combine_snoc by exact K3. apply Forall2_app; [exact K4|]. constructor; [exact R1|constructor].
  Qed.
  Lemma fold_pass : forall sites, (forall z f, In (z, f) sites -> exists p, In p S /\ rel (MofZ g) (z, f) p) -> forall l st, kept S g l st ->
    exists l', kept S g l' (fold_left (@fp_fold_step RNum L ft dtol) sites st) /\ incl l l' /\ forall z f p, In (z, f) sites -> rel (MofZ g) (z, f) p -> In p S -> In p l'.
  Proof using All.
    assert (UN : forall y p q, rel (MofZ g) y p -> rel (MofZ g) y q -> In p S -> In q S -> p = q).
    { intros y p q Op Oq Hp Hq. destruct (site_dec p q) as [D|D]; [exact D|exfalso]. pose proof (PAIR _ _ p q Op Oq Hp Hq D (V 0 0 0)%Z) as X.
      replace (Vadd (Vsub (fst y) (fst y)) (VofZ (V 0 0 0)%Z)) with (V0 : vec R) in X by (generalize (fst y); intros [a b c]; unfold Vadd, Vsub, VofZ, V0; cbn; f_equal; ring).
      rewrite Mapp_V0, Vnorm_V0 in X. lra. }
    induction sites as [|[y f] sites IH]; intros HS l st K; cbn [fold_left]; [exists l; split; [exact K|split; [intros x Hx; exact Hx|intros ? ? ? []]]|].
    destruct (HS y f (or_introl eq_refl)) as (p & Hp & HY).
    destruct (fold_step y f p l st HY Hp K) as (l1 & A1 & A2 & A3). destruct (IH (fun y' f' H' => HS y' f' (or_intror H')) l1 _ A1) as (l2 & B1 & B2 & B3).
    exists l2. split; [exact B1|]. split; [intros x Hx; apply B2, A3, Hx|]. intros y' f' p' [E|H'] O' P'; [|now apply (B3 y' f')]. injection E as <- <-. rewrite (UN (y, f) p' p O' HY P' Hp). apply B2, A2.
  Qed.
End Fold.
