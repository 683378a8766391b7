(** Cells with several atoms: how the sites travel through the stages of the run (analyzer.rs 36-110, reduce.rs, structure.rs) *)
From Coq Require Import ZArith Reals String Ascii List Bool Lia Lra Psatz Permutation Sorted.
From Verif Require Import Num Mat Utils DataCore SymmOp PointGroup SpaceGroup Structure Reduce Analyzer RInst Spec Spec2 Spec3 RFacts
  PUtils PSymmOp PStructure PStructure2 PStructure3 PNiggli PDelaunay PPrim PPrim2 PLattice PAnalyzer PAnalyzer2 PEnd PEnd2 Prop5.
Import ListNotations.
Open Scope R_scope.

Definition site : Type := vec R * string.
(** ** Pairwise properties *)
Lemma FOP_perm {A} (Q : A -> A -> Prop) l l' : (forall x y, Q x y -> Q y x) -> Permutation l l' -> ForallOrdPairs Q l -> ForallOrdPairs Q l'.
Proof.
  intros HS P. induction P as [|a l l' P IH|a b l|l l' l'' P1 IH1 P2 IH2]; intro F; auto.
  - inversion F as [|x y F1 F2]; subst. constructor; [|now apply IH]. apply Forall_forall. intros x Hx. rewrite Forall_forall in F1. apply F1.
    now apply (Permutation_in _ (Permutation_sym P)).
  - inversion F as [|x y F1 F2]; subst. inversion F2 as [|x y F3 F4]; subst. inversion F1 as [|x y F5 F6]; subst. repeat constructor; auto.
Qed.
Lemma FOP_forall2 {A B} (Q : A -> A -> Prop) (Q' : B -> B -> Prop) (S : A -> B -> Prop) l m :
  (forall a a' b b', S a b -> S a' b' -> Q' b b' -> Q a a') -> Forall2 S l m -> ForallOrdPairs Q' m -> ForallOrdPairs Q l.
Proof.
  intros H F. induction F as [|a b l m E F IH]; intro FO; [constructor|]. inversion FO as [|x y F1 F2]; subst. constructor; [|now apply IH].
  clear - H E F F1. induction F as [|a' b' l m E' F IH]; [constructor|]. inversion F1; subst. constructor; [eapply H; eauto|now apply IH].
Qed.
Lemma FOP_nth {A} (Q : A -> A -> Prop) l i j a b : (forall x y, Q x y -> Q y x) -> ForallOrdPairs Q l -> i <> j -> nth_error l i = Some a -> nth_error l j = Some b -> Q a b.
Proof.
  intros HS F. revert i j. induction F as [|c l F1 F2 IH]; intros i j N A1 A2; [destruct i; discriminate|]. rewrite Forall_forall in F1.
  destruct i as [|i], j as [|j]; cbn in A1, A2; [congruence| | |].
  - injection A1 as ->. apply F1. now apply nth_error_In in A2.
  - injection A2 as ->. apply HS, F1. now apply nth_error_In in A1.
  - apply (IH i j); auto.
Qed.
Lemma nth_FOP {A} (Q : A -> A -> Prop) l : (forall i j a b, (i < j)%nat -> nth_error l i = Some a -> nth_error l j = Some b -> Q a b) -> ForallOrdPairs Q l.
Proof.
  induction l as [|c l IH]; intro H; constructor.
  - apply Forall_forall. intros x Hx. apply In_nth_error in Hx. destruct Hx as (j & Hj). apply (H 0%nat (S j)); [lia|reflexivity|exact Hj].
  - apply IH. intros i j a b Hij A1 A2. apply (H (S i) (S j)); [lia|exact A1|exact A2].
Qed.
Lemma Forall2_perm_r {A B} (S : A -> B -> Prop) b c : Permutation b c -> forall a, Forall2 S a b -> exists a', Permutation a a' /\ Forall2 S a' c.
Proof.
  intro P. induction P as [|x l l' P IH|x y l|l l' l'' P1 IH1 P2 IH2]; intros a F.
  - inversion F; subst. exists []. auto.
  - inversion F as [|u v m m' E F']; subst. destruct (IH _ F') as (a' & A1 & A2). exists (u :: a'). auto.
  - inversion F as [|u v m m' E F']; subst. inversion F' as [|u' v' n n' E' F'']; subst. exists (u' :: u :: n). split; [apply perm_swap|auto].
  - destruct (IH1 _ F) as (a' & A1 & A2). destruct (IH2 _ A2) as (a'' & A3 & A4). exists a''. split; [eapply perm_trans; eauto|exact A4].
Qed.
Lemma Forall2_compose {A B C} (S : A -> B -> Prop) (T : B -> C -> Prop) (U : A -> C -> Prop) a b c :
  (forall x y z, S x y -> T y z -> U x z) -> Forall2 S a b -> Forall2 T b c -> Forall2 U a c.
Proof. intros H F. revert c. induction F as [|x y a b E F IH]; intros c G; inversion G; subst; constructor; eauto. Qed.
Lemma choose_list {A B} (S : A -> B -> Prop) (t : list A) m : (forall b, In b m -> exists a, In a t /\ S a b) -> exists l, Forall2 S l m /\ incl l t.
Proof.
  induction m as [|b m IH]; intro H; [exists []; split; [constructor|intros x []]|].
  destruct (H b (or_introl eq_refl)) as (a & Ha & E). destruct IH as (l & F & I). { intros x Hx. apply H. now right. }
  exists (a :: l). split; [now constructor|]. intros x [<-|Hx]; auto.
Qed.

(** ** Sites a distance apart, in the metric of [m] *)
Definition apart (d : R) (m : mat R) (l : list site) : Prop := ForallOrdPairs (fun p q => forall n, d < Vnorm (Mapp m (Vadd (Vsub (fst p) (fst q)) (VofZ n)))) l.
Lemma apart_sym d m (p q : site) : (forall n, d < Vnorm (Mapp m (Vadd (Vsub (fst p) (fst q)) (VofZ n)))) -> forall n, d < Vnorm (Mapp m (Vadd (Vsub (fst q) (fst p)) (VofZ n))).
Proof.
  intros H n. specialize (H (zneg n)). rewrite VofZ_neg in H.
  replace (Vadd (Vsub (fst p) (fst q)) (Vscal (-1) (VofZ n))) with (Vscal (-1) (Vadd (Vsub (fst q) (fst p)) (VofZ n))) in H.
  - rewrite Mapp_scal, Vnorm_scal in H. replace (Rabs (-1)) with 1 in H by (rewrite Rabs_left; lra). now rewrite Rmult_1_l in H.
  - destruct p as [[a1 a2 a3] e], q as [[b1 b2 b3] f]. unfold Vadd, Vsub, Vscal, VofZ. cbn. f_equal; ring.
Qed.
Lemma apart_perm d m l l' : Permutation l l' -> apart d m l -> apart d m l'.
Proof. apply FOP_perm. intros. now apply apart_sym. Qed.
Definition rel (g : mat R) (q p : site) : Prop := snd q = snd p /\ Vcongr (fst q) (Mapp g (fst p)).
Lemma apart_rel d m W Wi l S : ZMmul Wi W = ZMid -> Forall2 (rel (MofZ Wi)) l S -> apart d (Mmul m (MofZ Wi)) S -> apart d m l.
Proof.
  intros HW F. apply (FOP_forall2 _ _ (rel (MofZ Wi))); [|exact F]. intros [y e] [y' e'] [x f] [x' f'] [_ (k & Ek)] [_ (k' & Ek')] A n.
  cbn [fst snd] in *. specialize (A (ZMapp W (ZVadd n (ZVadd k (zneg k'))))). rewrite Mapp_Mmul in A.
  replace (Vadd (Vsub y y') (VofZ n)) with (Mapp (MofZ Wi) (Vadd (Vsub x x') (VofZ (ZMapp W (ZVadd n (ZVadd k (zneg k'))))))); [exact A|].
  rewrite Mapp_add, Mapp_sub, MofZ_app, <- Mapp_Mmul, <- MofZ_mul, HW, MofZ_id, Mapp_id, !VofZ_add, VofZ_neg, Ek, Ek'.
  generalize (Mapp (MofZ Wi) x), (Mapp (MofZ Wi) x'). intros [a1 a2 a3] [b1 b2 b3]. destruct k, k', n. unfold Vadd, Vsub, Vscal, VofZ. cbn. f_equal; ring.
Qed.
Lemma apart_distinct d m l : 0 <= d -> apart d m l -> NoDup l.
Proof.
  intros Hd F. induction F as [|a l F1 F2 IH]; constructor; [|exact IH]. intro Ha. rewrite Forall_forall in F1. specialize (F1 a Ha (V 0 0 0)%Z).
  replace (Vadd (Vsub (fst a) (fst a)) (VofZ (V 0 0 0)%Z)) with (V0 : vec R) in F1.
  - rewrite Mapp_V0, Vnorm_V0 in F1. lra.
  - destruct a as [[a1 a2 a3] e]. unfold Vadd, Vsub, VofZ, V0. cbn. f_equal; ring.
Qed.
Lemma apart_weaken d d' m l : d' <= d -> apart d m l -> apart d' m l.
Proof. intros H F. apply (FOP_forall2 _ (fun p q => forall n, d < Vnorm (Mapp m (Vadd (Vsub (fst p) (fst q)) (VofZ n)))) eq l l); [|clear; induction l; auto|exact F].
  intros a a' b b' -> -> Q n. specialize (Q n). lra. Qed.

(** ** The sites of [t] are those of [S] moved by [g], up to order and whole periods *)
Definition sites_of (t : @structure RNum) : list site := combine (frac_coords t) (species t).
Record like (g : mat R) (S : list site) (t : @structure RNum) : Prop := {
  lk_len : List.length (frac_coords t) = List.length (species t);
  lk_coords : coords t = map (Mapp (lattice t)) (frac_coords t);
  lk_sorted : StronglySorted (fun a b => String.leb a b = true) (species t);
  lk_sites : exists l, Permutation (sites_of t) l /\ Forall2 (rel g) l S }.
Lemma F2_length {A B} (Q : A -> B -> Prop) l m : Forall2 Q l m -> List.length l = List.length m.
Proof. intro F. induction F; cbn; congruence. Qed.
Lemma zip_length {A B} (l : list A) (m : list B) : List.length l = List.length m -> List.length (combine l m) = List.length m.
Proof. intro E. rewrite combine_length, E. apply Nat.min_id. Qed.
Lemma zip_nth {A B} (l : list A) (m : list B) k a b : nth_error l k = Some a -> nth_error m k = Some b -> nth_error (combine l m) k = Some (a, b).
Proof. revert l m. induction k as [|k IH]; intros [|x l] [|y m]; cbn; try discriminate; [congruence|apply IH]. Qed.
Lemma like_length g S t : like g S t -> List.length (species t) = List.length S.
Proof.
  intros [A _ _ (l & P & F)]. apply Permutation_length in P. apply F2_length in F. assert (Q : List.length (sites_of t) = List.length (species t)) by (apply zip_length; exact A). congruence.
Qed.
Lemma swap_combine {A B} (z : list (A * B)) : combine (map snd z) (map fst z) = map (fun p => (snd p, fst p)) z.
Proof. induction z as [|a z IH]; cbn; [reflexivity|]. now rewrite IH. Qed.
Lemma like_normalize g S L sp c fc (dtol : R) : List.length fc = List.length sp ->
  (exists l, Permutation (combine fc sp) l /\ Forall2 (rel g) l S) -> like g S (@normalize_coords RNum (Structure (N := RNum) L sp c fc) dtol).
Proof.
  intros HL (l & P & F). set (s0 := Structure (N := RNum) L sp c fc).
  destruct (normalize_coords_spec s0 dtol) as (_ & _ & _ & SRT & _). destruct (normalize_coords_zip s0 dtol) as (z & Pz & Sz & _ & E). cbn [num RNum] in *. rewrite E in SRT |- *.
  cbn [s0 lattice frac_coords species] in *. constructor; cbn [frac_coords species coords lattice].
  - now rewrite !map_length.
  - reflexivity.
  - exact SRT.
  - unfold sites_of. cbn [frac_coords species]. rewrite swap_combine. set (ft := @frac_tols_of RNum L dtol) in *.
    assert (P1 : Permutation (map (fun p => (snd p, fst p)) z) (combine (@normalize_frac_vectors RNum fc ft) sp)).
    { eapply perm_trans; [apply Permutation_map; exact Pz|]. rewrite <- swap_combine.
      assert (G : forall (a : list string) (b : list (vec R)), List.length b = List.length a -> combine (map snd (combine a b)) (map fst (combine a b)) = combine b a).
      { clear. induction a as [|x a IH]; intros [|y b] H; try discriminate; [reflexivity|]. cbn. f_equal. apply IH. now injection H. }
      rewrite G; [apply Permutation_refl|]. unfold normalize_frac_vectors. now rewrite map_length. }
    assert (F1 : Forall2 (fun q p : site => snd q = snd p /\ Vcongr (fst q) (fst p)) (combine (@normalize_frac_vectors RNum fc ft) sp) (combine fc sp)).
    { clear - HL. unfold normalize_frac_vectors. revert sp HL. induction fc as [|x fc IH]; intros [|e sp] H; try discriminate; cbn; constructor.
      - cbn. split; [reflexivity|]. destruct (normalize_vec_shift x ft) as (n & E). exists n. exact E.
      - apply IH. now injection H. }
    destruct (Forall2_perm_r _ _ _ P _ F1) as (a' & Q1 & Q2). exists a'. split; [eapply perm_trans; eauto|].
    apply (Forall2_compose _ _ _ _ _ _ (fun x y z (H1 : snd x = snd y /\ Vcongr (fst x) (fst y)) (H2 : rel g y z) =>
      conj (eq_trans (proj1 H1) (proj1 H2)) (Vcongr_trans _ _ _ (proj2 H1) (proj2 H2))) Q2 F).
Qed.
Lemma like_grouped g S t : like g S t -> grouped (species t).
Proof.
  intros [_ _ St _] i j k e Hij Hi Hk.
  assert (G : forall l : list string, StronglySorted (fun a b => String.leb a b = true) l -> forall i j a b, (i < j)%nat -> nth_error l i = Some a -> nth_error l j = Some b -> String.leb a b = true).
  { clear. intros l SS. induction SS as [|c l SS IH F]; intros i j a b Hij A B; [destruct i; discriminate|]. destruct j as [|j]; [lia|]. destruct i as [|i]; cbn in A, B.
    - injection A as ->. rewrite Forall_forall in F. apply F. now apply nth_error_In in B.
    - apply (IH i j); auto. lia. }
  destruct (Nat.eq_dec i j) as [->|N1]; [exact Hi|]. destruct (Nat.eq_dec j k) as [->|N2]; [exact Hk|].
  destruct (nth_error (species t) j) as [f|] eqn:Hj.
  - f_equal. apply String.leb_antisym; [apply (G _ St j k); auto; lia|apply (G _ St i j); auto; lia].
  - exfalso. apply nth_error_None in Hj. assert (k < List.length (species t))%nat by (apply nth_error_Some; congruence). lia.
Qed.
(** distances between the sites of [t] *)
Lemma like_apart d m W Wi S t : ZMmul Wi W = ZMid -> like (MofZ Wi) S t -> apart d (Mmul m (MofZ Wi)) S -> apart d m (sites_of t).
Proof. intros HW [_ _ _ (l & P & F)] A. apply (apart_perm _ _ l); [now apply Permutation_sym|]. exact (apart_rel d m W Wi l S HW F A). Qed.
Lemma rel_move (A : mat Z) g f l S : (forall p q : site, rel g q p -> rel (Mmul (MofZ A) g) (f q) p) -> Forall2 (rel g) l S -> Forall2 (rel (Mmul (MofZ A) g)) (map f l) S.
Proof. intros H F. induction F; cbn; constructor; auto. Qed.
Lemma Vcongr_app (A : mat Z) u v : Vcongr u v -> Vcongr (Mapp (MofZ A) u) (Mapp (MofZ A) v).
Proof. intros (n & ->). exists (ZMapp A n). now rewrite Mapp_add, MofZ_app. Qed.
Lemma rel_app (A : mat Z) g (p q : site) : rel g q p -> rel (Mmul (MofZ A) g) (Mapp (MofZ A) (fst q), snd q) p.
Proof. intros [E C]. split; [exact E|]. cbn [fst]. rewrite Mapp_Mmul. now apply Vcongr_app. Qed.
Lemma combine_map_l {A B C} (f : A -> C) (l : list A) (m : list B) : combine (map f l) m = map (fun q => (f (fst q), snd q)) (combine l m).
Proof. revert m. induction l as [|a l IH]; intros [|b m]; cbn; auto. now rewrite IH. Qed.
(** the sites of [t], all written in another basis, make the same crystal *)
Lemma like_rebase (A : mat Z) g S t : like g S t -> exists l, Permutation (combine (map (Mapp (MofZ A)) (frac_coords t)) (species t)) l /\ Forall2 (rel (Mmul (MofZ A) g)) l S.
Proof.
  intros [_ _ _ (l & P & F)]. exists (map (fun q => (Mapp (MofZ A) (fst q), snd q)) l). split.
  - rewrite combine_map_l. apply Permutation_map. exact P.
  - apply rel_move; [|exact F]. intros p q. apply rel_app.
Qed.

Lemma apply_sorted (s s' : @structure RNum) (T : mat R) (pt : R) fuel : @apply_transformation RNum fuel s T pt = Ok s' -> StronglySorted (fun a b => String.leb a b = true) (species s').
Proof.
  intro E. assert (D : Mdet T <> 0) by (apply apply_transformation_sound in E; tauto). rewrite apply_transformation_unfold in E by exact D.
  destruct (at_search _ _ _ _ _ _ _ _) as [[nfc nsp]|p|]; try discriminate. cbn [bind] in E. injection E as <-.
  destruct (normalize_coords_spec (Structure (N := RNum) (Mmul (lattice s) T) nsp (map (Mapp (Mmul (lattice s) T)) nfc) nfc) pt) as (_ & _ & _ & SRT & _). exact SRT.
Qed.
(** ** The stages *)
Lemma nth_lt {A} (l : list A) i x : nth_error l i = Some x -> (i < List.length l)%nat.
Proof. intro E. apply nth_error_Some. congruence. Qed.
(** nothing is merged when the sites are apart *)
Lemma fold_no_merge L ft (dtol : R) (l : list site) : forall st : list site, apart (2 * dtol) L (st ++ l) ->
  fold_left (@fp_fold_step RNum L ft dtol) l (map fst st, map snd st) = (map fst (st ++ l), map snd (st ++ l)).
Proof.
  induction l as [|[x e] l IH]; intros st A; cbn [fold_left]; [now rewrite app_nil_r|].
  assert (E : @fp_fold_step RNum L ft dtol (map fst st, map snd st) (x, e) = (map fst (st ++ [(x, e)]), map snd (st ++ [(x, e)]))).
  { unfold fp_fold_step. cbn [fst snd]. replace (existsb _ _) with false; [now rewrite !map_app|]. symmetry. apply not_true_iff_false. intro Q.
    apply existsb_exists in Q. destruct Q as (y & Hy & Q). apply in_map_iff in Hy. destruct Hy as (q & <- & Hq). apply same_site_R in Q. destruct Q as (n & Q).
    apply In_nth_error in Hq. destruct Hq as (i & Hi).
    assert (D : 2 * dtol < Vnorm (Mapp L (Vadd (Vsub x (fst q)) (VofZ n)))).
    { assert (G := FOP_nth _ _ (List.length st) i (x, e) q (fun u v => apart_sym _ _ u v) A). cbn [fst] in G. apply G.
      - exact (Nat.neq_sym _ _ (Nat.lt_neq _ _ (nth_lt _ _ _ Hi))).
      - rewrite nth_error_app2, Nat.sub_diag by lia. reflexivity.
      - rewrite nth_error_app1; [exact Hi|exact (nth_lt _ _ _ Hi)]. }
    change (@fmul RNum dtol (@f2 RNum)) with (dtol * 2) in Q. lra. }
  numR. rewrite E. rewrite IH; rewrite <- app_assoc; [reflexivity|exact A].
Qed.
Section Steps.
  Context (P : @Pinv RNum) (HO : HashOrd) (dtol : R).
  Hypothesis HP : pinv_inverts P.
  (** find_primitive_cell, when the crystal has no inner translation *)
  Lemma prim_like path (s : @structure RNum) : List.length (frac_coords s) = List.length (species s) -> 0 <= dtol -> well_conditioned (lattice s) ->
    (0 < Z.of_nat (List.length (species s)) <= 65535)%Z ->
    (forall k, (k < 3)%nat -> dtol <= Vnorm (Ccol (lattice s) k) /\ dtol * Vnorm (Ccol (lattice s) k) < Rabs (Mdet (lattice s))) ->
    dtol < Rabs (Mdet (lattice s)) -> no_inner_translation dtol s ->
    exists p y1 y2 y3, @find_primitive_cell RNum P HO path dtol s = Ok p /\ lattice p = Mmul (lattice s) (MofZ (zcols y1 y2 y3)) /\
      (ZMdet (zcols y1 y2 y3) = 1 \/ ZMdet (zcols y1 y2 y3) = -1)%Z /\ 0 < Mdet (lattice p) /\ In y1 dirs26 /\ In y2 dirs26 /\ In y3 dirs26 /\
      shortest3 (lattice s) y1 y2 y3 /\
      (forall Ti, ZMmul (zcols y1 y2 y3) Ti = ZMid -> well_conditioned (lattice p) -> apart (2 * dtol) (Mmul (lattice s) (MofZ Ti)) (sites_of s) ->
         like (MofZ Ti) (sites_of s) p).
  Proof.
    intros WF H0 W HL HC HD NI.
    assert (HC' : forall k, (k < 3)%nat -> 0 < Vnorm (Ccol (lattice s) k) /\ dtol <= Vnorm (Ccol (lattice s) k) /\ dtol * Vnorm (Ccol (lattice s) k) < Rabs (Mdet (lattice s))).
    { intros k Hk. split; [|now apply HC]. apply well_conditioned_col; assumption. }
    destruct (prim_keeps_shortest P HO path dtol s (eq_sym WF) H0) as (y1 & y2 & y3 & E & I1 & I2 & I3 & D & DP & S3); auto.
    { intro Q. rewrite Q in HL. cbn in HL. lia. } { lia. }
    cbv zeta in E, DP. unfold col in E, DP. rewrite cols_app in E, DP.
    eexists. exists y1, y2, y3. split; [exact E|]. rewrite (proj1 (normalize_coords_spec _ dtol)). cbn [lattice].
    split; [reflexivity|]. split; [exact D|]. split; [lra|]. do 4 (split; [assumption|]). intros Ti HI Wp A.
    set (Z1 := zcols y1 y2 y3) in *. set (L' := Mmul (lattice s) (MofZ Z1)) in *.
    assert (LT : like (MofZ ZMid) (sites_of s) (@normalize_coords RNum s dtol)).
    { destruct s as [L sp c fc]. apply like_normalize; [exact WF|]. exists (sites_of (Structure (N := RNum) L sp c fc)). split; [apply Permutation_refl|].
      rewrite MofZ_id. clear. induction (sites_of _) as [|p l IH]; constructor; [|exact IH]. split; [reflexivity|]. rewrite Mapp_id. apply Vcongr_refl. }
    set (t := @normalize_coords RNum s dtol) in *. assert (LL : lattice t = lattice s) by reflexivity.
    assert (EC : map (Mapp (@pinv RNum P L')) (coords t) = map (Mapp (MofZ Ti)) (frac_coords t)).
    { rewrite (lk_coords _ _ _ LT), map_map. apply map_ext. intro x. rewrite LL. destruct (HP _ Wp) as [_ I].
      rewrite <- (Mapp_id (Mapp (MofZ Ti) x)), <- I. unfold L'. rewrite !Mapp_Mmul, <- (Mapp_Mmul (MofZ Z1)), <- MofZ_mul, HI, MofZ_id, Mapp_id. reflexivity. }
    destruct (like_rebase Ti _ _ t LT) as (l & Pl & Fl). rewrite MofZ_id, Mmul_id_r in Fl.
    assert (FE : folded P dtol s L' = (map fst (combine (map (Mapp (MofZ Ti)) (frac_coords t)) (species t)), map snd (combine (map (Mapp (MofZ Ti)) (frac_coords t)) (species t)))).
    { unfold folded. fold t. rewrite EC. apply (fold_no_merge (lattice s) _ dtol _ []). cbn [app].
      apply (apart_perm _ _ l); [now apply Permutation_sym|]. apply (apart_rel _ _ Z1 Ti l (sites_of s)); [now apply zinv_comm|exact Fl|exact A]. }
    rewrite FE. cbn [fst snd]. apply like_normalize; [now rewrite !map_length|]. exists l. split; [|exact Fl].
    replace (combine (map fst _) (map snd _)) with (combine (map (Mapp (MofZ Ti)) (frac_coords t)) (species t)); [exact Pl|].
    clear. induction (combine _ _) as [|[a b] z IH]; cbn; [reflexivity|]. now rewrite <- IH.
  Qed.
  Lemma niggli_like (p q : @structure RNum) g S : like g S p -> 0 < Mdet (lattice p) -> 1 / 100000 * Rpower (Mdet (lattice p)) (1 / 3) < 1 ->
    @niggli_reduce RNum P dtol p (1 / 100000) = Ok q -> well_conditioned (lattice q) ->
    exists T, ZMdet T = 1%Z /\ lattice q = Mmul (lattice p) (MofZ T) /\ forall Ti, ZMmul T Ti = ZMid -> like (Mmul (MofZ Ti) g) S q.
  Proof using HP.
    intros Lp HD He E W.
    assert (He' : 0 <= 1 / 100000 * Rpower (Mdet (lattice p)) (1 / 3) < 1) by (split; [apply Rmult_le_pos; [lra|apply Rlt_le, exp_pos]|exact He]).
    destruct (niggli_reduce_spec P dtol p q (1 / 100000) HD He' E) as (T & HT & EQ & _).
    assert (EL : lattice q = Mmul (lattice p) (MofZ T)) by now rewrite EQ.
    exists T. split; [exact HT|]. split; [exact EL|]. intros Ti HI. rewrite EQ. unfold rebuilt. rewrite EL in W.
    assert (EC : map (Mapp (@pinv RNum P (Mmul (lattice p) (MofZ T)))) (coords p) = map (Mapp (MofZ Ti)) (frac_coords p)).
    { rewrite (lk_coords _ _ _ Lp), map_map. apply map_ext. intro x. destruct (HP _ W) as [_ I].
      rewrite <- (Mapp_id (Mapp (MofZ Ti) x)), <- I. rewrite !Mapp_Mmul, <- (Mapp_Mmul (MofZ T)), <- MofZ_mul, HI, MofZ_id, Mapp_id. reflexivity. }
    rewrite EC. apply like_normalize; [rewrite map_length; exact (lk_len _ _ _ Lp)|]. now apply like_rebase.
  Qed.
  (** apply_transformation with a unimodular matrix *)
  Lemma apply_like (q : @structure RNum) (T Ti W Wi : mat Z) S fuel : like (MofZ Wi) S q -> ZMmul Wi W = ZMid -> ZMmul T Ti = ZMid -> (ZMdet T = 1 \/ ZMdet T = -1)%Z -> 0 <= dtol ->
    (forall k, 0 < Vnorm (Ccol (lattice q) k)) -> (forall k, dtol <= Vnorm (Ccol (lattice q) k)) -> (1 <= fuel)%nat ->
    apart (2 * dtol) (Mmul (lattice q) (MofZ (ZMmul Ti Wi))) S ->
    exists c, @apply_transformation RNum fuel q (MofZ T) dtol = Ok c /\ lattice c = Mmul (lattice q) (MofZ T) /\ like (MofZ (ZMmul Ti Wi)) S c.
  Proof using.
    intros Lq HW HI HD H0 HC HC' HF AP. pose proof (zinv_comm _ _ HI) as HI'.
    assert (AQ : apart (2 * dtol) (Mmul (lattice q) (MofZ Ti)) (sites_of q)).
    { apply (like_apart _ _ W Wi S); [exact HW|exact Lq|]. rewrite Mmul_assoc, <- MofZ_mul. exact AP. }
    assert (LC : List.length (coords q) = List.length (species q)) by (rewrite (lk_coords _ _ _ Lq), map_length; exact (lk_len _ _ _ Lq)).
    assert (A1 : Z.to_nat (Z.abs (ZMdet T)) = 1%nat) by (destruct HD as [-> | ->]; reflexivity).
    destruct (C68_supercell_complete q T (MofZ Ti) dtol fuel) as (c & E & EL & N1 & N2 & ECc & H); auto.
    - destruct HD as [-> | ->]; discriminate.
    - split; rewrite <- MofZ_mul, ?HI, ?HI'; apply MofZ_id.
    - exact (lk_len _ _ _ Lq).
    - intros i j x y m Hx Hy [Hij|Hm].
      + assert (X : exists e, nth_error (species q) i = Some e).
        { destruct (nth_error (species q) i) eqn:Q; [eauto|]. apply nth_error_None in Q. pose proof (nth_lt _ _ _ Hx). pose proof (lk_len _ _ _ Lq). lia. }
        assert (Y : exists e, nth_error (species q) j = Some e).
        { destruct (nth_error (species q) j) eqn:Q; [eauto|]. apply nth_error_None in Q. pose proof (nth_lt _ _ _ Hy). pose proof (lk_len _ _ _ Lq). lia. }
        destruct X as (e & He), Y as (f & Hf).
        assert (G := FOP_nth _ _ i j (x, e) (y, f) (fun u v => apart_sym _ _ u v) AQ Hij). cbn [fst] in G. rewrite <- Mapp_Mmul. apply G; apply zip_nth; assumption.
      + exfalso. apply Hm. exists (ZMapp Ti m). apply VofZ_inj. rewrite !MofZ_app, <- Mapp_Mmul, <- MofZ_mul, HI, MofZ_id, Mapp_id. reflexivity.
    - lia.
    - exists c. split; [exact E|]. split; [exact EL|]. rewrite A1, Nat.mul_1_r in N1, N2.
      assert (SO : StronglySorted (fun a b => String.leb a b = true) (species c)) by (exact (apply_sorted _ _ _ _ _ E)).
      constructor; [congruence|exact ECc|exact SO|].
      destruct (lk_sites _ _ _ Lq) as (l & Pl & Fl).
      destruct (choose_list (rel (MofZ (ZMmul Ti Wi))) (sites_of c) S) as (l' & F' & I').
      { intros p Hp. assert (X : exists q0, In q0 l /\ rel (MofZ Wi) q0 p).
        { clear - Fl Hp. induction Fl as [|a b l m R F IH]; [destruct Hp|]. destruct Hp as [->|Hp]; [exists a; split; [now left|exact R]|]. destruct (IH Hp) as (q0 & A & B). exists q0. split; [now right|exact B]. }
        destruct X as ([x e] & Hx & [Ex Cx]). cbn [fst snd] in Ex, Cx. apply (Permutation_in _ (Permutation_sym Pl)) in Hx. unfold sites_of in Hx. apply In_nth_error in Hx. destruct Hx as (i & Hi). apply nth_combine in Hi. destruct Hi as [Hi1 Hi2].
        destruct (H i e x (V 0 0 0)%Z Hi2 Hi1) as (k & y & n & K1 & K2 & K3). exists (y, e). split.
        { apply (nth_error_In _ k). now apply zip_nth. }
        split; [exact Ex|]. cbn [fst]. rewrite MofZ_mul, Mapp_Mmul. apply (Vcongr_trans _ (Mapp (MofZ Ti) x)); [|now apply Vcongr_app].
        exists n. rewrite <- (Mapp_id y), <- MofZ_id, <- HI', MofZ_mul, Mapp_Mmul, K3. rewrite !Mapp_add, <- (Mapp_Mmul (MofZ Ti) (MofZ T)), <- MofZ_mul, HI', MofZ_id, Mapp_id.
        rewrite VofZ_0, Mapp_V0. generalize (Mapp (MofZ Ti) x). intros [a1 a2 a3]. destruct n. unfold Vadd, VofZ, V0. cbn. f_equal; ring. }
      exists l'. split; [|exact F']. apply Permutation_sym, NoDup_Permutation_bis; [|..].
      + apply (apart_distinct (2 * dtol) (lattice q)); [lra|]. apply (apart_rel _ _ (ZMmul W T) (ZMmul Ti Wi) l' S); [|exact F'|exact AP].
        apply MofZ_inj. rewrite !MofZ_mul, !Mmul_assoc, <- (Mmul_assoc (MofZ Wi)), <- (MofZ_mul Wi W), HW, MofZ_id, Mmul_id_l, <- MofZ_mul, HI', MofZ_id. reflexivity.
      + rewrite (F2_length _ _ _ F'), <- (like_length _ _ _ Lq). unfold sites_of. apply Nat.eq_le_incl. rewrite <- N1. apply zip_length. exact (eq_trans N2 (eq_sym N1)).
      + exact I'.
  Qed.
End Steps.
