(** Proofs about pointgroup.rs *)
From Coq Require Import ZArith Reals String List Bool Lia Lra Permutation.
From Flocq Require Import Core.Raux.
From Verif Require Import Num Mat PointGroup RInst Spec PSymmOp.
Import ListNotations.
Open Scope Z_scope.

(** ** hash order *)
Lemma hord_In {H : HashOrd} p A (l : list A) x : In x (hord p l) <-> In x l.
Proof. split; apply Permutation_in; [apply hord_perm|apply Permutation_sym, hord_perm]. Qed.
Lemma hord_NoDup {H : HashOrd} p A (l : list A) : NoDup l -> NoDup (hord p l).
Proof. intro N. eapply Permutation_NoDup; [apply Permutation_sym, hord_perm|exact N]. Qed.
Lemma hord_length {H : HashOrd} p A (l : list A) : List.length (hord p l) = List.length l.
Proof. apply Permutation_length, hord_perm. Qed.

(** ** sets as lists *)
Lemma set_mem_In m s : set_mem m s = true <-> In m s.
Proof.
  unfold set_mem. rewrite existsb_exists. split.
  - intros (x & Hx & E). apply zmat_eqb_spec in E. now subst.
  - intro Hm. exists m. split; auto. apply zmat_eqb_refl.
Qed.
Lemma set_mem_false m s : set_mem m s = false <-> ~ In m s.
Proof. rewrite <- set_mem_In. destruct (set_mem m s); split; congruence. Qed.
Lemma set_insert_new s m : ~ In m s -> set_insert s m = s ++ [m].
Proof. intro H. unfold set_insert. apply set_mem_false in H. now rewrite H. Qed.

Lemma NoDup_snoc {A} (l : list A) x : NoDup l -> ~ In x l -> NoDup (l ++ [x]).
Proof.
  intros N H. apply (Permutation_NoDup (l := x :: l)).
  - apply Permutation_cons_append.
  - now constructor.
Qed.

Lemma set_of_list_spec l : NoDup (set_of_list l) /\ forall m, In m (set_of_list l) <-> In m l.
Proof.
  unfold set_of_list.
  assert (G : forall l s, NoDup s -> NoDup (fold_left set_insert l s) /\
                (forall m, In m (fold_left set_insert l s) <-> In m s \/ In m l)).
  { clear l. induction l as [|x l IH]; intros s N; cbn [fold_left].
    - split; auto. cbn. tauto.
    - unfold set_insert at 2 4. destruct (set_mem x s) eqn:E.
      + apply set_mem_In in E. destruct (IH s N) as [N' I]. split; auto. intro m. rewrite I. cbn.
        split; [tauto|]. intros [?|[<-|?]]; auto.
      + apply set_mem_false in E. destruct (IH (s ++ [x])) as [N' I]; [now apply NoDup_snoc|].
        split; auto. intro m. rewrite I, in_app_iff. cbn. tauto. }
  destruct (G l [] (NoDup_nil _)) as [N I]. split; auto. intro m. rewrite I. cbn. tauto.
Qed.

(** ** one round *)
Lemma pg_fold_pairs pairs : forall S G, incl G S ->
  exists add, fold_left pg_pair_step pairs (S, G) = (S ++ add, G ++ add) /\
    (NoDup S -> NoDup (S ++ add)) /\
    (forall p, In p pairs -> In (i8_mmul (fst p) (snd p)) (S ++ add)) /\
    (forall m, In m add -> ~ In m S /\ exists p, In p pairs /\ m = i8_mmul (fst p) (snd p)).
Proof.
  induction pairs as [|p pairs IH]; intros S G Hi.
  - exists []. cbn. rewrite !app_nil_r. repeat split; auto; tauto.
  - cbn [fold_left]. unfold pg_pair_step at 2.
    destruct (set_mem (i8_mmul (fst p) (snd p)) S) eqn:E.
    + apply set_mem_In in E. destruct (IH S G Hi) as (add & E1 & N & C & A).
      exists add. split; auto. split; auto. split.
      * intros q [<-|Hq]; auto. apply in_app_iff. auto.
      * intros m Hm. destruct (A m Hm) as (A1 & q & A2 & A3). split; auto. exists q. cbn; auto.
    + apply set_mem_false in E. set (op := i8_mmul (fst p) (snd p)) in *.
      rewrite !set_insert_new by (auto; intro Q; apply E, Hi, Q).
      destruct (IH (S ++ [op]) (G ++ [op])) as (add & E1 & N & C & A).
      { intros x Hx. apply in_app_iff in Hx. apply in_app_iff. destruct Hx; auto. }
      exists (op :: add). rewrite <- !app_assoc in *. cbn [app] in *. split; auto. split; [|split].
      * intro N0. apply N. now apply NoDup_snoc.
      * intros q [<-|Hq].
        -- apply in_app_iff. right. left. reflexivity.
        -- exact (C q Hq).
      * intros m [<-|Hm].
        -- split; auto. exists p. cbn; auto.
        -- destruct (A m Hm) as (A1 & q & A2 & A3). split.
           ++ intro Q. apply A1, in_app_iff. auto.
           ++ exists q. cbn; auto.
Qed.

(** ** the loop *)
Section Gen.
  Context {H : HashOrd} (gens universe : list (mat Z)).
  Hypothesis Hfin : forall m, product_of gens m -> In m universe /\ i8_range m.

  Record pg_inv (S W : list (mat Z)) : Prop := {
    pi_nodup : NoDup S;
    pi_W : incl W S;
    pi_gens : incl gens S;
    pi_prod : forall m, In m S -> product_of gens m;
    pi_closed : forall g m, In g gens -> In m S -> ~ In m W -> In (ZMmul g m) S }.

  Lemma prod_i8 a b : product_of gens a -> product_of gens b -> i8_mmul a b = ZMmul a b.
  Proof. intros Ha Hb. apply i8_mmul_eq. apply Hfin. now constructor. Qed.

  Lemma pg_round_inv path n S W S' W' : pg_inv S W ->
    fold_left pg_pair_step (iproduct (hord (n :: 0%nat :: path) S) (hord (n :: 1%nat :: path) W)) (S, []) = (S', W') ->
    pg_inv S' W' /\ exists add, W' = add /\ S' = S ++ add.
  Proof.
    intros [N IW Ig Ip Ic] E.
    destruct (pg_fold_pairs (iproduct (hord (n :: 0%nat :: path) S) (hord (n :: 1%nat :: path) W)) S [])
      as (add & E1 & N1 & C & A); [intros x []|].
    rewrite E1 in E. injection E as <- <-. cbn [app].
    assert (P : forall p, In p (iproduct (hord (n :: 0%nat :: path) S) (hord (n :: 1%nat :: path) W)) <->
                 In (fst p) S /\ In (snd p) W).
    { intros [x y]. unfold iproduct. rewrite in_flat_map. cbn [fst snd]. split.
      - intros (u & Hu & Hm). apply in_map_iff in Hm. destruct Hm as (v & Ev & Hv). injection Ev as <- <-.
        rewrite hord_In in Hu, Hv. auto.
      - intros [Hx Hy]. exists x. rewrite hord_In. split; auto. apply in_map. now rewrite hord_In. }
    split; [|exists add; auto]. constructor.
    - auto.
    - intros x Hx. apply in_app_iff; auto.
    - intros x Hx. apply in_app_iff; left; auto.
    - intros m Hm. apply in_app_iff in Hm. destruct Hm as [Hm|Hm]; auto.
      destruct (A m Hm) as (_ & p & Hp & ->). apply P in Hp. destruct Hp as [H1 H2].
      assert (product_of gens (fst p)) by auto. assert (product_of gens (snd p)) by auto.
      rewrite prod_i8 by auto. now constructor.
    - intros g m Hg Hm Hn. apply in_app_iff in Hm. destruct Hm as [Hm|Hm]; [|tauto].
      destruct (in_dec mat_Z_eq_dec m W) as [Hw|Hw].
      + specialize (C (g, m)). cbn [fst snd] in C. rewrite prod_i8 in C.
        * apply C, P. cbn. auto.
        * now constructor.
        * auto.
      + apply in_app_iff. left. auto.
  Qed.

  Lemma closed_all S : pg_inv S [] -> forall m, product_of gens m -> In m S.
  Proof.
    intros I. assert (Q : forall a, product_of gens a -> forall b, In b S -> In (ZMmul a b) S).
    { induction 1 as [g Hg|a b Ha IHa Hb IHb]; intros x Hx.
      - apply (pi_closed _ _ I); auto.
      - rewrite ZMmul_assoc. auto. }
    induction 1 as [g Hg|a b Ha IHa Hb IHb].
    - now apply (pi_gens _ _ I).
    - apply Q; auto.
  Qed.

  Lemma pg_rounds_spec path : forall fuel n S W, pg_inv S W ->
    (W <> [] -> (List.length universe + 1 <= fuel + List.length S)%nat) ->
    exists ops, pg_rounds fuel path n S W = Ok ops /\ NoDup ops /\ forall m, In m ops <-> product_of gens m.
  Proof.
    induction fuel as [|fuel IH]; intros n S W I Hf.
    - destruct W as [|w W].
      + cbn. eexists. split; [reflexivity|]. split; [apply hord_NoDup, (pi_nodup _ _ I)|].
        intro m. rewrite hord_In. split; [apply (pi_prod _ _ I)|apply closed_all; auto].
      + exfalso. specialize (Hf ltac:(discriminate)). cbn in Hf.
        assert (List.length S <= List.length universe)%nat; [|lia].
        apply NoDup_incl_length; [apply (pi_nodup _ _ I)|]. intros x Hx. apply Hfin, (pi_prod _ _ I); auto.
    - destruct W as [|w W].
      + cbn. eexists. split; [reflexivity|]. split; [apply hord_NoDup, (pi_nodup _ _ I)|].
        intro m. rewrite hord_In. split; [apply (pi_prod _ _ I)|apply closed_all; auto].
      + cbn [pg_rounds].
        destruct (fold_left pg_pair_step
          (iproduct (hord (n :: 0%nat :: path) S) (hord (n :: 1%nat :: path) (w :: W))) (S, []))
          as [S' W'] eqn:E.
        destruct (pg_round_inv path n S (w :: W) S' W' I E) as (I' & add & -> & ->).
        apply IH; auto. intro Ha. specialize (Hf ltac:(discriminate)).
        rewrite app_length. destruct add; [tauto|]. cbn [List.length]. lia.
  Qed.

  Lemma generate_operations_spec fuel path : (List.length universe <= fuel)%nat ->
    exists ops, generate_operations fuel path gens = Ok ops /\ NoDup ops /\
                forall m, In m ops <-> product_of gens m.
  Proof.
    intro Hf. unfold generate_operations. destruct (set_of_list_spec gens) as [N I].
    apply pg_rounds_spec.
    - constructor; auto.
      + intros x Hx; auto.
      + intros x Hx. now apply I.
      + intros m Hm. constructor. now apply I.
      + intros g m Hg Hm Hn. tauto.
    - intro Hn. destruct (set_of_list gens); [tauto|]. cbn [List.length]. lia.
  Qed.
End Gen.

Lemma same_members_perm (l l' : list (mat Z)) : NoDup l -> NoDup l' ->
  (forall m, In m l <-> In m l') -> Permutation l l'.
Proof. apply NoDup_Permutation. Qed.

(** ** a closed list contains all products *)
Lemma products_in_closed gens S :
  incl gens S -> (forall g m, In g gens -> In m S -> In (ZMmul g m) S) ->
  forall m, product_of gens m -> In m S.
Proof.
  intros I C. assert (Q : forall a, product_of gens a -> forall b, In b S -> In (ZMmul a b) S).
  { induction 1 as [g Hg|a b Ha IHa Hb IHb]; intros x Hx; [auto|]. rewrite ZMmul_assoc. auto. }
  induction 1 as [g Hg|a b Ha IHa Hb IHb]; auto.
Qed.

(** ** decidable forms for the tables *)
Definition i8_rangeb (m : mat Z) : bool := forallb (fun z => (-128 <=? z) && (z <=? 127)) (mlist m).
Lemma i8_rangeb_spec m : i8_rangeb m = true -> i8_range m.
Proof.
  unfold i8_rangeb, mlist, i8_range, entries_within. cbn [forallb]. rewrite !andb_true_iff, !Z.leb_le. lia.
Qed.
Definition closedb (gens S : list (mat Z)) : bool :=
  forallb (fun g => set_mem g S) gens &&
  forallb (fun g => forallb (fun m => set_mem (ZMmul g m) S) S) gens &&
  forallb i8_rangeb S.
Lemma closedb_spec gens S : closedb gens S = true ->
  forall m, product_of gens m -> In m S /\ i8_range m.
Proof.
  unfold closedb. rewrite !andb_true_iff. intros [[C1 C2] C3] m Hm.
  rewrite forallb_forall in C1, C2, C3.
  assert (I : In m S).
  { revert m Hm. apply products_in_closed.
    - intros g Hg. apply set_mem_In. auto.
    - intros g x Hg Hx. specialize (C2 g Hg). rewrite forallb_forall in C2. apply set_mem_In. auto. }
  split; auto. apply i8_rangeb_spec. auto.
Qed.
Fixpoint nodupb (l : list (mat Z)) : bool :=
  match l with [] => true | x :: t => negb (set_mem x t) && nodupb t end.
Lemma nodupb_spec l : nodupb l = true -> NoDup l.
Proof.
  induction l as [|x l IH]; [constructor|]. cbn. rewrite andb_true_iff, negb_true_iff, set_mem_false.
  intros [H1 H2]. constructor; auto.
Qed.
Definition groupb (S : list (mat Z)) : bool :=
  nodupb S && set_mem ZMid S &&
  forallb (fun a => forallb (fun b => set_mem (ZMmul a b) S) S) S &&
  forallb (fun a => existsb (fun b => zmat_eqb (ZMmul a b) ZMid && zmat_eqb (ZMmul b a) ZMid) S) S &&
  forallb (fun a => (ZMdet a =? 1) || (ZMdet a =? -1)) S.
Lemma groupb_spec S : groupb S = true -> matrix_group S.
Proof.
  unfold groupb. rewrite !andb_true_iff. intros ((((H1 & H2) & H3) & H4) & H5).
  rewrite forallb_forall in H3, H4, H5. constructor.
  - now apply nodupb_spec.
  - now apply set_mem_In.
  - intros a b Ha Hb. specialize (H3 a Ha). rewrite forallb_forall in H3. apply set_mem_In. auto.
  - intros a Ha. specialize (H4 a Ha). rewrite existsb_exists in H4. destruct H4 as (b & Hb & E).
    rewrite andb_true_iff, !zmat_eqb_spec in E. exists b. auto.
  - intros a Ha. specialize (H5 a Ha). rewrite orb_true_iff, !Z.eqb_eq in H5. exact H5.
Qed.
Lemma matrix_group_perm S S' : Permutation S S' -> matrix_group S -> matrix_group S'.
Proof.
  intros P [H1 H2 H3 H4 H5].
  assert (P' : forall x, In x S' <-> In x S) by (intro x; split; apply Permutation_in; [now apply Permutation_sym|auto]).
  constructor.
  - eapply Permutation_NoDup; eauto.
  - now apply P'.
  - intros a b Ha Hb. apply P'. apply H3; now apply P'.
  - intros a Ha. destruct (H4 a) as (b & Hb & E); [now apply P'|]. exists b. split; auto. now apply P'.
  - intros a Ha. apply H5. now apply P'.
Qed.

(** identity hash order, used to compute the tables once *)
Definition hid : HashOrd := MkHashOrd (fun _ A l => l) (fun _ A l => Permutation_refl l).
