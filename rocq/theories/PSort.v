(** The stable sort of Num.v, the order on element names, and counting in species lists. *)
From Coq Require Import ZArith String Ascii List Bool Lia Permutation Sorting.Sorted.
From Verif Require Import Num Mat Structure.
Import ListNotations.

Lemma str_compare_trans a : forall b c,
  String.compare a b <> Gt -> String.compare b c <> Gt -> String.compare a c <> Gt.
Proof.
  induction a as [|x a IH]; intros [|y b] [|z c]; cbn; try congruence; try easy.
  unfold Ascii.compare.
  destruct (N.compare_spec (N_of_ascii x) (N_of_ascii y)) as [E1|E1|E1];
  destruct (N.compare_spec (N_of_ascii y) (N_of_ascii z)) as [E2|E2|E2]; intros H1 H2; try easy.
  - rewrite E1, E2, N.compare_refl. now apply (IH b).
  - rewrite E1. apply N.compare_lt_iff in E2. rewrite E2. easy.
  - rewrite <- E2. apply N.compare_lt_iff in E1. rewrite E1. easy.
  - assert (E : (N_of_ascii x < N_of_ascii z)%N) by lia. apply N.compare_lt_iff in E. rewrite E. easy.
Qed.
Lemma leb_compare a b : String.leb a b = true <-> String.compare a b <> Gt.
Proof. unfold String.leb. destruct (String.compare a b); split; congruence. Qed.
Lemma leb_trans a b c : String.leb a b = true -> String.leb b c = true -> String.leb a c = true.
Proof. rewrite !leb_compare. apply str_compare_trans. Qed.
Lemma leb_refl a : String.leb a a = true.
Proof. destruct (String.leb_total a a); auto. Qed.
Lemma leb_false a b : String.leb a b = false -> String.leb b a = true.
Proof. destruct (String.leb_total a b) as [E|E]; congruence. Qed.

Section KeySort.
  Context {A : Type} (key : A -> string).
  Let le (a b : A) : bool := str_le (key a) (key b).

  Lemma insert_perm x l : Permutation (insert_by le x l) (x :: l).
  Proof.
    induction l as [|y l IH]; cbn; auto. destruct (le x y); auto.
    rewrite IH. apply perm_swap.
  Qed.
  Lemma sort_perm l : Permutation (sort_by le l) l.
  Proof. induction l as [|x l IH]; cbn; auto. rewrite insert_perm. now constructor. Qed.

  Lemma insert_sorted x l : StronglySorted (fun a b => le a b = true) l ->
    StronglySorted (fun a b => le a b = true) (insert_by le x l).
  Proof.
    induction 1 as [|y l Hl IH Hy]; cbn; [repeat constructor|].
    destruct (le x y) eqn:E.
    - constructor; [now constructor|]. constructor; auto.
      rewrite Forall_forall in *. intros z Hz. eapply leb_trans; [exact E|]. now apply Hy.
    - constructor; auto. rewrite Forall_forall in *. intros z Hz.
      apply (Permutation_in _ (insert_perm x l)) in Hz. destruct Hz as [<-|Hz]; auto.
      now apply leb_false.
  Qed.
  Lemma sort_sorted l : StronglySorted (fun a b => le a b = true) (sort_by le l).
  Proof. induction l; cbn; [constructor|now apply insert_sorted]. Qed.

  Lemma insert_stable e x l :
    filter (fun a => String.eqb (key a) e) (insert_by le x l) =
    filter (fun a => String.eqb (key a) e) (x :: l).
  Proof.
    induction l as [|y l IH]; auto. cbn [insert_by]. destruct (le x y) eqn:E; auto.
    cbn [filter] in *. rewrite IH. clear IH.
    destruct (String.eqb_spec (key y) e), (String.eqb_spec (key x) e); auto.
    exfalso. subst e. unfold le, str_le in E. rewrite e1, leb_refl in E. discriminate.
  Qed.
  Lemma sort_stable e l :
    filter (fun a => String.eqb (key a) e) (sort_by le l) = filter (fun a => String.eqb (key a) e) l.
  Proof. induction l as [|x l IH]; auto. cbn [sort_by fold_right]. fold (sort_by le l). rewrite insert_stable. cbn. now rewrite IH. Qed.
  Lemma sort_length l : List.length (sort_by le l) = List.length l.
  Proof. apply Permutation_length, sort_perm. Qed.
End KeySort.

Lemma SS_map {A B} (f : A -> B) (R : B -> B -> Prop) l :
  StronglySorted (fun a b => R (f a) (f b)) l -> StronglySorted R (map f l).
Proof.
  induction 1; cbn; constructor; auto. apply Forall_map. auto.
Qed.

(** A list is determined by which sorted order its keys have and by the sublists of equal key. *)
Lemma combine_map_fst {A B} (l : list A) (m : list B) : List.length l = List.length m -> map fst (combine l m) = l.
Proof. revert m. induction l; destruct m; cbn; intros; try congruence. f_equal. auto. Qed.
Lemma combine_map_snd {A B} (l : list A) (m : list B) : List.length l = List.length m -> map snd (combine l m) = m.
Proof. revert m. induction l; destruct m; cbn; intros; try congruence. f_equal. auto. Qed.
Lemma combine_split_map {A B} (l : list (A * B)) : combine (map fst l) (map snd l) = l.
Proof. induction l as [|[a b] l IH]; cbn; congruence. Qed.
