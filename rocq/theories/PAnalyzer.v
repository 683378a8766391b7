(** Proofs about the lattice character and the standard cells (analyzer.rs 286-551). *)
From Coq Require Import ZArith Reals String Ascii List Bool Lia Lra Psatz.
From Flocq Require Import Core.Raux.
From Verif Require Import Num Mat Utils DataCore Analyzer RInst Spec Spec2 RFacts PUtils PNiggli.
Import ListNotations.
Open Scope R_scope.

(** ** Which numbers can be returned (any arithmetic) *)
Section AnyNum.
  Context {N : Num}.
  Definition row_fits (eps : num) (v def : vec num) : bool :=
    cust_eq (vx v) (vx def) eps && cust_eq (vy v) (vy def) eps && cust_eq (vz v) (vz def) eps.
  Lemma first_match_in (eps : num) (def : vec num) l :
    first_match eps def l = 0%Z \/ exists v, In (v, first_match eps def l) l /\ row_fits eps v def = true.
  Proof.
    induction l as [|[v n] t IH]; cbn [first_match]; [now left|]. fold (row_fits eps v def).
    destruct (row_fits eps v def) eqn:E; [right; exists v; split; [now left|exact E]|].
    destruct IH as [IH|(w & Hw & E')]; [now left|right; exists w; split; [now right|exact E']].
  Qed.
  Definition in_range (n : Z) : Prop := (1 <= n <= 44)%Z.
  Lemma range_sets ti (a b d e f eps : num) v n :
    In (v, n) (get_first_set ti a b d e f eps) \/ In (v, n) (get_second_set ti a b d e f eps) \/
    In (v, n) (get_third_set ti a b d e f eps) \/ In (v, n) (get_fourth_set ti a b d e f) -> in_range n.
  Proof.
    unfold get_first_set, get_second_set, get_third_set, get_fourth_set, in_range.
    destruct ti, (extra_eval_a a b d e f eps); cbn [app In]; intros H;
      repeat match goal with
      | H : _ \/ _ |- _ => destruct H as [H|H]
      | H : False |- _ => destruct H
      | H : (_, _) = _ |- _ => apply (f_equal snd) in H; cbn [snd] in H; subst n; lia
      end.
  Qed.
  Lemma character_of_range (eps a b c d e f : num) :
    character_of eps a b c d e f = Panic PLatticeChar \/
    exists n, character_of eps a b c d e f = Ok n /\ in_range n.
  Proof.
    unfold character_of. destruct (num_negative_zero [d; e; f] eps) as [nn nz].
    set (ti := (Z.rem nn 2 =? 0)%Z && (nz =? 0)%Z). clearbody ti.
    match goal with |- context [first_match _ _ ?x] => set (l := x) end.
    assert (HL : forall v n, In (v, n) l -> in_range n).
    { intros v n H. apply (range_sets ti a b d e f eps v). unfold l in H.
      destruct (cust_eq a b eps && cust_eq a c eps), (cust_eq a b eps), (cust_eq b c eps); tauto. }
    destruct (first_match_in eps (V d e f) l) as [E|(v & Hv & _)].
    - rewrite E. left. reflexivity.
    - apply HL in Hv. set (m := first_match eps (V d e f) l) in *. clearbody m. right. unfold in_range in *.
      destruct (extra_eval_a a b d e f eps), (extra_eval_b a b d e f eps);
        destruct (Z.eqb_spec m 14) as [E1|E1]; destruct (Z.eqb_spec m 44) as [E2|E2]; cbn [andb];
        match goal with |- context [Z.eqb ?k 0] => destruct (Z.eqb_spec k 0) as [E3|E3] end; try lia;
        (eexists; split; [reflexivity|lia]).
  Qed.
End AnyNum.

(** ** The conditions of the row *)
Lemma type_spec (eps d e f : R) neg zero : 0 < eps -> @num_negative_zero RNum [d; e; f] eps = (neg, zero) ->
  type_ok eps d e f ((Z.rem neg 2 =? 0)%Z && (zero =? 0)%Z).
Proof.
  intro He. rewrite num_negative_zero_spec by (cbn; lia). intro EN. injection EN as <- <-. unfold countb. cbn [filter].
  destruct (Rlt_bool_spec d (- eps)), (Rlt_bool_spec e (- eps)), (Rlt_bool_spec f (- eps));
    destruct (Rlt_bool_spec d eps), (Rlt_bool_spec e eps), (Rlt_bool_spec f eps); try lra; cbn;
    try (right; left; apply Rabs_le; lra); try (right; right; left; apply Rabs_le; lra);
    try (right; right; right; apply Rabs_le; lra).
  all: try (assert (0 < d * e) by nra; (nra || (left; nra))).
  all: try (assert (d * e < 0) by nra; (nra || (left; nra))).
Qed.
Lemma row_fits_R (eps x y z d e f : R) : @row_fits RNum eps (V x y z) (V d e f) = true ->
  within eps x d /\ within eps y e /\ within eps z f.
Proof. unfold row_fits. cbn [vx vy vz]. rewrite !andb_true_iff, !cust_eq_spec. intros ((A & B) & C). auto. Qed.
Lemma within_eq (eps x y z : R) : x = y -> within eps x z -> within eps y z. Proof. now intros ->. Qed.

(** the sets of candidate rows, as rows of the table *)
Definition row_of (A B C D E F : R) (eps : R) (ti : bool) (v : vec R) (m : Z) : Prop :=
  exists k d e f x, character_row A B D E F m = Some (k, ti, (d, e, f), x) /\ lengths_ok eps A B C k /\
    extra_ok eps A B D E F x /\ v = V d e f.
Ltac find_row :=
  cbn [app In];
  repeat match goal with
  | |- _ \/ _ -> _ => let H := fresh in intros [H|H]; [|revert H]
  | |- False -> _ => intros []
  | H : (_, _) = (_, _) |- _ =>
      injection H as <- <-; do 5 eexists; split; [reflexivity|];
      split; [cbn [lengths_ok]; tauto|split; [cbn [extra_ok]; tauto|]];
      apply vec_ext; cbn; first [reflexivity|field]
  end.
Lemma extra_a_R (A B D E F eps : R) : @extra_eval_a RNum A B D E F eps = true -> within eps (2 * Rabs (D + E + F)) (A + B).
Proof. unfold extra_eval_a. rewrite cust_eq_spec. unfold within. cbn. now rewrite (Rmult_comm 2 (Rabs (D + E + F))). Qed.
Lemma extra_b_R (A B D E F eps : R) : @extra_eval_b RNum A B D E F eps = true ->
  within eps (2 * Rabs (D + E + F)) (A + B) /\ within eps (Rabs (2 * D + F)) B.
Proof.
  unfold extra_eval_b. rewrite andb_true_iff, !cust_eq_spec. unfold within. cbn. now rewrite (Rmult_comm 2 (Rabs (D + E + F))).
Qed.
Lemma first_rows (A B C D E F eps : R) ti v m : within eps A B -> within eps A C ->
  In (v, m) (@get_first_set RNum ti A B D E F eps) -> row_of A B C D E F eps ti v m.
Proof.
  intros H1 H2. unfold get_first_set. pose proof (extra_a_R A B D E F eps) as HA.
  destruct ti; [|destruct (@extra_eval_a RNum A B D E F eps); [specialize (HA eq_refl)|]]; find_row.
Qed.
Lemma second_rows (A B C D E F eps : R) ti v m : within eps A B ->
  In (v, m) (@get_second_set RNum ti A B D E F eps) -> row_of A B C D E F eps ti v m.
Proof.
  intros H1. unfold get_second_set. pose proof (extra_a_R A B D E F eps) as HA.
  destruct ti; [|destruct (@extra_eval_a RNum A B D E F eps); [specialize (HA eq_refl)|]]; find_row.
Qed.
Lemma third_rows (A B C D E F eps : R) ti v m : within eps B C ->
  In (v, m) (@get_third_set RNum ti A B D E F eps) -> row_of A B C D E F eps ti v m.
Proof.
  intros H1. unfold get_third_set. pose proof (extra_a_R A B D E F eps) as HA.
  destruct ti; [|destruct (@extra_eval_a RNum A B D E F eps); [specialize (HA eq_refl)|]]; find_row.
Qed.
Lemma fourth_rows (A B C D E F eps : R) ti v m :
  In (v, m) (@get_fourth_set RNum ti A B D E F) -> row_of A B C D E F eps ti v m.
Proof. unfold get_fourth_set. destruct ti; find_row. Qed.
Lemma character_sound (eps : R) (g : mat R) n : 0 < eps ->
  @character_of RNum eps (m11 g) (m22 g) (m33 g) (m23 g) (m13 g) (m12 g) = Ok n -> has_character eps g n.
Proof.
  intros He H. unfold has_character. cbv zeta. set (A := m11 g) in *. set (B := m22 g) in *. set (C := m33 g) in *.
  set (D := m23 g) in *. set (E := m13 g) in *. set (F := m12 g) in *. clearbody A B C D E F.
  unfold character_of in H.
  match type of H with context [@num_negative_zero RNum ?l eps] => destruct (@num_negative_zero RNum l eps) as [nn nz] eqn:EN end.
  pose proof (type_spec eps D E F nn nz He EN) as HT.
  set (ti := (Z.rem nn 2 =? 0)%Z && (nz =? 0)%Z) in *. clearbody ti.
  cbv zeta in H.
  match type of H with context [@first_match ?NN ?ep ?v ?x] =>
    pose proof (@first_match_in NN ep v x) as FM; set (m := @first_match NN ep v x) in *; set (l := x) in * end.
  assert (HL : forall v m0, In (v, m0) l -> row_of A B C D E F eps ti v m0).
  { intros v m0. unfold l.
    destruct (@cust_eq RNum A B eps) eqn:E1; [apply cust_eq_spec in E1|];
    (destruct (@cust_eq RNum A C eps) eqn:E2; [apply cust_eq_spec in E2|]);
    (destruct (@cust_eq RNum B C eps) eqn:E3; [apply cust_eq_spec in E3|]); cbn [andb];
      first [apply first_rows; assumption|apply second_rows; assumption|apply third_rows; assumption|apply fourth_rows]. }
  destruct FM as [EM|(v & Hv & EM)]; [rewrite EM in H; discriminate H|].
  apply HL in Hv. clearbody m l. clear HL.
  destruct Hv as (k & d & e & f & x & HI & HK & HX & ->). apply row_fits_R in EM. destruct EM as (W1 & W2 & W3).
  pose proof (extra_a_R A B D E F eps) as HA. pose proof (extra_b_R A B D E F eps) as HB.
  destruct ((m =? 14)%Z && @extra_eval_a RNum A B D E F eps) eqn:E14.
  { apply andb_true_iff in E14. destruct E14 as (E14 & EA). apply Z.eqb_eq in E14. subst m. injection H as <-.
    cbn [character_row] in HI. injection HI as <- <- <- <- <- <-.
    exists A_B, false, D, D, F, Star. split; [reflexivity|]. cbn [extra_ok]. auto 10. }
  destruct ((m =? 44)%Z && @extra_eval_b RNum A B D E F eps) eqn:E44.
  { apply andb_true_iff in E44. destruct E44 as (E44 & EB). apply Z.eqb_eq in E44. subst m. injection H as <-.
    cbn [character_row] in HI. injection HI as <- <- <- <- <- <-.
    exists Any, false, D, E, F, Dagger. split; [reflexivity|]. cbn [extra_ok lengths_ok]. auto 10. }
  destruct (Z.eqb_spec m 0) as [Em|Em]; [discriminate H|]. injection H as <-.
  exists k, ti, d, e, f, x. auto 10.
Qed.

(** ** The conventional cell *)
(** all scalar products of different basis vectors above [eps], or none *)
Definition same_signs (eps : R) (g : mat R) : Prop :=
  (eps < m23 g /\ eps < m13 g /\ eps < m12 g) \/ (m23 g <= eps /\ m13 g <= eps /\ m12 g <= eps).
Lemma has_character_range eps g n : has_character eps g n -> (1 <= n <= 44)%Z.
Proof.
  intros (k & t & d & e & f & x & H & _). destruct n as [|p|p]; try discriminate H.
  do 6 (try (destruct p as [p|p|]; try discriminate H)); lia.
Qed.
Lemma obtuse eps g : 0 <= eps -> same_signs eps g -> type_ok eps (m23 g) (m13 g) (m12 g) false ->
  m23 g <= eps /\ m13 g <= eps /\ m12 g <= eps.
Proof.
  intros He [(H1 & H2 & H3)|H] HT; [exfalso|exact H]. cbn [type_ok] in HT.
  destruct HT as [HT|[HT|[HT|HT]]]; try (rewrite Rabs_pos_eq in HT; lra).
  assert (0 < m23 g * m13 g) by (apply Rmult_lt_0_compat; lra). assert (0 < m23 g * m13 g * m12 g) by (apply Rmult_lt_0_compat; lra). lra.
Qed.
Ltac range_cases H n :=
  let E := fresh "E" in
  assert (E : In n (map Z.of_nat (seq 1 44))) by
    (apply in_map_iff; exists (Z.to_nat n); split; [apply Z2Nat.id; lia|apply in_seq; lia]);
  cbn [seq map Z.of_nat Pos.of_succ_nat Pos.succ In] in E; clear H;
  repeat (destruct E as [E|E]; [subst n|]); [..|destruct E].
Lemma conventional_metric (eps : R) (g : mat R) n T b letter : 0 <= eps -> 0 <= m11 g -> 0 <= m22 g ->
  m21 g = m12 g -> m31 g = m13 g -> m32 g = m23 g -> same_signs eps g -> has_character eps g n ->
  am_get Z.eqb n LATTICE_CHAR_TO_CONV_TRANS = Some T -> am_get Z.eqb n LATTICE_CHAR_TO_BRAVAIS = Some b ->
  first_char (bravais_to_string b) = Some letter ->
  family_metric (40 * eps) (rcongr (Mtr (MofZ T)) g) letter.
Proof.
  intros He GA GB G1 G2 G3 HS HC HT HB HL. pose proof (has_character_range _ _ _ HC) as HR.
  pose proof (obtuse eps g He HS) as HO. clear HS.
  destruct HC as (k & t & d & e & f & x & HC & HK & HTy & W1 & W2 & W3 & HX).
  destruct g as [A F' E' F B D' E D C]. cbn [m11 m12 m13 m21 m22 m23 m31 m32 m33] in *. subst F E D.
  unfold rcongr, Mmul, Mtr, MofZ. cbn [m11 m12 m13 m21 m22 m23 m31 m32 m33].
  range_cases HR n; cbn [character_row] in HC; injection HC as <- <- <- <- <- <-;
    cbn in HT; injection HT as <-; cbn in HB; injection HB as <-; cbn in HL; injection HL as <-;
    cbn [family_metric zmat_id m11 m12 m13 m21 m22 m23 m31 m32 m33];
    cbn [lengths_ok extra_ok] in *; unfold within in *; try exact I.
  all: try (specialize (HO HTy)).
  all: repeat match goal with
       | H : _ /\ _ |- _ => destruct H
       | H : Rabs (_ - _) <= _ |- _ => apply Rabs_le_inv in H
       end.
  all: repeat match goal with
       | H : context [Rabs ?x] |- _ => revert H; unfold Rabs; destruct (Rcase_abs x); intros
       end.
  all: repeat split; apply Rabs_le; split.
  all: lra.
Qed.
