(** C85: niggli_reduce answers on metrics with a common unit *)
From Coq Require Import ZArith Reals String List Bool Lia Lra.
From Verif Require Import Num Mat Utils Structure Reduce RInst Spec RFacts PUtils PStructure PNiggli PNiggli2 PNiggli3 Prop5 Prop6.
Import ListNotations.
Open Scope R_scope.

(** C85. *)
Theorem C85_niggli_answers :
  forall (P : @Pinv RNum) (dtol tol u : R) (s : @structure RNum),
    0 < u -> unit_metric u (lattice s) -> 0 < Mdet (lattice s) ->
    0 < niggli_eps s tol < u -> niggli_eps s tol < 1 ->
    m11 (gram (lattice s)) + m22 (gram (lattice s)) + m33 (gram (lattice s)) <= 27 * u ->
    exists s', @niggli_reduce RNum P dtol s tol = Ok s' /\ niggli_within (niggli_eps s tol) (gram (lattice s')).
Proof.
  intros P dtol tol u s Hu HU HD He E1 HT.
  assert (X : exists s', @niggli_reduce RNum P dtol s tol = Ok s').
  { rewrite niggli_reduce_eq, cbrt_pos by exact HD. fold (niggli_eps s tol).
    destruct (unit_form u (lattice s) Hu ltac:(lra) HU) as (g & EG & DG).
    destruct (loop_ends u (niggli_eps s tol) g Mid 100 Hu He E1 DG) as (st & EL); [|rewrite EG, EL; now eexists].
    rewrite EG in HT. unfold zmet in HT. cbn [m11 m22 m33] in HT.
    assert (H : IZR (ztr g) <= 27) by (unfold ztr; rewrite !plus_IZR; nra). apply le_IZR in H. lia. }
  destruct X as (s' & E). exists s'. split; [exact E|]. eapply C37_niggli_reduced; [exact HD| |exact E]. lra.
Qed.
Print Assumptions C85_niggli_answers.

(** A body-centred cubic lattice given by a skewed primitive cell of volume one. *)
Definition skew_bcc (a : R) : @structure RNum :=
  Structure (N := RNum) (M (- a / 2) (a / 2) (3 * a / 2) (a / 2) (- a / 2) (- a / 2) (a / 2) (a / 2) (a / 2)) ["W"%string] [V 0 0 0] [V 0 0 0].
Lemma skew_det a : Mdet (lattice (skew_bcc a)) = a * a * a / 2.
Proof. unfold Mdet; cbn. field. Qed.
Example C85_example : forall (P : @Pinv RNum) (dtol a : R), 0 < a -> a * a * a / 2 = 1 ->
  exists s', @niggli_reduce RNum P dtol (skew_bcc a) (1 / 10) = Ok s' /\ niggli_within (1 / 10) (gram (lattice s')).
Proof.
  intros P dtol a Ha H1.
  assert (EE : niggli_eps (skew_bcc a) (1 / 10) = 1 / 10).
  { unfold niggli_eps. rewrite skew_det, H1. unfold Rpower. rewrite ln_1, Rmult_0_r, exp_0. lra. }
  assert (A1 : 1 < a) by nra. pose proof (C85_niggli_answers P dtol (1 / 10) (a * a / 4) (skew_bcc a)) as Q. rewrite EE in Q. apply Q; clear Q.
  - nra.
  - exists (M 3 (-1) (-3) (-1) 3 5 (-3) 5 11)%Z. unfold gram, Mmul, Mtr. cbn. f_equal; field.
  - rewrite skew_det. lra.
  - nra.
  - lra.
  - unfold gram, Mmul, Mtr. cbn. nra.
Qed.
