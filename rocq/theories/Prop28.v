(** Crystals of diamond type: whether there is an answer depends on the handedness of the cell. *)
From Coq Require Import ZArith Reals String Ascii List Bool Lia Lra Permutation.
From Verif Require Import Num Mat DataCore DataSG SymmOp SpaceGroup Structure Analyzer RInst Spec Spec2 Spec3 Spec5 Spec6 Spec8 Spec10 Spec11 RFacts PSymmOp PStructure PLattice PPointGroup PSpaceGroup2 PCode PIdentify PSearch6 PSearch7 PEnd4
  PEnd11 PEnd12 PEnd13 PEnd14 PEnd15 PEnd17 PEnd18 Prop4 Prop5 PNiggli PNiggli2 PTables PEnd8 PCen2 PCen3 PCen4 PCen5 Prop27.
Import ListNotations.
Open Scope R_scope.

(** C122.  In a right-handed cell the group is answered with all its operations; *)
Theorem C122_right_handed_diamonds_identified :
  forall (P : @Pinv RNum) (HO : HashOrd) fuel path (dtol a d : R) (s : @structure RNum) N codes sym,
    let entry code := code_op (has_char "A"%char sym) code in
    pinv_inverts P -> (48 <= fuel)%nat -> centred_crystal_of diamond_groups [] N dtol a d s codes sym -> 0 < Mdet (lattice s) ->
    exists ops, @get_space_group_info RNum P HO fuel path dtol s = Ok (N, sym, ops) /\ List.length ops = List.length codes /\
      (forall op, In op ops -> exists code, In code codes /\ rotation op = fst (entry code) /\ modulo_within (3 * (1 / 1000000000)) (translation op) (in_twelfths (snd (entry code)))) /\
      (forall code, In code codes -> exists op, In op ops /\ rotation op = fst (entry code) /\ modulo_within (3 * (1 / 1000000000)) (translation op) (in_twelfths (snd (entry code)))).
Proof.
  intros P HO fuel path dtol a d s N codes sym entry HP HF (CE & WF & BIG & Ba & Hd & SP & Da & RI & (order & HT) & ES & IFF) RH.
  destruct CE as [(CE & HN)|(_ & [])]. apply sg_entries_In in HT.
  destruct (d_answered P HO dtol a d fuel path s HP HF WF BIG Hd Ba (face_gram a _ CE) SP Da RI order N codes sym HT ES HN) with (sg := 1%Z) as (ops & O1 & O2 & O3 & O4); [|now left|rewrite Rabs_pos_eq; lra|reflexivity|].
  - intros r t. apply (iff_trans (IFF r t)). split.
    + intros (code & Hc & Q). exists (entry code). split; [unfold group_ops; apply (in_map entry); exact Hc|exact Q].
    + intros (o & Ho & Q). unfold group_ops in Ho. apply in_map_iff in Ho. destruct Ho as (code & <- & Hc). exists code. split; [exact Hc|exact Q].
  - exists ops. split; [exact O1|]. split; [|split].
    + rewrite O2. unfold group_ops. apply map_length.
    + intros op Hop. destruct (O3 op Hop) as (o & Ho & Q). unfold group_ops in Ho. apply in_map_iff in Ho. destruct Ho as (code & <- & Hc). exists code. split; [exact Hc|exact Q].
    + intros code Hc. apply (O4 (entry code)). unfold group_ops. apply (in_map entry). exact Hc.
Qed.
Print Assumptions C122_right_handed_diamonds_identified.
(** in a left-handed one there is no answer. *)
Theorem C122_left_handed_diamonds_never_answered :
  forall (P : @Pinv RNum) (HO : HashOrd) fuel path (dtol a d : R) (s : @structure RNum) N codes sym answer,
    pinv_inverts P -> (48 <= fuel)%nat -> centred_crystal_of diamond_groups [] N dtol a d s codes sym -> Mdet (lattice s) < 0 ->
    @get_space_group_info RNum P HO fuel path dtol s <> Ok answer.
Proof.
  intros P HO fuel path dtol a d s N codes sym [[N' sym'] ops] HP HF (CE & WF & BIG & Ba & Hd & SP & Da & RI & (order & HT) & ES & IFF) LH.
  destruct CE as [(CE & HN)|(_ & [])]. apply sg_entries_In in HT.
  apply (d_unanswered P HO dtol a d fuel path s HP HF WF BIG Hd Ba (face_gram a _ CE) SP Da RI order N codes sym HT ES HN) with (sg := (-1)%Z); [|now right|rewrite Rabs_left by exact LH; lra|reflexivity].
  intros r t. apply (iff_trans (IFF r t)). split.
  - intros (code & Hc & Q). exists (code_op (has_char "A"%char sym) code). split; [unfold group_ops; apply (in_map (code_op (has_char "A"%char sym))); exact Hc|exact Q].
  - intros (o & Ho & Q). unfold group_ops in Ho. apply in_map_iff in Ho. destruct Ho as (code & <- & Hc). exists code. split; [exact Hc|exact Q].
Qed.
Print Assumptions C122_left_handed_diamonds_never_answered.
(** diamond *)
Lemma face_axes_right a : 0 < a -> 0 < Mdet (face_axes a).
Proof. intro H. replace (Mdet (face_axes a)) with (a * a * a / 4) by (unfold Mdet, face_axes; cbn; field). assert (0 < a * a * a) by (repeat apply Rmult_lt_0_compat; exact H). lra. Qed.
Lemma diamond_crystal L : face_centred_cell (357 / 100) L -> exists codes, centred_crystal_of diamond_groups [] 227 (1 / 250) (357 / 100) (1 / (2 * 12)) (grid_crystal 12 L diamond) codes "Fd-3m1" /\ Z.of_nat (List.length codes) = 48%Z.
Proof. intro H. apply (grid_centred diamond_groups [] 227 48 "Fd-3m1" true 12 1 (357 / 100) (1 / 250) L diamond ltac:(split; [exact H|cbn; tauto]) ltac:(lra) ltac:(lra) ltac:(lra) ltac:(cbn; lia) diamond_checked). Qed.
Example C122_diamond (HO : HashOrd) : exists ops, @get_space_group_info RNum cofactor_pinv HO 48 [] (1 / 250) (grid_crystal 12 (face_axes (357 / 100)) diamond) = Ok (227%Z, "Fd-3m1"%string, ops) /\ List.length ops = 48%nat.
Proof.
  destruct (diamond_crystal _ (face_axes_cell (357 / 100))) as (codes & CC & CL).
  destruct (C122_right_handed_diamonds_identified cofactor_pinv HO 48 [] (1 / 250) (357 / 100) _ _ 227 codes "Fd-3m1" cofactor_pinv_ok ltac:(lia) CC (face_axes_right (357 / 100) ltac:(lra))) as (ops & O1 & O2 & _). exists ops. split; [exact O1|]. rewrite O2. lia.
Qed.

(** C123.  Is the answer the same when the first two axes of the cell are listed in the other order?  Not for diamond. *)
Definition swap_vec (v : vec R) : vec R := V (vy v) (vx v) (vz v).
Definition first_axes_swapped (s : @structure RNum) : @structure RNum :=
  Structure (N := RNum) (from_columns (Ccol (lattice s) 1) (Ccol (lattice s) 0) (Ccol (lattice s) 2)) (species s) (coords s) (map swap_vec (frac_coords s)).
Theorem C123_order_of_axes_irrelevant_refuted :
  exists dtol s N sym, (forall (P : @Pinv RNum) (HO : HashOrd) fuel path, pinv_inverts P -> (48 <= fuel)%nat -> exists ops, @get_space_group_info RNum P HO fuel path dtol s = Ok (N, sym, ops)) /\
    forall (P : @Pinv RNum) (HO : HashOrd) fuel path answer, pinv_inverts P -> (48 <= fuel)%nat -> @get_space_group_info RNum P HO fuel path dtol (first_axes_swapped s) <> Ok answer.
Proof.
  exists (1 / 250), (grid_crystal 12 (face_axes (357 / 100)) diamond), 227%Z, "Fd-3m1"%string. split; intros P HO fuel path.
  - intros HP HF. destruct (diamond_crystal _ (face_axes_cell (357 / 100))) as (codes & CC & CL).
    destruct (C122_right_handed_diamonds_identified P HO fuel path (1 / 250) (357 / 100) _ _ 227 codes "Fd-3m1" HP HF CC (face_axes_right (357 / 100) ltac:(lra))) as (ops & O1 & _). exists ops. exact O1.
  - intros answer HP HF. set (L := from_columns (Ccol (face_axes (357 / 100)) 1) (Ccol (face_axes (357 / 100)) 0) (Ccol (face_axes (357 / 100)) 2)).
    assert (ES : first_axes_swapped (grid_crystal 12 (face_axes (357 / 100)) diamond) = grid_crystal 12 L diamond) by reflexivity. rewrite ES.
    assert (CL : face_centred_cell (357 / 100) L) by (unfold face_centred_cell, L, face_axes, metric, Mmul, Mtr, from_columns, Ccol; cbn [vx vy vz m11 m12 m13 m21 m22 m23 m31 m32 m33]; apply (@mat_ext R); cbn [m11 m12 m13 m21 m22 m23 m31 m32 m33]; field).
    destruct (diamond_crystal L CL) as (codes & CC & _).
    apply (C122_left_handed_diamonds_never_answered P HO fuel path (1 / 250) (357 / 100) _ _ 227 codes "Fd-3m1" answer HP HF CC).
    change (lattice (grid_crystal 12 L diamond)) with L. unfold L, Mdet, face_axes, from_columns, Ccol. cbn. lra.
Qed.
Print Assumptions C123_order_of_axes_irrelevant_refuted.
