(** Cubic crystals given in the primitive cell of a centred lattice: the whole run, from the structure to the answer. *)
From Coq Require Import ZArith Reals String Ascii List Bool Lia Lra Permutation.
From Verif Require Import Num Mat DataCore DataSG SymmOp SpaceGroup Structure Analyzer RInst Spec Spec2 Spec3 Spec5 Spec6 Spec8 Spec10 Spec11 RFacts PSymmOp PStructure PLattice PPointGroup PSpaceGroup2 PCode PIdentify PSearch6 PSearch7 PEnd4
  PEnd11 PEnd12 PEnd13 PEnd14 PEnd15 PEnd17 PEnd18 Prop4 Prop5 PNiggli PNiggli2 PTables PEnd8 PCen2 PCen3 PCen4.
Import ListNotations.
Open Scope R_scope.

(** the crystal [s] is given in the standard primitive cell of a face-centred or body-centred cubic lattice of edge [a], and its operations are those of entry [N] of the table; [Nf] and [Nb] are the numbers allowed *)
Definition centred_crystal_of (Nf Nb : list Z) (N : Z) (dtol a d : R) (s : @structure RNum) (codes : list Z) (sym : string) : Prop :=
  let sites := combine (frac_coords s) (species s) in
  let entry code := code_op (has_char "A"%char sym) code in
  ((face_centred_cell a (lattice s) /\ In N Nf) \/ (body_centred_cell a (lattice s) /\ In N Nb)) /\
  List.length (frac_coords s) = List.length (species s) /\ (0 < Z.of_nat (List.length (species s)) <= 65535)%Z /\
  2 <= a <= 1000 /\ 1 / 100000 <= dtol <= 1 / 25 /\ spread d sites /\ 36 * dtol <= d * a /\ rigid (2 * dtol) (lattice s) sites (lattice_isometry (lattice s)) /\
  (exists order, tabulated Cubic order N codes) /\ am_get Z.eqb N SG_NUM_TO_SYMBOL = Some sym /\
  forall r t, (lattice_isometry (lattice s) r /\ exact_operation sites r t) <-> exists code, In code codes /\ r = fst (entry code) /\ Vcongr t (in_twelfths (snd (entry code))).

(** C119.  Twelve of the 21 groups are identified, and all their operations are returned. *)
Theorem C119_centred_cubic_crystals_identified :
  forall (P : @Pinv RNum) (HO : HashOrd) fuel path (dtol a d : R) (s : @structure RNum) N codes sym,
    let entry code := code_op (has_char "A"%char sym) code in
    pinv_inverts P -> (48 <= fuel)%nat -> centred_crystal_of face_centred_groups body_centred_groups N dtol a d s codes sym ->
    exists ops, @get_space_group_info RNum P HO fuel path dtol s = Ok (N, sym, ops) /\ List.length ops = List.length codes /\
      (forall op, In op ops -> exists code, In code codes /\ rotation op = fst (entry code) /\ modulo_within (3 * (1 / 1000000000)) (translation op) (in_twelfths (snd (entry code)))) /\
      (forall code, In code codes -> exists op, In op ops /\ rotation op = fst (entry code) /\ modulo_within (3 * (1 / 1000000000)) (translation op) (in_twelfths (snd (entry code)))).
Proof.
  intros P HO fuel path dtol a d s N codes sym entry HP HF (CE & WF & BIG & Ba & Hd & SP & Da & RI & (order & HT) & ES & IFF).
  assert (KF : exists f, gram (lattice s) = zmet (a * a / 4) (km f) /\ In N (kgroups f)) by (destruct CE as [(E & HN)|(E & HN)]; [exists true; split; [now apply face_gram|exact HN]|exists false; split; [now apply body_gram|exact HN]]).
  destruct KF as (f & EG & HN). apply sg_entries_In in HT.
  destruct (k_answered f P HO dtol a d fuel path s HP HF WF BIG Hd Ba EG SP Da RI order N codes sym HT ES (kgroups_all f N HN)) as (ops & O1 & O2 & O3 & O4); [|exact HN|].
  - intros r t. apply (iff_trans (IFF r t)). split.
    + intros (code & Hc & Q). exists (entry code). split; [unfold group_ops; apply (in_map entry); exact Hc|exact Q].
    + intros (o & Ho & Q). unfold group_ops in Ho. apply in_map_iff in Ho. destruct Ho as (code & <- & Hc). exists code. split; [exact Hc|exact Q].
  - exists ops. split; [exact O1|]. split; [|split].
    + rewrite O2. unfold group_ops. apply map_length.
    + intros op Hop. destruct (O3 op Hop) as (o & Ho & Q). unfold group_ops in Ho. apply in_map_iff in Ho. destruct Ho as (code & <- & Hc). exists code. split; [exact Hc|exact Q].
    + intros code Hc. apply (O4 (entry code)). unfold group_ops. apply (in_map entry). exact Hc.
Qed.
Print Assumptions C119_centred_cubic_crystals_identified.
(** crystals at fractional positions *)
Lemma grid_centred Nf Nb N order sym (f : bool) m w a dtol L pts : (if f then face_centred_cell a L /\ In N Nf else body_centred_cell a L /\ In N Nb) ->
  2 <= a <= 1000 -> 1 / 100000 <= dtol <= 1 / 25 -> 72 * IZR m * dtol <= a -> (0 < Z.of_nat (List.length (map (@snd (vec Z) string) pts)) <= 65535)%Z ->
  checked_entry N Cubic order sym (cen_check f m w pts sym) = true ->
  exists codes, centred_crystal_of Nf Nb N dtol a (1 / (2 * IZR m)) (grid_crystal m L pts) codes sym /\ Z.of_nat (List.length codes) = order.
Proof.
  intros CE Ba Hd Ma LB CK. destruct (checked_entry_ok _ _ _ _ _ CK) as (codes & HT & ES & CH). exists codes.
  assert (EG : gram L = zmet (a * a / 4) (km f)) by (destruct f; [apply face_gram; exact (proj1 CE)|apply body_gram; exact (proj1 CE)]).
  destruct (cen_group_of f m w pts a L sym codes ltac:(lra) EG CH) as (M0 & FR & IFF). destruct (cen_conditions f dtol a m L _ M0 EG ltac:(lra) ltac:(lra) FR Ma) as (SP & RI & Da).
  split; [|symmetry; apply sg_entries_In in HT; destruct (entry_facts _ _ _ _ HT) as (sym' & _ & _ & Q & _); exact Q].
  unfold centred_crystal_of. cbv zeta. rewrite grid_crystal_sites. split; [destruct f; [left|right]; exact CE|]. split; [apply grid_crystal_len|]. split; [exact LB|]. split; [exact Ba|]. split; [exact Hd|].
  split; [exact SP|]. split; [exact Da|]. split; [exact RI|]. split; [exists order; exact HT|]. split; [exact ES|exact IFF].
Qed.
(** rock salt, zinc blende and Pt3O4 *)
Example C119_rock_salt (HO : HashOrd) : exists ops, @get_space_group_info RNum cofactor_pinv HO 48 [] (1 / 200) (grid_crystal 12 (face_axes (564 / 100)) rock_salt) = Ok (225%Z, "Fm-3m"%string, ops) /\ List.length ops = 48%nat.
Proof.
  destruct (grid_centred face_centred_groups body_centred_groups 225 48 "Fm-3m" true 12 1 (564 / 100) (1 / 200) (face_axes (564 / 100)) rock_salt ltac:(split; [apply face_axes_cell|cbn; tauto]) ltac:(lra) ltac:(lra) ltac:(lra) ltac:(cbn; lia) rock_salt_checked) as (codes & CC & CL).
  destruct (C119_centred_cubic_crystals_identified cofactor_pinv HO 48 [] (1 / 200) (564 / 100) _ _ 225 codes "Fm-3m" cofactor_pinv_ok ltac:(lia) CC) as (ops & O1 & O2 & _). exists ops. split; [exact O1|]. rewrite O2. lia.
Qed.
Example C119_zinc_blende (HO : HashOrd) : exists ops, @get_space_group_info RNum cofactor_pinv HO 48 [] (1 / 200) (grid_crystal 12 (face_axes (541 / 100)) zinc_blende) = Ok (216%Z, "F-43m"%string, ops) /\ List.length ops = 24%nat.
Proof.
  destruct (grid_centred face_centred_groups body_centred_groups 216 24 "F-43m" true 12 1 (541 / 100) (1 / 200) (face_axes (541 / 100)) zinc_blende ltac:(split; [apply face_axes_cell|cbn; tauto]) ltac:(lra) ltac:(lra) ltac:(lra) ltac:(cbn; lia) zinc_blende_checked) as (codes & CC & CL).
  destruct (C119_centred_cubic_crystals_identified cofactor_pinv HO 48 [] (1 / 200) (541 / 100) _ _ 216 codes "F-43m" cofactor_pinv_ok ltac:(lia) CC) as (ops & O1 & O2 & _). exists ops. split; [exact O1|]. rewrite O2. lia.
Qed.
Example C119_platinum_oxide (HO : HashOrd) : exists ops, @get_space_group_info RNum cofactor_pinv HO 48 [] (1 / 200) (grid_crystal 12 (body_axes (559 / 100)) platinum_oxide) = Ok (229%Z, "Im-3m"%string, ops) /\ List.length ops = 48%nat.
Proof.
  destruct (grid_centred face_centred_groups body_centred_groups 229 48 "Im-3m" false 12 1 (559 / 100) (1 / 200) (body_axes (559 / 100)) platinum_oxide ltac:(split; [apply body_axes_cell|cbn; tauto]) ltac:(lra) ltac:(lra) ltac:(lra) ltac:(cbn; lia) platinum_oxide_checked) as (codes & CC & CL).
  destruct (C119_centred_cubic_crystals_identified cofactor_pinv HO 48 [] (1 / 200) (559 / 100) _ _ 229 codes "Im-3m" cofactor_pinv_ok ltac:(lia) CC) as (ops & O1 & O2 & _). exists ops. split; [exact O1|]. rewrite O2. lia.
Qed.

(** C120.  For all 21 groups, the answer, if there is one, is the crystal's group; *)
Theorem C120_answer_is_the_group :
  forall (P : @Pinv RNum) (HO : HashOrd) fuel path (dtol a d : R) (s : @structure RNum) N codes sym N' sym' ops,
    pinv_inverts P -> (48 <= fuel)%nat -> centred_crystal_of (face_centred_groups ++ diamond_groups) (body_centred_groups ++ open_body_centred_groups) N dtol a d s codes sym ->
    @get_space_group_info RNum P HO fuel path dtol s = Ok (N', sym', ops) -> N' = N /\ sym' = sym /\ ~ In N open_body_centred_groups.
Proof.
  intros P HO fuel path dtol a d s N codes sym N' sym' ops HP HF (CE & WF & BIG & Ba & Hd & SP & Da & RI & (order & HT) & ES & IFF) EI.
  assert (KF : exists f, gram (lattice s) = zmet (a * a / 4) (km f) /\ In N (kall f)) by (destruct CE as [(E & HN)|(E & HN)]; [exists true; split; [now apply face_gram|exact HN]|exists false; split; [now apply body_gram|exact HN]]).
  destruct KF as (f & EG & HN). apply sg_entries_In in HT.
  destruct (k_meaning f P HO dtol a d fuel path s HP HF WF BIG Hd Ba EG SP Da RI order N codes sym HT ES HN) with (N' := N') (sym' := sym') (ops' := ops) as (NO & -> & E2).
  - intros r t. apply (iff_trans (IFF r t)). split.
    + intros (code & Hc & Q). exists (code_op (has_char "A"%char sym) code). split; [unfold group_ops; apply (in_map (code_op (has_char "A"%char sym))); exact Hc|exact Q].
    + intros (o & Ho & Q). unfold group_ops in Ho. apply in_map_iff in Ho. destruct Ho as (code & <- & Hc). exists code. split; [exact Hc|exact Q].
  - exact EI.
  - split; [reflexivity|]. split; [exact E2|exact NO].
Qed.
Print Assumptions C120_answer_is_the_group.
(** and for the five groups I2_13, Ia-3, I4_132, I-43d, Ia-3d there is none. *)
Theorem C120_open_groups_never_answered :
  forall (P : @Pinv RNum) (HO : HashOrd) fuel path (dtol a d : R) (s : @structure RNum) N codes sym answer,
    pinv_inverts P -> (48 <= fuel)%nat -> centred_crystal_of [] open_body_centred_groups N dtol a d s codes sym ->
    @get_space_group_info RNum P HO fuel path dtol s <> Ok answer.
Proof.
  intros P HO fuel path dtol a d s N codes sym [[N' sym'] ops] HP HF (CE & REST) EI. destruct CE as [(_ & [])|(E & HN)].
  destruct (C120_answer_is_the_group P HO fuel path dtol a d s N codes sym N' sym' ops HP HF) as (_ & _ & Q); [split; [right; split; [exact E|apply in_or_app; right; exact HN]|exact REST]|exact EI|]. exact (Q HN).
Qed.
Print Assumptions C120_open_groups_never_answered.
(** diamond: whatever is answered is 227 *)
Example C120_diamond (HO : HashOrd) N' sym' ops : @get_space_group_info RNum cofactor_pinv HO 48 [] (1 / 250) (grid_crystal 12 (face_axes (357 / 100)) diamond) = Ok (N', sym', ops) -> N' = 227%Z.
Proof.
  destruct (grid_centred (face_centred_groups ++ diamond_groups) (body_centred_groups ++ open_body_centred_groups) 227 48 "Fd-3m1" true 12 1 (357 / 100) (1 / 250) (face_axes (357 / 100)) diamond ltac:(split; [apply face_axes_cell|cbn; tauto]) ltac:(lra) ltac:(lra) ltac:(lra) ltac:(cbn; lia) diamond_checked) as (codes & CC & CL).
  intro EI. exact (proj1 (C120_answer_is_the_group cofactor_pinv HO 48 [] (1 / 250) (357 / 100) _ _ 227 codes "Fd-3m1" N' sym' ops cofactor_pinv_ok ltac:(lia) CC EI)).
Qed.

(** C121.  Is every crystal in such a cell, with the operations of a tabulated group, given the number of that group?  Th3P4, I-43d, is given no answer. *)
Theorem C121_every_centred_cubic_crystal_identified_refuted :
  exists N dtol a d s codes sym, centred_crystal_of (face_centred_groups ++ diamond_groups) (body_centred_groups ++ open_body_centred_groups) N dtol a d s codes sym /\
    forall (P : @Pinv RNum) (HO : HashOrd) fuel path answer, pinv_inverts P -> (48 <= fuel)%nat -> @get_space_group_info RNum P HO fuel path dtol s <> Ok answer.
Proof.
  destruct (grid_centred [] open_body_centred_groups 220 24 "I-43d" false 24 2 (862 / 100) (1 / 250) (body_axes (862 / 100)) thorium_phosphide ltac:(split; [apply body_axes_cell|cbn; tauto]) ltac:(lra) ltac:(lra) ltac:(lra) ltac:(cbn; lia) thorium_phosphide_checked) as (codes & CC & CL).
  exists 220%Z, (1 / 250), (862 / 100), (1 / (2 * 24)), (grid_crystal 24 (body_axes (862 / 100)) thorium_phosphide), codes, "I-43d"%string. split.
  - destruct CC as (CE & REST). split; [|exact REST]. destruct CE as [(_ & [])|(E & HN)]. right. split; [exact E|]. apply in_or_app. right. exact HN.
  - intros P HO fuel path answer HP HF. exact (C120_open_groups_never_answered P HO fuel path (1 / 250) (862 / 100) _ _ 220 codes "I-43d" answer HP HF CC).
Qed.
Print Assumptions C121_every_centred_cubic_crystal_identified_refuted.
