(** Hexagonal crystals: what an answer says, and which crystals never get one. *)
From Coq Require Import ZArith Reals String Ascii List Bool Lia Lra Permutation.
From Verif Require Import Num Mat DataCore DataSG SymmOp SpaceGroup Structure Analyzer RInst Spec Spec2 Spec3 Spec5 Spec6 Spec8 RFacts PSymmOp PStructure PLattice PPointGroup PSpaceGroup2 PCode PIdentify PSearch6 PSearch7 PEnd4
  PEnd11 PEnd12 PEnd13 PEnd14 PEnd15 PEnd17 PEnd18 Prop4 Prop5 Prop10 PHex2 PHex3 PHex4 PHex5 PHex6 PHex7 Prop23.
Import ListNotations.
Open Scope R_scope.

(** C114.  The crystal's operations are those of entry [N] of the table along hexagonal axes [u].  If there is an answer, the group is not among the 21 of [not_closed], and the number answered is [N]; along
    left-handed axes it can be the number of another screw-axis group. *)
Theorem C114_answer_is_the_group :
  forall (P : @Pinv RNum) (HO : HashOrd) fuel path (dtol a c d : R) (s : @structure RNum) (u ui : mat Z) order N codes sym N' sym' ops,
    let sites := combine (frac_coords s) (species s) in
    let entry code := code_op (has_char "A"%char sym) code in
    pinv_inverts P -> (48 <= fuel)%nat ->
    List.length (frac_coords s) = List.length (species s) -> (0 < Z.of_nat (List.length (species s)) <= 65535)%Z ->
    near_axes u -> ZMmul u ui = ZMid -> hexagonal_cell a c (Mmul (lattice s) (MofZ u)) -> told_apart a c (lattice s) ->
    1 <= a <= 1000 -> 1 <= c <= 1000 -> 1 / 100000 <= dtol <= 1 / 25 ->
    spread d sites -> 26 * dtol <= d * a -> 26 * dtol <= d * c ->
    rigid (2 * dtol) (lattice s) sites (lattice_isometry (lattice s)) ->
    tabulated Hexagonal order N codes -> am_get Z.eqb N SG_NUM_TO_SYMBOL = Some sym ->
    (forall r t, (lattice_isometry (lattice s) r /\ exact_operation sites r t) <->
      exists code, In code codes /\ along u (fst (entry code)) (in_twelfths (snd (entry code))) r t) ->
    @get_space_group_info RNum P HO fuel path dtol s = Ok (N', sym', ops) ->
    ~ In N not_closed /\
    (N' = N \/ (Mdet (Mmul (lattice s) (MofZ u)) < 0 /\ In N [144; 145; 169; 170; 171; 172]%Z /\ In N' [144; 145; 169; 170; 171; 172]%Z)).
Proof.
  intros P HO fuel path dtol a c d s u ui order N codes sym N' sym' ops sites entry HP HF WF BIG HU UI EL SEP Ba Bc Hd SP Da Dc RI HT ES IFF EI.
  destruct HU as [SU DU].
  destruct (hex_meaning P HO dtol a c d fuel path s u ui HP HF WF BIG Hd Ba Bc DU SU UI EL SEP SP Da Dc RI order N codes sym) with (N' := N') (sym' := sym') (ops' := ops) as (NC & ON).
  - apply sg_entries_In. exact HT.
  - exact ES.
  - intros r t. change (sites_of s) with sites. rewrite IFF. split.
    + intros (code & Hc & A). apply (along_conj_inv u ui) in A; [|exact UI]. exists (entry code). split; [now apply in_map|exact A].
    + intros (o & Ho & A). unfold group_ops in Ho. apply in_map_iff in Ho. destruct Ho as (code & <- & Hc). exists code. split; [exact Hc|]. apply (along_conj_inv u ui); [exact UI|exact A].
  - exact EI.
  - split; [exact NC|]. destruct ON as [Q|(I1 & I2 & D)]; [left; exact Q|right]. rewrite Mdet_mul, MofZ_det. split; [exact D|split; [exact I1|exact I2]].
Qed.
Print Assumptions C114_answer_is_the_group.
(** Crystals with one of the eight hexagonal groups of [not_closed] are never answered. *)
Theorem C114_open_hexagonal_groups_never_answered :
  forall (P : @Pinv RNum) (HO : HashOrd) fuel path (dtol a c d : R) (s : @structure RNum) (u ui : mat Z) order N codes sym answer,
    let sites := combine (frac_coords s) (species s) in
    let entry code := code_op (has_char "A"%char sym) code in
    pinv_inverts P -> (48 <= fuel)%nat ->
    List.length (frac_coords s) = List.length (species s) -> (0 < Z.of_nat (List.length (species s)) <= 65535)%Z ->
    near_axes u -> ZMmul u ui = ZMid -> hexagonal_cell a c (Mmul (lattice s) (MofZ u)) -> told_apart a c (lattice s) ->
    1 <= a <= 1000 -> 1 <= c <= 1000 -> 1 / 100000 <= dtol <= 1 / 25 ->
    spread d sites -> 26 * dtol <= d * a -> 26 * dtol <= d * c ->
    rigid (2 * dtol) (lattice s) sites (lattice_isometry (lattice s)) ->
    tabulated Hexagonal order N codes -> am_get Z.eqb N SG_NUM_TO_SYMBOL = Some sym -> In N [151; 152; 153; 154; 178; 179; 180; 181]%Z ->
    (forall r t, (lattice_isometry (lattice s) r /\ exact_operation sites r t) <->
      exists code, In code codes /\ along u (fst (entry code)) (in_twelfths (snd (entry code))) r t) ->
    @get_space_group_info RNum P HO fuel path dtol s <> Ok answer.
Proof.
  intros P HO fuel path dtol a c d s u ui order N codes sym [[N' sym'] ops] sites entry HP HF WF BIG HU UI EL SEP Ba Bc Hd SP Da Dc RI HT ES IN IFF EI.
  destruct (C114_answer_is_the_group P HO fuel path dtol a c d s u ui order N codes sym N' sym' ops HP HF WF BIG HU UI EL SEP Ba Bc Hd SP Da Dc RI HT ES IFF EI) as (Q & _). apply Q. revert IN. cbn. tauto.
Qed.
Print Assumptions C114_open_hexagonal_groups_never_answered.
(** magnesium: whatever is answered is 194 *)
Example C114_magnesium (HO : HashOrd) N' sym' ops :
  @get_space_group_info RNum cofactor_pinv HO 48 [] (1 / 200) (hex_crystal 12 (321 / 100) (521 / 100) ZMid (close_packed "Mg")) = Ok (N', sym', ops) -> N' = 194%Z.
Proof.
  destruct (hex_mineral_facts 12 1 (321 / 100) (521 / 100) ZMid (close_packed "Mg") 194 24 "P6_3/mmc" ltac:(lra) ltac:(lra) ltac:(lra) ltac:(rewrite Rabs_left; lra) id_near close_packed_checked) as (codes & HT & ES & M0 & FR & IFF & CE & SE & LE & CL).
  destruct (hex_conditions (1 / 200) (321 / 100) (521 / 100) 12 _ ZMid _ M0 id_near CE ltac:(lra) ltac:(lra) ltac:(lra) FR ltac:(lra) ltac:(lra)) as (SP & RI & Da & Dc). intro EI.
  destruct (C114_answer_is_the_group cofactor_pinv HO 48 [] (1 / 200) (321 / 100) (521 / 100) (1 / (2 * 12)) (hex_crystal 12 (321 / 100) (521 / 100) ZMid (close_packed "Mg")) ZMid ZMid 24 194 codes "P6_3/mmc" N' sym' ops)
    as (_ & [Q|(_ & Q & _)]); [exact cofactor_pinv_ok|lia|exact LE|cbn; lia|exact id_near|reflexivity|exact CE|exact SE|lra|lra|lra|exact SP|exact Da|exact Dc|exact RI|exact HT|exact ES|exact IFF|exact EI|exact Q|cbn in Q; lia].
Qed.

(** C115.  Is every crystal in a hexagonal cell, with the operations of a tabulated group, given the number of that group?  Low quartz, SiO2, P3_121, is not. *)
Definition hexagonal_crystal_of (N : Z) (dtol a c d : R) (s : @structure RNum) (u ui : mat Z) (sym : string) : Prop :=
  let sites := combine (frac_coords s) (species s) in
  List.length (frac_coords s) = List.length (species s) /\ (0 < Z.of_nat (List.length (species s)) <= 65535)%Z /\
  near_axes u /\ ZMmul u ui = ZMid /\ hexagonal_cell a c (Mmul (lattice s) (MofZ u)) /\ told_apart a c (lattice s) /\
  1 <= a <= 1000 /\ 1 <= c <= 1000 /\ 1 / 100000 <= dtol <= 1 / 25 /\ spread d sites /\ 26 * dtol <= d * a /\ 26 * dtol <= d * c /\
  rigid (2 * dtol) (lattice s) sites (lattice_isometry (lattice s)) /\
  exists order codes, tabulated Hexagonal order N codes /\ am_get Z.eqb N SG_NUM_TO_SYMBOL = Some sym /\
  forall r t, (lattice_isometry (lattice s) r /\ exact_operation sites r t) <->
    exists code, In code codes /\ along u (fst (code_op (has_char "A"%char sym) code)) (in_twelfths (snd (code_op (has_char "A"%char sym) code))) r t.
Theorem C115_every_hexagonal_crystal_identified_refuted :
  exists dtol a c d s u ui, hexagonal_crystal_of 152 dtol a c d s u ui "P3_121" /\
    forall (P : @Pinv RNum) (HO : HashOrd) fuel path answer, pinv_inverts P -> (48 <= fuel)%nat -> @get_space_group_info RNum P HO fuel path dtol s <> Ok answer.
Proof.
  destruct (hex_mineral_facts 1200 100 (4913 / 1000) (5405 / 1000) ZMid quartz 152 6 "P3_121" ltac:(lra) ltac:(lra) ltac:(lra) ltac:(rewrite Rabs_left; lra) id_near quartz_checked) as (codes & HT & ES & M0 & FR & IFF & CE & SE & LE & CL).
  set (s := hex_crystal 1200 (4913 / 1000) (5405 / 1000) ZMid quartz) in *.
  assert (LB : (0 < Z.of_nat (List.length (species s)) <= 65535)%Z) by (cbn; lia). clearbody s.
  destruct (hex_conditions (1 / 20000) (4913 / 1000) (5405 / 1000) 1200 _ ZMid _ M0 id_near CE ltac:(lra) ltac:(lra) ltac:(lra) FR ltac:(lra) ltac:(lra)) as (SP & RI & Da & Dc).
  exists (1 / 20000), (4913 / 1000), (5405 / 1000), (1 / (2 * 1200)), s, ZMid, ZMid. split.
  - unfold hexagonal_crystal_of. split; [exact LE|]. split; [exact LB|]. split; [exact id_near|]. split; [reflexivity|]. split; [exact CE|]. split; [exact SE|]. split; [lra|]. split; [lra|]. split; [lra|].
    split; [exact SP|]. split; [exact Da|]. split; [exact Dc|]. split; [exact RI|]. exists 6%Z, codes. split; [exact HT|]. split; [exact ES|exact IFF].
  - intros P HO fuel path answer HP HF.
    apply (C114_open_hexagonal_groups_never_answered P HO fuel path (1 / 20000) (4913 / 1000) (5405 / 1000) (1 / (2 * 1200)) s ZMid ZMid 6 152 codes "P3_121" answer);
      [exact HP|exact HF|exact LE|exact LB|exact id_near|reflexivity|exact CE|exact SE|lra|lra|lra|exact SP|exact Da|exact Dc|exact RI|exact HT|exact ES|cbn; tauto|exact IFF].
Qed.
Print Assumptions C115_every_hexagonal_crystal_identified_refuted.
