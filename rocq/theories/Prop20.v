(** Crystals of tabulated groups in rectangular cells that are not identified. *)
From Coq Require Import ZArith Reals String Ascii List Bool Lia Lra Permutation.
From Verif Require Import Num Mat DataCore DataSG SymmOp SpaceGroup Structure Analyzer RInst Spec Spec2 Spec3 Spec5 Spec6 RFacts PSymmOp PStructure PLattice PSpaceGroup2 PIdentify PSearch6 PSearch7 PEnd4
  PEnd11 PEnd12 PEnd13 PEnd14 PEnd15 PEnd16 PEnd17 PEnd18 Prop4 Prop5 Prop10 Prop19.
Import ListNotations.
Open Scope R_scope.

(** C100.  A crystal of a group whose tabulated operations are not closed under the code's product is never answered, whatever its axes are called. *)
Theorem C100_open_groups_never_answered :
  forall (P : @Pinv RNum) (HO : HashOrd) fuel path (dtol a b c d : R) (s : @structure RNum) (u v : mat Z) ls order N codes sym answer,
    let sites := combine (frac_coords s) (species s) in
    let entry symbol code := code_op (has_char "A"%char symbol) code in
    pinv_inverts P -> (48 <= fuel)%nat ->
    List.length (frac_coords s) = List.length (species s) -> (0 < Z.of_nat (List.length (species s)) <= 65535)%Z ->
    of_the_cube u -> of_the_cube v -> box_cell a b c (Mmul (lattice s) (MofZ u)) -> 0 < Mdet (Mmul (lattice s) (MofZ u)) ->
    standard_edges ls (1 / 100000 * Rpower (a * b * c) (1 / 3)) a b c ->
    1 <= a <= 1000 -> 1 <= b <= 1000 -> 1 <= c <= 1000 -> 1 / 100000 <= dtol <= 1 / 25 ->
    spread d sites -> 4 * dtol <= d * a -> 4 * dtol <= d * b -> 4 * dtol <= d * c ->
    rigid (2 * dtol) (lattice s) sites (lattice_isometry (lattice s)) ->
    tabulated ls order N codes -> am_get Z.eqb N SG_NUM_TO_SYMBOL = Some sym -> In N not_closed ->
    (forall r t, (lattice_isometry (lattice s) r /\ exact_operation sites r t) <->
      exists code, In code codes /\ along v (fst (entry sym code)) (in_twelfths (snd (entry sym code))) r t) ->
    @get_space_group_info RNum P HO fuel path dtol s <> Ok answer.
Proof.
  intros P HO fuel path dtol a b c d s u v ls order N codes sym [[N' sym'] ops] sites entry HP HF WF BIG HU HV EL RH SE Ba Bb Bc Hd SP Da Db Dc RI HT ES NC IFF EI.
  destruct (C99_answer_is_the_group P HO fuel path dtol a b c d s u v ls order N codes sym N' sym' ops HP HF WF BIG HU HV EL RH SE Ba Bb Bc Hd SP Da Db Dc RI HT ES IFF EI) as (Q & _). exact (Q NC).
Qed.
Print Assumptions C100_open_groups_never_answered.
(** A crystal whose axes, named by their lengths, are not the axes of the tabulated setting is never answered. *)
Theorem C100_other_settings_never_answered :
  forall (P : @Pinv RNum) (HO : HashOrd) fuel path (dtol a b c d : R) (s : @structure RNum) (u v : mat Z) ls order N codes sym answer r t,
    let sites := combine (frac_coords s) (species s) in
    let entry symbol code := code_op (has_char "A"%char symbol) code in
    pinv_inverts P -> (48 <= fuel)%nat ->
    List.length (frac_coords s) = List.length (species s) -> (0 < Z.of_nat (List.length (species s)) <= 65535)%Z ->
    of_the_cube u -> of_the_cube v -> box_cell a b c (Mmul (lattice s) (MofZ u)) -> 0 < Mdet (Mmul (lattice s) (MofZ u)) ->
    standard_edges ls (1 / 100000 * Rpower (a * b * c) (1 / 3)) a b c ->
    1 <= a <= 1000 -> 1 <= b <= 1000 -> 1 <= c <= 1000 -> 1 / 100000 <= dtol <= 1 / 25 ->
    spread d sites -> 4 * dtol <= d * a -> 4 * dtol <= d * b -> 4 * dtol <= d * c ->
    rigid (2 * dtol) (lattice s) sites (lattice_isometry (lattice s)) ->
    tabulated ls order N codes -> am_get Z.eqb N SG_NUM_TO_SYMBOL = Some sym -> ~ In N [76; 78]%Z ->
    (forall r t, (lattice_isometry (lattice s) r /\ exact_operation sites r t) <->
      exists code, In code codes /\ along v (fst (entry sym code)) (in_twelfths (snd (entry sym code))) r t) ->
    (exists code, In code codes /\ along v (fst (entry sym code)) (in_twelfths (snd (entry sym code))) r t) ->
    (forall code, In code codes -> ~ along u (fst (entry sym code)) (in_twelfths (snd (entry sym code))) r t) ->
    @get_space_group_info RNum P HO fuel path dtol s <> Ok answer.
Proof.
  intros P HO fuel path dtol a b c d s u v ls order N codes sym [[N' sym'] ops] r t sites entry HP HF WF BIG HU HV EL RH SE Ba Bb Bc Hd SP Da Db Dc RI HT ES HAND IFF HAS NOT EI.
  destruct (C99_answer_is_the_group P HO fuel path dtol a b c d s u v ls order N codes sym N' sym' ops HP HF WF BIG HU HV EL RH SE Ba Bb Bc Hd SP Da Db Dc RI HT ES IFF EI) as (_ & ON & codes' & HT' & ES' & IFF').
  destruct ON as [->|[Q _]]; [|exact (HAND Q)]. assert (codes' = codes) as -> by (apply (C54_tabulated_groups _ _ _ _ HT) in HT'; apply HT').
  rewrite ES in ES'. injection ES' as <-. apply IFF in HAS. apply IFF' in HAS. destruct HAS as (code & Hc & A). exact (NOT code Hc A).
Qed.
Print Assumptions C100_other_settings_never_answered.

(** The claim that fails: every crystal in a rectangular cell, with the operations of a tabulated group, is given the number of that group. *)
Definition box_crystal_of (ls : lattice_system) (N : Z) (dtol a b c d : R) (s : @structure RNum) (u v : mat Z) (sym : string) : Prop :=
  let sites := combine (frac_coords s) (species s) in
  List.length (frac_coords s) = List.length (species s) /\ (0 < Z.of_nat (List.length (species s)) <= 65535)%Z /\
  of_the_cube u /\ of_the_cube v /\ box_cell a b c (Mmul (lattice s) (MofZ u)) /\ 0 < Mdet (Mmul (lattice s) (MofZ u)) /\
  standard_edges ls (1 / 100000 * Rpower (a * b * c) (1 / 3)) a b c /\
  1 <= a <= 1000 /\ 1 <= b <= 1000 /\ 1 <= c <= 1000 /\ 1 / 100000 <= dtol <= 1 / 25 /\
  spread d sites /\ 4 * dtol <= d * a /\ 4 * dtol <= d * b /\ 4 * dtol <= d * c /\
  rigid (2 * dtol) (lattice s) sites (lattice_isometry (lattice s)) /\
  exists order codes, tabulated ls order N codes /\ am_get Z.eqb N SG_NUM_TO_SYMBOL = Some sym /\
  forall r t, (lattice_isometry (lattice s) r /\ exact_operation sites r t) <->
    exists code, In code codes /\ along v (fst (code_op (has_char "A"%char sym) code)) (in_twelfths (snd (code_op (has_char "A"%char sym) code))) r t.
(** pyrite, FeS2, Pa-3: no answer *)
Theorem C100_every_box_crystal_identified_refuted :
  exists dtol a b c d s u v, box_crystal_of Cubic 205 dtol a b c d s u v "Pa-3" /\
    forall (P : @Pinv RNum) (HO : HashOrd) fuel path answer, pinv_inverts P -> (48 <= fuel)%nat -> @get_space_group_info RNum P HO fuel path dtol s <> Ok answer.
Proof.
  destruct (checked_entry_ok _ _ _ _ _ pyrite_checked) as (codes & HT & ES & CK). set (a := 5417 / 1000). assert (Ha : a = 5417 / 1000) by reflexivity. clearbody a.
  assert (E0 : 0 < a * a * a <= 1000) by (rewrite Ha; lra). apply small_eps in E0.
  assert (SE : standard_edges Cubic (1 / 100000 * Rpower (a * a * a) (1 / 3)) a a a) by (split; reflexivity).
  destruct (mineral_group 600 50 pyrite_points Cubic _ a a a (M a 0 0 0 a 0 0 0 a) ZMid ZMid _ codes ltac:(lra) ltac:(lra) ltac:(lra) (proj1 E0) SE (box_id _ _ _) id_cube id_cube CK) as (M0 & FR & IFF). clear CK.
  destruct (fractions_conditions (1 / 1000) a a a 600 (M a 0 0 0 a 0 0 0 a) ZMid (grid_sites 600 pyrite_points)) as (SP & RI & Da & Db & Dc);
    [exact M0|exact id_cube|apply box_id|lra|lra|lra|lra|exact FR|lra|lra|lra|].
  set (s := mineral 600 a a a pyrite_points).
  assert (C : box_crystal_of Cubic 205 (1 / 1000) a a a (1 / (2 * 600)) s ZMid ZMid "Pa-3").
  { unfold box_crystal_of, s. cbv zeta. rewrite mineral_sites. repeat (apply Logic.conj).
    1: apply mineral_len. 1, 2: cbn; lia. 1, 2: exact id_cube. 1: apply box_id. 1: apply box_hand; [lra|lra|lra|reflexivity]. 1: exact (proj1 SE). 1: exact (proj2 SE). 1-8: lra. 1: exact SP. 1: exact Da. 1: exact Db. 1: exact Dc. 1: exact RI.
    exists 24%Z, codes. split; [exact HT|]. split; [exact ES|exact IFF]. }
  exists (1 / 1000), a, a, a, (1 / (2 * 600)), s, ZMid, ZMid. split; [exact C|]. intros P HO fuel path answer HP HF.
  destruct C as (C1 & C2 & C3 & C4 & C5 & C6 & C7 & C8 & C9 & C10 & C11 & C12 & C13 & C14 & C15 & C16 & _).
  apply (C100_open_groups_never_answered P HO fuel path (1 / 1000) a a a (1 / (2 * 600)) s ZMid ZMid Cubic 24 205 codes "Pa-3"); try assumption.
  - cbn. lia.
Qed.
Print Assumptions C100_every_box_crystal_identified_refuted.
(** and CaTiO3, the mineral perovskite, in the setting Pnma of the tables, whose b axis is the longest: no answer *)
Theorem C100_perovskite_refuted :
  exists dtol a b c d s u, box_crystal_of Orthorhombic 62 dtol a b c d s u ZMid "Pnma" /\
    forall (P : @Pinv RNum) (HO : HashOrd) fuel path answer, pinv_inverts P -> (48 <= fuel)%nat -> @get_space_group_info RNum P HO fuel path dtol s <> Ok answer.
Proof.
  destruct (checked_entry_ok _ _ _ _ _ perovskite_checked) as (codes & HT & ES & CK).
  set (a := 544 / 100). assert (Ha : a = 544 / 100) by reflexivity. clearbody a. set (b := 764 / 100). assert (Hb : b = 764 / 100) by reflexivity. clearbody b. set (c := 538 / 100). assert (Hc : c = 538 / 100) by reflexivity. clearbody c.
  destruct (mineral_check 3000 250 perovskite_points Orthorhombic cyclic_back ZMid "Pnma" codes) eqn:CK1; [|discriminate]. apply negb_true_iff in CK.
  assert (E0 : 0 < c * a * b <= 1000) by (rewrite Ha, Hb, Hc; lra). apply small_eps in E0.
  assert (SE : standard_edges Orthorhombic (1 / 100000 * Rpower (c * a * b) (1 / 3)) c a b) by (split; (eapply Rle_lt_trans; [apply E0|rewrite ?Ha, ?Hb, ?Hc; lra])).
  destruct (mineral_group 3000 250 perovskite_points Orthorhombic _ c a b (M a 0 0 0 b 0 0 0 c) cyclic_back ZMid _ codes ltac:(lra) ltac:(lra) ltac:(lra) (proj1 E0) SE (box_cyclic_back _ _ _) cyclic_back_cube id_cube CK1) as (M0 & FR & IFF). clear CK1.
  destruct (fractions_conditions (1 / 10000) c a b 3000 (M a 0 0 0 b 0 0 0 c) cyclic_back (grid_sites 3000 perovskite_points)) as (SP & RI & Da & Db & Dc);
    [exact M0|exact cyclic_back_cube|apply box_cyclic_back|lra|lra|lra|lra|exact FR|lra|lra|lra|].
  set (s := mineral 3000 a b c perovskite_points).
  assert (C : box_crystal_of Orthorhombic 62 (1 / 10000) c a b (1 / (2 * 3000)) s cyclic_back ZMid "Pnma").
  { unfold box_crystal_of, s. cbv zeta. rewrite mineral_sites. repeat (apply Logic.conj).
    1: apply mineral_len. 1, 2: cbn; lia. 1: exact cyclic_back_cube. 1: exact id_cube. 1: apply box_cyclic_back. 1: apply box_hand; [lra|lra|lra|reflexivity]. 1: exact (proj1 SE). 1: exact (proj2 SE). 1-8: lra. 1: exact SP. 1: exact Da. 1: exact Db. 1: exact Dc. 1: exact RI.
    exists 8%Z, codes. split; [exact HT|]. split; [exact ES|exact IFF]. }
  exists (1 / 10000), c, a, b, (1 / (2 * 3000)), s, cyclic_back. split; [exact C|]. intros P HO fuel path [[N' sym'] ops] HP HF EI.
  destruct C as (C1 & C2 & C3 & C4 & C5 & C6 & C7 & C8 & C9 & C10 & C11 & C12 & C13 & C14 & C15 & C16 & _).
  destruct (C99_answer_is_the_group P HO fuel path (1 / 10000) c a b (1 / (2 * 3000)) s cyclic_back ZMid Orthorhombic 8 62 codes "Pnma" N' sym' ops) as (_ & ON & codes' & HT' & ES' & IFF'); try assumption.
  destruct ON as [->|[Q _]]; [|cbn in Q; lia]. assert (codes' = codes) as -> by (apply (C54_tabulated_groups _ _ _ _ HT) in HT'; apply HT').
  rewrite ES in ES'. injection ES' as <-. rewrite renamed in CK; [discriminate|exact cyclic_back_cube|].
  intros o Ho. unfold group_ops in Ho. apply in_map_iff in Ho. destruct Ho as (code & <- & Hc').
  assert (A : along ZMid (fst (code_op (has_char "A"%char "Pnma") code)) (in_twelfths (snd (code_op (has_char "A"%char "Pnma") code))) (fst (code_op (has_char "A"%char "Pnma") code)) (in_twelfths (snd (code_op (has_char "A"%char "Pnma") code)))).
  { unfold along. rewrite !MofZ_id, Mapp_id, Mmul_id_r, Mmul_id_l. split; [reflexivity|apply Vcongr_refl]. }
  assert (X : exists code', In code' codes /\ along ZMid (fst (code_op (has_char "A"%char "Pnma") code')) (in_twelfths (snd (code_op (has_char "A"%char "Pnma") code'))) (fst (code_op (has_char "A"%char "Pnma") code)) (in_twelfths (snd (code_op (has_char "A"%char "Pnma") code)))) by (exists code; split; [exact Hc'|exact A]).
  apply IFF in X. rewrite <- (mineral_sites 3000 a b c) in X. apply IFF' in X. destruct X as (code' & H1 & H2). eexists. split; [apply in_map; exact H1|]. exact H2.
Qed.
Print Assumptions C100_perovskite_refuted.
