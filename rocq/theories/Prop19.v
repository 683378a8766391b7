(** Crystals with several atoms in a rectangular cell: the whole run, from the structure to the answer. *)
From Coq Require Import ZArith Reals String Ascii List Bool Lia Lra Permutation.
From Verif Require Import Num Mat DataCore DataSG SymmOp SpaceGroup Structure Analyzer RInst Spec Spec2 Spec3 Spec5 Spec6 RFacts PSymmOp PStructure PLattice PSpaceGroup2 PIdentify PSearch6 PSearch7 PEnd4
  PEnd11 PEnd12 PEnd13 PEnd14 PEnd15 PEnd16 PEnd17 PEnd18 Prop4 Prop5 Prop10.
Import ListNotations.
Open Scope R_scope.

(** C98.  The crystal's operations are those of entry [N] of the table, along the axes [u], along which the box is in the standard form. *)
Theorem C98_box_crystals_identified :
  forall (P : @Pinv RNum) (HO : HashOrd) fuel path (dtol a b c d : R) (s : @structure RNum) (u : mat Z) ls order N codes sym,
    let sites := combine (frac_coords s) (species s) in
    let entry code := code_op (has_char "A"%char sym) code in
    pinv_inverts P -> (48 <= fuel)%nat ->
    List.length (frac_coords s) = List.length (species s) -> (0 < Z.of_nat (List.length (species s)) <= 65535)%Z ->
    of_the_cube u -> box_cell a b c (Mmul (lattice s) (MofZ u)) -> standard_edges ls (1 / 100000 * Rpower (a * b * c) (1 / 3)) a b c ->
    1 <= a <= 1000 -> 1 <= b <= 1000 -> 1 <= c <= 1000 -> 1 / 100000 <= dtol <= 1 / 24 ->
    spread d sites -> 4 * dtol <= d * a -> 4 * dtol <= d * b -> 4 * dtol <= d * c ->
    rigid (2 * dtol) (lattice s) sites (lattice_isometry (lattice s)) ->
    tabulated ls order N codes -> am_get Z.eqb N SG_NUM_TO_SYMBOL = Some sym -> ~ In N not_closed ->
    (0 < Mdet (Mmul (lattice s) (MofZ u)) \/ ~ In N [76; 78]%Z) ->
    (forall r t, (lattice_isometry (lattice s) r /\ exact_operation sites r t) <->
      exists code, In code codes /\ along u (fst (entry code)) (in_twelfths (snd (entry code))) r t) ->
    exists ops, @get_space_group_info RNum P HO fuel path dtol s = Ok (N, sym, ops) /\ List.length ops = List.length codes /\
      (forall op, In op ops -> exists code t, In code codes /\ along u (fst (entry code)) (in_twelfths (snd (entry code))) (rotation op) t /\ modulo_within (1 / 1000000000) (translation op) t) /\
      (forall code, In code codes -> exists op t, In op ops /\ along u (fst (entry code)) (in_twelfths (snd (entry code))) (rotation op) t /\ modulo_within (1 / 1000000000) (translation op) t).
Proof.
  intros P HO fuel path dtol a b c d s u ls order N codes sym sites entry HP HF WF BIG HU EL SE Ba Bb Bc Hd SP Da Db Dc RI HT ES NC HAND IFF.
  destruct (cube_signed u HU) as (Su & UI).
  destruct (box_answered P HO dtol a b c d fuel path s u (transpose u) HP HF WF BIG Su UI EL Ba Bb Bc Hd SP Da Db Dc ls order N codes sym SE RI) as (ops & O1 & O2 & O3 & O4); auto.
  - apply sg_entries_In. exact HT.
  - intros r t. change (sites_of s) with sites. rewrite IFF. split.
    + intros (code & Hc & A). apply along_conj in A; [|exact UI]. exists (entry code). split; [now apply in_map|exact A].
    + intros (o & Ho & A). unfold group_ops in Ho. apply in_map_iff in Ho. destruct Ho as (code & <- & Hc). exists code. split; [exact Hc|]. apply along_conj; [exact UI|exact A].
  - destruct HAND as [Q|Q]; [left|right; exact Q]. now rewrite Mdet_mul, MofZ_det in Q.
  - exists ops. split; [exact O1|]. split; [exact O2|]. split.
    + intros op Hop. destruct (O3 op Hop) as (o & Ho & E & Nn). unfold group_ops in Ho. apply in_map_iff in Ho. destruct Ho as (code & <- & Hc). exists code, (Mapp (MofZ u) (in_twelfths (snd (entry code)))).
      split; [exact Hc|]. split; [apply along_conj; [exact UI|split; [exact E|apply Vcongr_refl]]|exact Nn].
    + intros code Hc. destruct (O4 (entry code)) as (op & Hop & E & Nn); [now apply in_map|]. exists op, (Mapp (MofZ u) (in_twelfths (snd (entry code)))). split; [exact Hop|]. split; [apply along_conj; [exact UI|split; [exact E|apply Vcongr_refl]]|exact Nn].
Qed.
Print Assumptions C98_box_crystals_identified.
(** the same for positions that are fractions with denominator [m]: the conditions on the sites reduce to a bound on the tolerance *)
Theorem C98_fractional_positions :
  forall (P : @Pinv RNum) (HO : HashOrd) fuel path (dtol a b c : R) (m : Z) (s : @structure RNum) (u : mat Z) ls order N codes sym,
    let sites := combine (frac_coords s) (species s) in
    let entry code := code_op (has_char "A"%char sym) code in
    pinv_inverts P -> (48 <= fuel)%nat ->
    List.length (frac_coords s) = List.length (species s) -> (0 < Z.of_nat (List.length (species s)) <= 65535)%Z ->
    of_the_cube u -> box_cell a b c (Mmul (lattice s) (MofZ u)) -> standard_edges ls (1 / 100000 * Rpower (a * b * c) (1 / 3)) a b c ->
    1 <= a <= 1000 -> 1 <= b <= 1000 -> 1 <= c <= 1000 -> 1 / 100000 <= dtol <= 1 / 24 ->
    (0 < m)%Z -> fractions_of m sites -> 8 * IZR m * dtol <= a -> 8 * IZR m * dtol <= b -> 8 * IZR m * dtol <= c ->
    tabulated ls order N codes -> am_get Z.eqb N SG_NUM_TO_SYMBOL = Some sym -> ~ In N not_closed ->
    (0 < Mdet (Mmul (lattice s) (MofZ u)) \/ ~ In N [76; 78]%Z) ->
    (forall r t, (lattice_isometry (lattice s) r /\ exact_operation sites r t) <->
      exists code, In code codes /\ along u (fst (entry code)) (in_twelfths (snd (entry code))) r t) ->
    exists ops, @get_space_group_info RNum P HO fuel path dtol s = Ok (N, sym, ops) /\ List.length ops = List.length codes /\
      (forall op, In op ops -> exists code t, In code codes /\ along u (fst (entry code)) (in_twelfths (snd (entry code))) (rotation op) t /\ modulo_within (1 / 1000000000) (translation op) t) /\
      (forall code, In code codes -> exists op t, In op ops /\ along u (fst (entry code)) (in_twelfths (snd (entry code))) (rotation op) t /\ modulo_within (1 / 1000000000) (translation op) t).
Proof.
  intros P HO fuel path dtol a b c m s u ls order N codes sym sites entry HP HF WF BIG HU EL SE Ba Bb Bc Hd Hm FR Ma Mb Mc HT ES NC HAND IFF.
  destruct (fractions_conditions dtol a b c m (lattice s) u sites Hm HU EL Ba Bb Bc Hd FR Ma Mb Mc) as (SP & RI & Da & Db & Dc).
  exact (C98_box_crystals_identified P HO fuel path dtol a b c (1 / (2 * IZR m)) s u ls order N codes sym HP HF WF BIG HU EL SE Ba Bb Bc Hd SP Da Db Dc RI HT ES NC HAND IFF).
Qed.
Print Assumptions C98_fractional_positions.

(** C99.  An answer names the crystal's own group: the crystal's operations, those of entry [N] along axes [v], are those of the answered entry along the standard axes [u]. *)
Theorem C99_answer_is_the_group :
  forall (P : @Pinv RNum) (HO : HashOrd) fuel path (dtol a b c d : R) (s : @structure RNum) (u v : mat Z) ls order N codes sym N' sym' ops,
    let sites := combine (frac_coords s) (species s) in
    let entry symbol code := code_op (has_char "A"%char symbol) code in
    pinv_inverts P -> (48 <= fuel)%nat ->
    List.length (frac_coords s) = List.length (species s) -> (0 < Z.of_nat (List.length (species s)) <= 65535)%Z ->
    of_the_cube u -> of_the_cube v -> box_cell a b c (Mmul (lattice s) (MofZ u)) -> 0 < Mdet (Mmul (lattice s) (MofZ u)) ->
    standard_edges ls (1 / 100000 * Rpower (a * b * c) (1 / 3)) a b c ->
    1 <= a <= 1000 -> 1 <= b <= 1000 -> 1 <= c <= 1000 -> 1 / 100000 <= dtol <= 1 / 25 ->
    spread d sites -> 4 * dtol <= d * a -> 4 * dtol <= d * b -> 4 * dtol <= d * c ->
    rigid (2 * dtol) (lattice s) sites (lattice_isometry (lattice s)) ->
    tabulated ls order N codes -> am_get Z.eqb N SG_NUM_TO_SYMBOL = Some sym ->
    (forall r t, (lattice_isometry (lattice s) r /\ exact_operation sites r t) <->
      exists code, In code codes /\ along v (fst (entry sym code)) (in_twelfths (snd (entry sym code))) r t) ->
    @get_space_group_info RNum P HO fuel path dtol s = Ok (N', sym', ops) ->
    ~ In N not_closed /\ (N' = N \/ (In N [76; 78]%Z /\ In N' [76; 78]%Z)) /\
    exists codes', tabulated ls order N' codes' /\ am_get Z.eqb N' SG_NUM_TO_SYMBOL = Some sym' /\
      (forall r t, (lattice_isometry (lattice s) r /\ exact_operation sites r t) <->
        exists code, In code codes' /\ along u (fst (entry sym' code)) (in_twelfths (snd (entry sym' code))) r t).
Proof.
  intros P HO fuel path dtol a b c d s u v ls order N codes sym N' sym' ops sites entry HP HF WF BIG HU HV EL RH SE Ba Bb Bc Hd SP Da Db Dc RI HT ES IFF EI.
  destruct (cube_signed u HU) as (Su & UI). destruct (cube_signed v HV) as (Sv & VI). apply sg_entries_In in HT. rewrite Mdet_mul, MofZ_det in RH.
  assert (IFF' : forall r t, (lattice_isometry (lattice s) r /\ exact_operation sites r t) <->
    exists o, In o (group_ops sym codes) /\ r = conj v (fst o) (transpose v) /\ Vcongr t (Mapp (MofZ v) (in_twelfths (snd o)))).
  { intros r t. rewrite IFF. split.
    - intros (code & Hc & A). apply along_conj in A; [|exact VI]. exists (entry sym code). split; [now apply in_map|exact A].
    - intros (o & Ho & A). unfold group_ops in Ho. apply in_map_iff in Ho. destruct Ho as (code & <- & Hc). exists code. split; [exact Hc|]. apply along_conj; [exact VI|exact A]. }
  destruct (box_meaning P HO dtol a b c d fuel path s u (transpose u) v (transpose v) HP HF WF BIG Su UI EL Ba Bb Bc Hd SP Da Db Dc ls order N codes sym SE RI HT ES Sv VI IFF' RH N' sym' ops EI)
    as (NC & ON & codes' & HT' & ES' & F & B).
  split; [exact NC|]. split; [exact ON|]. exists codes'. split; [now apply sg_entries_In|]. split; [exact ES'|]. intros r t. rewrite IFF'. split.
  - intros (o & Ho & -> & V1). destruct (F o Ho) as (o' & Ho' & E & V2). unfold group_ops in Ho'. apply in_map_iff in Ho'. destruct Ho' as (code & <- & Hc). exists code. split; [exact Hc|].
    apply along_conj; [exact UI|]. split; [exact E|]. exact (PSymmOp.Vcongr_trans _ _ _ V1 V2).
  - intros (code & Hc & A). apply along_conj in A; [|exact UI]. destruct A as [-> V1]. destruct (B (entry sym' code)) as (o & Ho & E & V2); [now apply in_map|]. exists o. split; [exact Ho|]. split; [symmetry; exact E|].
    exact (PSymmOp.Vcongr_trans _ _ _ V1 (PSymmOp.Vcongr_sym _ _ V2)).
Qed.
Print Assumptions C99_answer_is_the_group.

(** A mineral checked against entry [N] meets the hypotheses. *)
Lemma mineral_answered (P : @Pinv RNum) (HO : HashOrd) (dtol a b c a' b' c' : R) m w pts u ls order N sym : let s := mineral m a b c pts in
  pinv_inverts P -> of_the_cube u -> box_cell a' b' c' (Mmul (M a 0 0 0 b 0 0 0 c) (MofZ u)) -> 0 < 1 / 100000 * Rpower (a' * b' * c') (1 / 3) ->
  standard_edges ls (1 / 100000 * Rpower (a' * b' * c') (1 / 3)) a' b' c' ->
  1 <= a' <= 1000 -> 1 <= b' <= 1000 -> 1 <= c' <= 1000 -> 1 / 100000 <= dtol <= 1 / 24 -> 8 * IZR m * dtol <= a' -> 8 * IZR m * dtol <= b' -> 8 * IZR m * dtol <= c' ->
  (0 < Z.of_nat (List.length pts) <= 65535)%Z -> ~ In N not_closed -> ~ In N [76; 78]%Z -> checked_entry N ls order sym (mineral_check m w pts ls u u sym) = true ->
  exists ops, @get_space_group_info RNum P HO 48 [] dtol s = Ok (N, sym, ops) /\ Z.of_nat (List.length ops) = order.
Proof.
  intros s HP HU EL E0 SE Ba Bb Bc Hd Da Db Dc LEN NC HAND CK0. destruct (checked_entry_ok _ _ _ _ _ CK0) as (codes & HT & ES & CK). clear CK0.
  destruct (mineral_group m w pts ls _ a' b' c' _ u u sym codes ltac:(lra) ltac:(lra) ltac:(lra) E0 SE EL HU HU CK) as (M0 & FR & IFF). clear CK.
  destruct (C98_fractional_positions P HO 48 [] dtol a' b' c' m s u ls order N codes sym) as (ops & A & B & _); unfold s; try assumption.
  - lia.
  - apply mineral_len.
  - cbn [species mineral]. rewrite map_length. exact LEN.
  - rewrite mineral_sites. exact FR.
  - right. exact HAND.
  - intros r t. cbv zeta. rewrite mineral_sites. apply IFF.
  - exists ops. split; [exact A|]. rewrite B. symmetry. apply (C54_tabulated_groups _ _ _ _ HT).
Qed.
(** caesium chloride, a simple cubic lattice with a second atom at the centre: Pm-3m *)
Example C98_caesium_chloride (HO : HashOrd) : exists ops,
  @get_space_group_info RNum cofactor_pinv HO 48 [] (1 / 100) (mineral 12 (412 / 100) (412 / 100) (412 / 100) caesium_chloride_points) = Ok (221%Z, "Pm-3m"%string, ops) /\ Z.of_nat (List.length ops) = 48%Z.
Proof.
  assert (E0 : 0 < 412 / 100 * (412 / 100) * (412 / 100) <= 1000) by lra. apply small_eps in E0.
  apply (mineral_answered cofactor_pinv HO _ _ _ _ (412 / 100) (412 / 100) (412 / 100) 12 1 caesium_chloride_points ZMid Cubic 48 221 "Pm-3m");
    [exact cofactor_pinv_ok|exact id_cube|apply box_id|lra|split; reflexivity|lra|lra|lra|lra|lra|lra|lra|cbn; lia|cbn; lia|cbn; lia|exact caesium_chloride_checked].
Qed.
(** rutile, given with its fourfold axis along the first basis vector: P4_2/mnm *)
Example C98_rutile (HO : HashOrd) : exists ops,
  @get_space_group_info RNum cofactor_pinv HO 48 [] (1 / 2000) (mineral 600 (296 / 100) (459 / 100) (459 / 100) rutile_points) = Ok (136%Z, "P4_2/mnm"%string, ops) /\ Z.of_nat (List.length ops) = 16%Z.
Proof.
  assert (E0 : 0 < 459 / 100 * (459 / 100) * (296 / 100) <= 1000) by lra. apply small_eps in E0.
  apply (mineral_answered cofactor_pinv HO _ _ _ _ (459 / 100) (459 / 100) (296 / 100) 600 50 rutile_points cyclic Tetragonal 16 136 "P4_2/mnm");
    [exact cofactor_pinv_ok|exact cyclic_cube|apply box_cyclic|lra|split; [reflexivity|rewrite Rabs_pos_eq; lra]|lra|lra|lra|lra|lra|lra|lra|cbn; lia|cbn; lia|cbn; lia|exact rutile_checked].
Qed.
(** whatever is answered for rutile, at any tolerance in the range, is P4_2/mnm *)
Example C99_rutile (P : @Pinv RNum) (HO : HashOrd) fuel path dtol N' sym' ops : pinv_inverts P -> (48 <= fuel)%nat -> 1 / 100000 <= dtol <= 1 / 2000 ->
  @get_space_group_info RNum P HO fuel path dtol (mineral 600 (296 / 100) (459 / 100) (459 / 100) rutile_points) = Ok (N', sym', ops) -> N' = 136%Z.
Proof.
  intros HP HF Hd EI. destruct (checked_entry_ok _ _ _ _ _ rutile_checked) as (codes & HT & ES & CK).
  assert (E0 : 0 < 459 / 100 * (459 / 100) * (296 / 100) <= 1000) by lra. apply small_eps in E0.
  assert (SE : standard_edges Tetragonal (1 / 100000 * Rpower (459 / 100 * (459 / 100) * (296 / 100)) (1 / 3)) (459 / 100) (459 / 100) (296 / 100)) by (split; [reflexivity|rewrite Rabs_pos_eq; lra]).
  destruct (mineral_group 600 50 rutile_points Tetragonal _ (459 / 100) (459 / 100) (296 / 100) (M (296 / 100) 0 0 0 (459 / 100) 0 0 0 (459 / 100)) cyclic cyclic _ codes ltac:(lra) ltac:(lra) ltac:(lra) (proj1 E0) SE (box_cyclic _ _ _) cyclic_cube cyclic_cube CK) as (M0 & FR & IFF). clear CK.
  destruct (fractions_conditions dtol (459 / 100) (459 / 100) (296 / 100) 600 (M (296 / 100) 0 0 0 (459 / 100) 0 0 0 (459 / 100)) cyclic (grid_sites 600 rutile_points)) as (SP & RI & Da & Db & Dc);
    [exact M0|exact cyclic_cube|apply box_cyclic|lra|lra|lra|lra|exact FR|lra|lra|lra|].
  destruct (C99_answer_is_the_group P HO fuel path dtol (459 / 100) (459 / 100) (296 / 100) (1 / (2 * 600)) (mineral 600 (296 / 100) (459 / 100) (459 / 100) rutile_points) cyclic cyclic Tetragonal 16 136 codes "P4_2/mnm" N' sym' ops) as (_ & ON & _).
  - exact HP.
  - exact HF.
  - apply mineral_len.
  - cbn. lia.
  - exact cyclic_cube.
  - exact cyclic_cube.
  - apply box_cyclic.
  - apply box_hand; [lra|lra|lra|reflexivity].
  - exact SE.
  - lra.
  - lra.
  - lra.
  - lra.
  - rewrite mineral_sites. exact SP.
  - exact Da.
  - exact Db.
  - exact Dc.
  - rewrite mineral_sites. exact RI.
  - exact HT.
  - exact ES.
  - intros r t. cbv zeta. rewrite mineral_sites. apply IFF.
  - exact EI.
  - destruct ON as [Q|[Q _]]; [exact Q|]. cbn in Q. lia.
Qed.
