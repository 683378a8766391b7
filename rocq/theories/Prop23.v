(** Hexagonal crystals: the whole run, from the structure to the answer. *)
From Coq Require Import ZArith Reals String Ascii List Bool Lia Lra Permutation.
From Verif Require Import Num Mat DataCore DataSG SymmOp SpaceGroup Structure Analyzer RInst Spec Spec2 Spec3 Spec5 Spec6 Spec8 RFacts PSymmOp PStructure PLattice PPointGroup PSpaceGroup2 PCode PIdentify PSearch6 PSearch7 PEnd4
  PEnd11 PEnd12 PEnd13 PEnd14 PEnd15 PEnd17 PEnd18 Prop4 Prop5 Prop10 PHex2 PHex3 PHex4 PHex5 PHex6.
Import ListNotations.
Open Scope R_scope.

(** C111.  The crystal's operations are those of entry [N] of the table, along the hexagonal axes [u]; the list answered has those with some entry among -1, 0, 1. *)
Theorem C111_hexagonal_crystals_identified :
  forall (P : @Pinv RNum) (HO : HashOrd) fuel path (dtol a c d : R) (s : @structure RNum) (u ui : mat Z) order N codes sym,
    let sites := combine (frac_coords s) (species s) in
    let entry code := code_op (has_char "A"%char sym) code in
    pinv_inverts P -> (48 <= fuel)%nat ->
    List.length (frac_coords s) = List.length (species s) -> (0 < Z.of_nat (List.length (species s)) <= 65535)%Z ->
    near_axes u -> ZMmul u ui = ZMid -> hexagonal_cell a c (Mmul (lattice s) (MofZ u)) -> told_apart a c (lattice s) ->
    1 <= a <= 1000 -> 1 <= c <= 1000 -> 1 / 100000 <= dtol <= 1 / 24 ->
    spread d sites -> 26 * dtol <= d * a -> 26 * dtol <= d * c ->
    rigid (2 * dtol) (lattice s) sites (lattice_isometry (lattice s)) ->
    tabulated Hexagonal order N codes -> am_get Z.eqb N SG_NUM_TO_SYMBOL = Some sym -> ~ In N not_closed ->
    (0 < Mdet (Mmul (lattice s) (MofZ u)) \/ ~ In N [144; 145; 169; 170; 171; 172]%Z) ->
    (forall r t, (lattice_isometry (lattice s) r /\ exact_operation sites r t) <->
      exists code, In code codes /\ along u (fst (entry code)) (in_twelfths (snd (entry code))) r t) ->
    exists ops, @get_space_group_info RNum P HO fuel path dtol s = Ok (N, sym, ops) /\
      List.length ops = List.length (filter (fun code => has_unit_entry (ZMmul (ZMmul u (fst (entry code))) ui)) codes) /\
      (forall op, In op ops -> has_unit_entry (rotation op) = true /\
         exists code t, In code codes /\ along u (fst (entry code)) (in_twelfths (snd (entry code))) (rotation op) t /\ modulo_within (6 * (1 / 1000000000)) (translation op) t) /\
      (forall code r t, In code codes -> along u (fst (entry code)) (in_twelfths (snd (entry code))) r t -> has_unit_entry r = true ->
         exists op, In op ops /\ rotation op = r /\ modulo_within (6 * (1 / 1000000000)) (translation op) t).
Proof.
  intros P HO fuel path dtol a c d s u ui order N codes sym sites entry HP HF WF BIG HU UI EL SEP Ba Bc Hd SP Da Dc RI HT ES NC HAND IFF.
  destruct HU as [SU DU].
  destruct (hex_answered P HO dtol a c d fuel path s u ui HP HF WF BIG Hd Ba Bc DU SU UI EL SEP SP Da Dc RI order N codes sym) as (ops & O1 & O2 & O3 & O4).
  - apply sg_entries_In. exact HT.
  - exact ES.
  - exact NC.
  - destruct HAND as [Q|Q]; [left|right; exact Q]. rewrite Mdet_mul, MofZ_det in Q. exact Q.
  - intros r t. change (sites_of s) with sites. rewrite IFF. split.
    + intros (code & Hc & A). apply (along_conj_inv u ui) in A; [|exact UI]. exists (entry code). split; [now apply in_map|exact A].
    + intros (o & Ho & A). unfold group_ops in Ho. apply in_map_iff in Ho. destruct Ho as (code & <- & Hc). exists code. split; [exact Hc|]. apply (along_conj_inv u ui); [exact UI|exact A].
  - exists ops. split; [exact O1|]. split; [|split].
    + rewrite O2. unfold group_ops. rewrite filter_map_length. reflexivity.
    + intros op Hop. destruct (O3 op Hop) as (o & Ho & E & UE & Nn). split; [exact UE|]. unfold group_ops in Ho. apply in_map_iff in Ho. destruct Ho as (code & <- & Hc). exists code, (Mapp (MofZ u) (in_twelfths (snd (entry code)))).
      split; [exact Hc|]. split; [apply (along_conj_inv u ui); [exact UI|split; [exact E|apply Vcongr_refl]]|exact Nn].
    + intros code r t Hc A UE. apply (along_conj_inv u ui) in A; [|exact UI]. destruct A as [-> VC]. destruct (O4 (entry code)) as (op & Hop & E & Nn); [now apply in_map|exact UE|]. exists op. split; [exact Hop|]. split; [exact E|].
      exact (nanos_congr_r _ _ _ _ Nn VC).
Qed.
Print Assumptions C111_hexagonal_crystals_identified.
(** the same for positions that are fractions with denominator [m]: the conditions on the sites reduce to a bound on the tolerance *)
Theorem C111_fractional_positions :
  forall (P : @Pinv RNum) (HO : HashOrd) fuel path (dtol a c : R) (m : Z) (s : @structure RNum) (u ui : mat Z) order N codes sym,
    let sites := combine (frac_coords s) (species s) in
    let entry code := code_op (has_char "A"%char sym) code in
    pinv_inverts P -> (48 <= fuel)%nat ->
    List.length (frac_coords s) = List.length (species s) -> (0 < Z.of_nat (List.length (species s)) <= 65535)%Z ->
    near_axes u -> ZMmul u ui = ZMid -> hexagonal_cell a c (Mmul (lattice s) (MofZ u)) -> told_apart a c (lattice s) ->
    1 <= a <= 1000 -> 1 <= c <= 1000 -> 1 / 100000 <= dtol <= 1 / 24 ->
    (0 < m)%Z -> fractions_of m sites -> 52 * IZR m * dtol <= a -> 52 * IZR m * dtol <= c ->
    tabulated Hexagonal order N codes -> am_get Z.eqb N SG_NUM_TO_SYMBOL = Some sym -> ~ In N not_closed ->
    (0 < Mdet (Mmul (lattice s) (MofZ u)) \/ ~ In N [144; 145; 169; 170; 171; 172]%Z) ->
    (forall r t, (lattice_isometry (lattice s) r /\ exact_operation sites r t) <->
      exists code, In code codes /\ along u (fst (entry code)) (in_twelfths (snd (entry code))) r t) ->
    exists ops, @get_space_group_info RNum P HO fuel path dtol s = Ok (N, sym, ops) /\
      List.length ops = List.length (filter (fun code => has_unit_entry (ZMmul (ZMmul u (fst (entry code))) ui)) codes) /\
      (forall op, In op ops -> has_unit_entry (rotation op) = true /\
         exists code t, In code codes /\ along u (fst (entry code)) (in_twelfths (snd (entry code))) (rotation op) t /\ modulo_within (6 * (1 / 1000000000)) (translation op) t) /\
      (forall code r t, In code codes -> along u (fst (entry code)) (in_twelfths (snd (entry code))) r t -> has_unit_entry r = true ->
         exists op, In op ops /\ rotation op = r /\ modulo_within (6 * (1 / 1000000000)) (translation op) t).
Proof.
  intros P HO fuel path dtol a c m s u ui order N codes sym sites entry HP HF WF BIG HU UI EL SEP Ba Bc Hd Hm FR Ma Mc HT ES NC HAND IFF.
  destruct (hex_conditions dtol a c m (lattice s) u sites Hm HU EL Ba Bc Hd FR Ma Mc) as (SP & RI & Da & Dc).
  exact (C111_hexagonal_crystals_identified P HO fuel path dtol a c (1 / (2 * IZR m)) s u ui order N codes sym HP HF WF BIG HU UI EL SEP Ba Bc Hd SP Da Dc RI HT ES NC HAND IFF).
Qed.
Print Assumptions C111_fractional_positions.
(** along axes with at most six entries +-1 nothing is dropped: the numbers agree and every operation is there *)
Theorem C111_all_operations :
  forall order N codes sym (u ui : mat Z), tabulated Hexagonal order N codes -> am_get Z.eqb N SG_NUM_TO_SYMBOL = Some sym -> near_axes u -> (skewness u <= 6)%Z -> ZMmul u ui = ZMid ->
    filter (fun code => has_unit_entry (ZMmul (ZMmul u (fst (code_op (has_char "A"%char sym) code))) ui)) codes = codes.
Proof. exact hex_all_kept. Qed.
Print Assumptions C111_all_operations.

(** magnesium along its hexagonal axes: P6_3/mmc, all 24 operations *)
Example C111_magnesium (HO : HashOrd) : exists ops,
  @get_space_group_info RNum cofactor_pinv HO 48 [] (1 / 200) (hex_crystal 12 (321 / 100) (521 / 100) ZMid (close_packed "Mg")) = Ok (194%Z, "P6_3/mmc"%string, ops) /\ List.length ops = 24%nat.
Proof.
  destruct (hex_mineral_facts 12 1 (321 / 100) (521 / 100) ZMid (close_packed "Mg") 194 24 "P6_3/mmc" ltac:(lra) ltac:(lra) ltac:(lra) ltac:(rewrite Rabs_left; lra) id_near close_packed_checked) as (codes & HT & ES & M0 & FR & IFF & CE & SE & LE & CL).
  destruct (C111_fractional_positions cofactor_pinv HO 48 [] (1 / 200) (321 / 100) (521 / 100) 12 (hex_crystal 12 (321 / 100) (521 / 100) ZMid (close_packed "Mg")) ZMid ZMid 24 194 codes "P6_3/mmc")
    as (ops & O1 & O2 & _); [exact cofactor_pinv_ok|lia|exact LE|cbn; lia|exact id_near|reflexivity|exact CE|exact SE|lra|lra|lra|lia|exact FR|lra|lra|exact HT|exact ES|cbn; lia|right; cbn; lia|exact IFF|].
  exists ops. split; [exact O1|]. cbv zeta in O2. rewrite (C111_all_operations 24 194 codes "P6_3/mmc" ZMid ZMid HT ES id_near ltac:(cbn; lia) eq_refl) in O2. lia.
Qed.

(** C112.  Does the list returned have every operation of the crystal?  The same crystal, along other axes: an exact operation of the crystal is missing from the list. *)
Theorem C112_every_operation_returned_refuted :
  exists (P : @Pinv RNum) (HO : HashOrd) fuel (dtol : R) (s : @structure RNum) N sym ops r t,
    pinv_inverts P /\ @get_space_group_info RNum P HO fuel [] dtol s = Ok (N, sym, ops) /\
    lattice_isometry (lattice s) r /\ exact_operation (combine (frac_coords s) (species s)) r t /\ forall op, In op ops -> rotation op <> r.
Proof.
  destruct (hex_mineral_facts 12 1 (321 / 100) (521 / 100) skewed (close_packed "Mg") 194 24 "P6_3/mmc" ltac:(lra) ltac:(lra) ltac:(lra) ltac:(rewrite Rabs_left; lra) skewed_near skewed_checked) as (codes & HT & ES & M0 & FR & IFF & CE & SE & LE & CL).
  destruct (C111_fractional_positions cofactor_pinv hid 48 [] (1 / 200) (321 / 100) (521 / 100) 12 (hex_crystal 12 (321 / 100) (521 / 100) skewed (close_packed "Mg")) skewed (zinv skewed) 24 194 codes "P6_3/mmc")
    as (ops & O1 & _ & O3 & _); [exact cofactor_pinv_ok|lia|exact LE|cbn; lia|exact skewed_near|reflexivity|exact CE|exact SE|lra|lra|lra|lia|exact FR|lra|lra|exact HT|exact ES|cbn; lia|right; cbn; lia|exact IFF|].
  destruct (skewed_operation codes HT) as (code & Hc & t & A).
  exists cofactor_pinv, hid, 48%nat, (1 / 200), (hex_crystal 12 (321 / 100) (521 / 100) skewed (close_packed "Mg")), 194%Z, "P6_3/mmc"%string, ops, dropped, t.
  split; [exact cofactor_pinv_ok|]. split; [exact O1|]. destruct (proj2 (IFF dropped t) (ex_intro _ code (Logic.conj Hc A))) as [I1 I2]. split; [exact I1|]. split; [exact I2|].
  intros op Hop E. destruct (O3 op Hop) as [UE _]. rewrite E in UE. discriminate.
Qed.
Print Assumptions C112_every_operation_returned_refuted.
