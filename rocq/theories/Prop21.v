(** Crystals in a rectangular cell, with the origin anywhere: what an answer means, and which crystals are answered. *)
From Coq Require Import ZArith Reals String Ascii List Bool Lia Lra Permutation.
From Verif Require Import Num Mat DataCore DataSG SymmOp SpaceGroup Structure Analyzer RInst Spec Spec2 Spec3 Spec5 Spec6 RFacts PSymmOp PStructure PLattice PSpaceGroup2 PIdentify PSearch6 PSearch7 PEnd4 PEnd2
  PEnd11 PEnd12 PEnd13 PEnd14 PEnd15 PEnd16 PEnd17 PEnd18 PEnd19 PEnd20 PEnd21 Prop4 Prop5 Prop10.
Import ListNotations.
Open Scope R_scope.

(** C101.  Whenever a group is answered, the crystal's operations lie within the tolerance of the answered entry's, in some right-handed standard axes. *)
Theorem C101_answer_near_group :
  forall (P : @Pinv RNum) (HO : HashOrd) fuel path (dtol a b c d : R) (s : @structure RNum) (u : mat Z) ls N sym ops,
    let sites := combine (frac_coords s) (species s) in
    let entry code := code_op (has_char "A"%char sym) code in
    pinv_inverts P -> (48 <= fuel)%nat ->
    List.length (frac_coords s) = List.length (species s) -> (0 < Z.of_nat (List.length (species s)) <= 65535)%Z ->
    of_the_cube u -> box_cell a b c (Mmul (lattice s) (MofZ u)) -> standard_edges ls (1 / 100000 * Rpower (a * b * c) (1 / 3)) a b c ->
    1 <= a <= 1000 -> 1 <= b <= 1000 -> 1 <= c <= 1000 -> 1 / 100000 <= dtol <= 1 / 24 ->
    spread d sites -> 4 * dtol <= d * a -> 4 * dtol <= d * b -> 4 * dtol <= d * c ->
    rigid (2 * dtol) (lattice s) sites (lattice_isometry (lattice s)) ->
    (forall t, exact_operation sites ZMid t -> Vcongr t V0) ->
    @get_space_group_info RNum P HO fuel path dtol s = Ok (N, sym, ops) ->
    exists order codes w p, tabulated ls order N codes /\ am_get Z.eqb N SG_NUM_TO_SYMBOL = Some sym /\
      of_the_cube w /\ box_cell a b c (Mmul (lattice s) (MofZ w)) /\ 0 < Mdet (Mmul (lattice s) (MofZ w)) /\
      forall r t, lattice_isometry (lattice s) r -> exact_operation sites r t ->
        exists code, In code codes /\ along_from w p (fst (entry code)) (in_twelfths (snd (entry code))) r t /\
          barely_moved (dtol / a + 1 / 1000000000) (dtol / b + 1 / 1000000000) (dtol / c + 1 / 1000000000) p (fst (entry code)).
Proof.
  intros P HO fuel path dtol a b c d s u ls N sym ops sites entry HP HF WF BIG HU EL SE Ba Bb Bc Hd SP Da Db Dc RI PR EI. destruct (cube_signed u HU) as (Su & UI).
  destruct (box_sound P HO dtol a b c d fuel path s u (transpose u) HP HF WF BIG Su UI EL Ba Bb Bc Hd SP Da Db Dc ls SE RI PR N sym ops EI) as (order & codes & w & wi & o & HT & ES & HW & WI & EW & RH & CL).
  destruct (signed_cube w wi HW WI) as (CW & ->). exists order, codes, w, o. split; [now apply sg_entries_In|]. repeat (split; [assumption|]). intros r t Hr EX.
  destruct (CL r t Hr EX) as (cc & Hc & E & V1 & B). unfold group_ops in Hc. apply in_map_iff in Hc. destruct Hc as (code & <- & Hc). exists code. split; [exact Hc|]. split; [|exact B].
  apply along_from_conj; [exact WI|]. split; [exact E|exact V1].
Qed.
Print Assumptions C101_answer_near_group.
(** so a crystal whose inversion centre is off the multiples of 1/24, by more than the tolerance, is never answered *)
Theorem C101_inversion_centre_off_the_grid :
  forall (P : @Pinv RNum) (HO : HashOrd) fuel path (dtol a b c d m : R) (s : @structure RNum) (u : mat Z) ls t answer,
    let sites := combine (frac_coords s) (species s) in
    pinv_inverts P -> (48 <= fuel)%nat ->
    List.length (frac_coords s) = List.length (species s) -> (0 < Z.of_nat (List.length (species s)) <= 65535)%Z ->
    of_the_cube u -> box_cell a b c (Mmul (lattice s) (MofZ u)) -> standard_edges ls (1 / 100000 * Rpower (a * b * c) (1 / 3)) a b c ->
    1 <= a <= 1000 -> 1 <= b <= 1000 -> 1 <= c <= 1000 -> 1 / 100000 <= dtol <= 1 / 24 ->
    spread d sites -> 4 * dtol <= d * a -> 4 * dtol <= d * b -> 4 * dtol <= d * c ->
    rigid (2 * dtol) (lattice s) sites (lattice_isometry (lattice s)) ->
    (forall t, exact_operation sites ZMid t -> Vcongr t V0) ->
    exact_operation sites (M (-1) 0 0 0 (-1) 0 0 0 (-1))%Z t -> 0 < m <= a -> m <= b -> m <= c ->
    ((forall z, dtol / m + 1 / 1000000000 < Rabs (vx t - IZR z / 12)) \/ (forall z, dtol / m + 1 / 1000000000 < Rabs (vy t - IZR z / 12)) \/ (forall z, dtol / m + 1 / 1000000000 < Rabs (vz t - IZR z / 12))) ->
    @get_space_group_info RNum P HO fuel path dtol s <> Ok answer.
Proof.
  intros P HO fuel path dtol a b c d m s u ls t [[N sym] ops] sites HP HF WF BIG HU EL SE Ba Bb Bc Hd SP Da Db Dc RI PR EX Ma Mb Mc OFF EI.
  destruct (C101_answer_near_group P HO fuel path dtol a b c d s u ls N sym ops HP HF WF BIG HU EL SE Ba Bb Bc Hd SP Da Db Dc RI PR EI) as (order & codes & w & p & _ & _ & CW & _ & _ & CL).
  destruct (CL _ t (isometry_neg _) EX) as (code & _ & A & (B1 & B2 & B3)).
  assert (K : forall e x, m <= e -> Rabs x <= dtol / e + 1 / 1000000000 -> Rabs x <= dtol / m + 1 / 1000000000).
  { intros e x He Hx. apply (Rle_trans _ _ _ Hx). apply Rplus_le_compat_r. apply Rmult_le_compat_l; [lra|]. apply Rinv_le_contravar; lra. }
  destruct (inversion_near w p _ _ t (dtol / m + 1 / 1000000000) CW A) as (k & K1 & K2 & K3).
  - split; [|split]; [exact (K a _ ltac:(lra) B1)|exact (K b _ Mb B2)|exact (K c _ Mc B3)].
  - destruct OFF as [O|[O|O]]; [specialize (O (vx k))|specialize (O (vy k))|specialize (O (vz k))]; lra.
Qed.
Print Assumptions C101_inversion_centre_off_the_grid.

(** C102.  When no translation is off a twelfth by the tolerance itself, the answered entry is the crystal's group exactly, about a point that is moved by less than the tolerance. *)
Theorem C102_answer_is_exact :
  forall (P : @Pinv RNum) (HO : HashOrd) fuel path (dtol a b c d : R) (s : @structure RNum) (u : mat Z) ls N sym ops,
    let sites := combine (frac_coords s) (species s) in
    let entry code := code_op (has_char "A"%char sym) code in
    pinv_inverts P -> (48 <= fuel)%nat ->
    List.length (frac_coords s) = List.length (species s) -> (0 < Z.of_nat (List.length (species s)) <= 65535)%Z ->
    of_the_cube u -> box_cell a b c (Mmul (lattice s) (MofZ u)) -> standard_edges ls (1 / 100000 * Rpower (a * b * c) (1 / 3)) a b c ->
    1 <= a <= 1000 -> 1 <= b <= 1000 -> 1 <= c <= 1000 -> 1 / 100000 <= dtol <= 1 / 40 ->
    spread d sites -> 4 * dtol <= d * a -> 4 * dtol <= d * b -> 4 * dtol <= d * c ->
    rigid (2 * dtol) (lattice s) sites (lattice_isometry (lattice s)) ->
    (forall t, exact_operation sites ZMid t -> Vcongr t V0) -> clear_of dtol a b c (lattice s) sites ->
    @get_space_group_info RNum P HO fuel path dtol s = Ok (N, sym, ops) ->
    ~ In N not_closed /\
    (exists order codes w p, tabulated ls order N codes /\ am_get Z.eqb N SG_NUM_TO_SYMBOL = Some sym /\ List.length ops = List.length codes /\
      of_the_cube w /\ box_cell a b c (Mmul (lattice s) (MofZ w)) /\ 0 < Mdet (Mmul (lattice s) (MofZ w)) /\
      (forall r t, (lattice_isometry (lattice s) r /\ exact_operation sites r t) <-> exists code, In code codes /\ along_from w p (fst (entry code)) (in_twelfths (snd (entry code))) r t) /\
      (forall code, In code codes -> barely_moved (dtol / a - 1 / 100000000) (dtol / b - 1 / 100000000) (dtol / c - 1 / 100000000) p (fst (entry code)))) /\
    (forall op, In op ops -> lattice_isometry (lattice s) (rotation op) /\ exists t, exact_operation sites (rotation op) t /\ modulo_within (1 / 1000000000) (translation op) t) /\
    (forall r t, lattice_isometry (lattice s) r -> exact_operation sites r t -> exists op, In op ops /\ rotation op = r /\ modulo_within (1 / 1000000000) (translation op) t).
Proof.
  intros P HO fuel path dtol a b c d s u ls N sym ops sites entry HP HF WF BIG HU EL SE Ba Bb Bc Hd SP Da Db Dc RI PR CLR EI. destruct (cube_signed u HU) as (Su & UI).
  destruct (box_exact P HO dtol a b c d fuel path s u (transpose u) HP HF WF BIG Su UI EL Ba Bb Bc ltac:(lra) SP Da Db Dc ls SE RI PR N sym ops EI ltac:(lra))
    as (order & codes & w & wi & o & HT & ES & NC & HW & WI & EW & RH & LEN & IFF & SM & R1 & R2).
  - intros W r t z HW GW Hr EX. destruct (signed_facts W HW) as (TW & _). destruct (signed_cube W (transpose W) HW) as (CW & _); [now apply zinv_comm|]. exact (CLR W r t z CW GW Hr EX).
  - destruct (signed_cube w wi HW WI) as (CW & ->). split; [exact NC|]. split; [|split; [exact R1|exact R2]]. exists order, codes, w, o. split; [now apply sg_entries_In|]. repeat (split; [assumption|]). split.
    + intros r t. exact (iff_trans (IFF r t) (iff_sym (offset_form w o sym codes r t WI))).
    + intros code Hc. exact (SM (entry code) (in_map _ _ _ Hc)).
Qed.
Print Assumptions C102_answer_is_exact.

(** C103.  The crystal's operations are those of entry [N], along the standard axes [u] drawn from a point [p] that the rotations move by less than the tolerance. *)
Theorem C103_shifted_origin_identified :
  forall (P : @Pinv RNum) (HO : HashOrd) fuel path (dtol a b c d : R) (s : @structure RNum) (u : mat Z) (p : vec R) ls order N codes sym,
    let sites := combine (frac_coords s) (species s) in
    let entry code := code_op (has_char "A"%char sym) code in
    pinv_inverts P -> (48 <= fuel)%nat ->
    List.length (frac_coords s) = List.length (species s) -> (0 < Z.of_nat (List.length (species s)) <= 65535)%Z ->
    of_the_cube u -> box_cell a b c (Mmul (lattice s) (MofZ u)) -> standard_edges ls (1 / 100000 * Rpower (a * b * c) (1 / 3)) a b c ->
    1 <= a <= 1000 -> 1 <= b <= 1000 -> 1 <= c <= 1000 -> 1 / 100000 <= dtol <= 1 / 24 ->
    spread d sites -> 4 * dtol <= d * a -> 4 * dtol <= d * b -> 4 * dtol <= d * c ->
    rigid (2 * dtol) (lattice s) sites (lattice_isometry (lattice s)) ->
    tabulated ls order N codes -> am_get Z.eqb N SG_NUM_TO_SYMBOL = Some sym -> ~ In N not_closed ->
    (0 < Mdet (Mmul (lattice s) (MofZ u)) \/ ~ In N [76; 78]%Z) ->
    (forall r t, (lattice_isometry (lattice s) r /\ exact_operation sites r t) <->
      exists code, In code codes /\ along_from u p (fst (entry code)) (in_twelfths (snd (entry code))) r t) ->
    (forall code, In code codes -> barely_moved (dtol / a - 1 / 100000000) (dtol / b - 1 / 100000000) (dtol / c - 1 / 100000000) p (fst (entry code))) ->
    exists ops, @get_space_group_info RNum P HO fuel path dtol s = Ok (N, sym, ops) /\ List.length ops = List.length codes /\
      (forall op, In op ops -> lattice_isometry (lattice s) (rotation op) /\ exists t, exact_operation sites (rotation op) t /\ modulo_within (1 / 1000000000) (translation op) t) /\
      (forall r t, lattice_isometry (lattice s) r -> exact_operation sites r t -> exists op, In op ops /\ rotation op = r /\ modulo_within (1 / 1000000000) (translation op) t).
Proof.
  intros P HO fuel path dtol a b c d s u p ls order N codes sym sites entry HP HF WF BIG HU EL SE Ba Bb Bc Hd SP Da Db Dc RI HT ES NC HAND IFF SM.
  destruct (cube_signed u HU) as (Su & UI). apply sg_entries_In in HT.
  assert (IFF' : forall r t, (lattice_isometry (lattice s) r /\ exact_operation (sites_of s) r t) <->
    exists cc, In cc (group_ops sym codes) /\ r = conj u (fst cc) (transpose u) /\ Vcongr t (Mapp (MofZ u) (Vadd (V12 (snd cc)) (Vsub p (Mapp (MofZ (fst cc)) p)))))
    by (intros r t; exact (iff_trans (IFF r t) (offset_form u p sym codes r t UI))).
  pose proof (offset_primitive _ _ _ _ _ _ _ _ _ _ UI HT ES IFF') as PR.
  apply (box_offset P HO dtol a b c d fuel path s u (transpose u) HP HF WF BIG Su UI EL Ba Bb Bc Hd SP Da Db Dc ls SE RI PR order N codes sym p HT ES NC).
  - destruct HAND as [Q|Q]; [left|right; exact Q]. now rewrite Mdet_mul, MofZ_det in Q.
  - exact IFF'.
  - intros cc Hc. unfold group_ops in Hc. apply in_map_iff in Hc. destruct Hc as (code & <- & Hc). exact (SM code Hc).
Qed.
Print Assumptions C103_shifted_origin_identified.
(** a crystal of C98 moved as a whole by less than the tolerance is answered the same *)
Theorem C103_moved_crystals_identified :
  forall (P : @Pinv RNum) (HO : HashOrd) fuel path (dtol a b c d : R) (s s' : @structure RNum) (u : mat Z) (p : vec R) ls order N codes sym,
    let sites := combine (frac_coords s) (species s) in
    let entry code := code_op (has_char "A"%char sym) code in
    pinv_inverts P -> (48 <= fuel)%nat ->
    List.length (frac_coords s) = List.length (species s) -> (0 < Z.of_nat (List.length (species s)) <= 65535)%Z ->
    of_the_cube u -> box_cell a b c (Mmul (lattice s) (MofZ u)) -> standard_edges ls (1 / 100000 * Rpower (a * b * c) (1 / 3)) a b c ->
    1 <= a <= 1000 -> 1 <= b <= 1000 -> 1 <= c <= 1000 -> 1 / 100000 <= dtol <= 1 / 24 ->
    spread d sites -> 4 * dtol <= d * a -> 4 * dtol <= d * b -> 4 * dtol <= d * c ->
    rigid (2 * dtol) (lattice s) sites (lattice_isometry (lattice s)) ->
    tabulated ls order N codes -> am_get Z.eqb N SG_NUM_TO_SYMBOL = Some sym -> ~ In N not_closed ->
    (0 < Mdet (Mmul (lattice s) (MofZ u)) \/ ~ In N [76; 78]%Z) ->
    (forall r t, (lattice_isometry (lattice s) r /\ exact_operation sites r t) <->
      exists code, In code codes /\ along u (fst (entry code)) (in_twelfths (snd (entry code))) r t) ->
    lattice s' = lattice s -> species s' = species s -> frac_coords s' = map (fun x => Vadd x (Mapp (MofZ u) p)) (frac_coords s) ->
    (forall code, In code codes -> barely_moved (dtol / a - 1 / 100000000) (dtol / b - 1 / 100000000) (dtol / c - 1 / 100000000) p (fst (entry code))) ->
    exists ops, @get_space_group_info RNum P HO fuel path dtol s' = Ok (N, sym, ops) /\ List.length ops = List.length codes.
Proof.
  intros P HO fuel path dtol a b c d s s' u p ls order N codes sym sites entry HP HF WF BIG HU EL SE Ba Bb Bc Hd SP Da Db Dc RI HT ES NC HAND IFF L1 S1 F1 SM.
  assert (SH : combine (frac_coords s') (species s') = shift_sites (Mapp (MofZ u) p) sites) by (rewrite F1, S1; apply shift_combine).
  destruct (C103_shifted_origin_identified P HO fuel path dtol a b c d s' u p ls order N codes sym) as (ops & A & B & _); rewrite ?L1, ?SH, ?S1; try assumption.
  - now rewrite F1, map_length.
  - now apply shift_spread.
  - now apply shift_rigid.
  - intros r t. rewrite shift_exact, IFF. split; intros (code & Hc & Q); exists code; (split; [exact Hc|]); apply moved_along; exact Q.
  - exists ops. split; [exact A|exact B].
Qed.
Print Assumptions C103_moved_crystals_identified.
(** so the crystals answered [N] are exactly these *)
Theorem C103_exactly_these_are_answered :
  forall (P : @Pinv RNum) (HO : HashOrd) fuel path (dtol a b c d : R) (s : @structure RNum) (u : mat Z) ls N sym,
    let sites := combine (frac_coords s) (species s) in
    let entry code := code_op (has_char "A"%char sym) code in
    pinv_inverts P -> (48 <= fuel)%nat ->
    List.length (frac_coords s) = List.length (species s) -> (0 < Z.of_nat (List.length (species s)) <= 65535)%Z ->
    of_the_cube u -> box_cell a b c (Mmul (lattice s) (MofZ u)) -> standard_edges ls (1 / 100000 * Rpower (a * b * c) (1 / 3)) a b c ->
    1 <= a <= 1000 -> 1 <= b <= 1000 -> 1 <= c <= 1000 -> 1 / 100000 <= dtol <= 1 / 40 ->
    spread d sites -> 4 * dtol <= d * a -> 4 * dtol <= d * b -> 4 * dtol <= d * c ->
    rigid (2 * dtol) (lattice s) sites (lattice_isometry (lattice s)) ->
    (forall t, exact_operation sites ZMid t -> Vcongr t V0) -> clear_of dtol a b c (lattice s) sites ->
    ((exists ops, @get_space_group_info RNum P HO fuel path dtol s = Ok (N, sym, ops)) <->
     ~ In N not_closed /\ am_get Z.eqb N SG_NUM_TO_SYMBOL = Some sym /\
     exists order codes w p, tabulated ls order N codes /\ of_the_cube w /\ box_cell a b c (Mmul (lattice s) (MofZ w)) /\ 0 < Mdet (Mmul (lattice s) (MofZ w)) /\
      (forall r t, (lattice_isometry (lattice s) r /\ exact_operation sites r t) <-> exists code, In code codes /\ along_from w p (fst (entry code)) (in_twelfths (snd (entry code))) r t) /\
      (forall code, In code codes -> barely_moved (dtol / a - 1 / 100000000) (dtol / b - 1 / 100000000) (dtol / c - 1 / 100000000) p (fst (entry code)))).
Proof.
  intros P HO fuel path dtol a b c d s u ls N sym sites entry HP HF WF BIG HU EL SE Ba Bb Bc Hd SP Da Db Dc RI PR CLR. split.
  - intros (ops & EI). destruct (C102_answer_is_exact P HO fuel path dtol a b c d s u ls N sym ops HP HF WF BIG HU EL SE Ba Bb Bc Hd SP Da Db Dc RI PR CLR EI) as (NC & (order & codes & w & p & HT & ES & _ & R) & _).
    split; [exact NC|]. split; [exact ES|]. exists order, codes, w, p. split; [exact HT|exact R].
  - intros (NC & ES & order & codes & w & p & HT & HW & EW & RH & IFF & SM).
    destruct (C103_shifted_origin_identified P HO fuel path dtol a b c d s w p ls order N codes sym HP HF WF BIG HW EW SE Ba Bb Bc ltac:(lra) SP Da Db Dc RI HT ES NC (or_introl RH) IFF SM) as (ops & A & _).
    exists ops. exact A.
Qed.
Print Assumptions C103_exactly_these_are_answered.

(** caesium chloride with the caesium atom at (q, q, q) *)
Definition moved_caesium_chloride (q : R) : @structure RNum :=
  Structure (N := RNum) (M (412 / 100) 0 0 0 (412 / 100) 0 0 0 (412 / 100)) ["Cs"%string; "Cl"%string] [] [V q q q; V (1 / 2 + q) (1 / 2 + q) (1 / 2 + q)].
Lemma moved_sites q : combine (frac_coords (moved_caesium_chloride q)) (species (moved_caesium_chloride q)) = shift_sites (V q q q) (grid_sites 12 caesium_chloride_points).
Proof.
  unfold moved_caesium_chloride, grid_sites, caesium_chloride_points, shift_sites, fracM. cbn [frac_coords species combine map fst snd vx vy vz]. unfold Vadd. cbn [vx vy vz].
  replace (0 / 12 + q) with q by lra. replace (6 / 12 + q) with (1 / 2 + q) by lra. reflexivity.
Qed.
Lemma moved_conditions q dtol : 1 / 100000 <= dtol <= 1 / 40 -> let L := M (412 / 100) 0 0 0 (412 / 100) 0 0 0 (412 / 100) in let S := shift_sites (V q q q) (grid_sites 12 caesium_chloride_points) in
  0 < 1 / 100000 * Rpower (412 / 100 * (412 / 100) * (412 / 100)) (1 / 3) /\ spread (1 / (2 * 12)) S /\ rigid (2 * dtol) L S (lattice_isometry L) /\ 4 * dtol <= 1 / (2 * 12) * (412 / 100) /\
  (forall t, exact_operation S ZMid t -> Vcongr t V0) /\
  exists codes, tabulated Cubic 48 221 codes /\ am_get Z.eqb 221%Z SG_NUM_TO_SYMBOL = Some "Pm-3m"%string /\
    forall r t, (lattice_isometry L r /\ exact_operation S r t) <-> exists code, In code codes /\
      along_from ZMid (V q q q) (fst (code_op (has_char "A"%char "Pm-3m") code)) (in_twelfths (snd (code_op (has_char "A"%char "Pm-3m") code))) r t.
Proof.
  intros Hd L S. destruct (checked_entry_ok _ _ _ _ _ caesium_chloride_checked) as (codes & HT & ES & CK).
  assert (E0 : 0 < 412 / 100 * (412 / 100) * (412 / 100) <= 1000) by lra. apply small_eps in E0.
  destruct (mineral_group 12 1 caesium_chloride_points Cubic _ (412 / 100) (412 / 100) (412 / 100) L ZMid ZMid _ codes ltac:(lra) ltac:(lra) ltac:(lra) (proj1 E0) (Logic.conj eq_refl eq_refl) (box_id _ _ _) id_cube id_cube CK) as (M0 & FR & IFF). clear CK.
  destruct (fractions_conditions dtol (412 / 100) (412 / 100) (412 / 100) 12 L ZMid (grid_sites 12 caesium_chloride_points)) as (SP & RI & Da & Db & Dc);
    [exact M0|exact id_cube|apply box_id|lra|lra|lra|lra|exact FR|lra|lra|lra|].
  split; [lra|]. split; [now apply shift_spread|]. split; [now apply shift_rigid|]. split; [exact Da|]. split.
  - apply (lone_site_primitive _ (Vadd (fracM 12 (V 0 0 0)%Z) (V q q q)) "Cs"%string).
    + apply shift_in. exists (fracM 12 (V 0 0 0)%Z). split; [now left|reflexivity].
    + intros y Hy. apply shift_in in Hy. destruct Hy as (x & [Q|[Q|[]]] & ->); injection Q as <-; [reflexivity|discriminate].
  - exists codes. split; [exact HT|]. split; [exact ES|]. intros r t. unfold S. rewrite shift_exact, IFF.
    assert (MA : forall r0 t0, along ZMid r0 t0 r (unshift (V q q q) r t) <-> along_from ZMid (V q q q) r0 t0 r t) by (intros r0 t0; rewrite <- moved_along, MofZ_id, Mapp_id; reflexivity).
    split; intros (code & Hc & Q); exists code; (split; [exact Hc|]); apply MA; exact Q.
Qed.
(** with the caesium atom at (1/10, 1/10, 1/10) there is no answer, at any tolerance in the range *)
Example C101_moved_caesium_chloride (P : @Pinv RNum) (HO : HashOrd) fuel path dtol answer : pinv_inverts P -> (48 <= fuel)%nat -> 1 / 100000 <= dtol <= 1 / 40 ->
  @get_space_group_info RNum P HO fuel path dtol (moved_caesium_chloride (1 / 10)) <> Ok answer.
Proof.
  intros HP HF Hd. destruct (moved_conditions (1 / 10) dtol Hd) as (E0 & SP & RI & Da & PR & codes & HT & ES & IFF).
  apply (C101_inversion_centre_off_the_grid P HO fuel path dtol (412 / 100) (412 / 100) (412 / 100) (1 / (2 * 12)) (412 / 100) (moved_caesium_chloride (1 / 10)) ZMid Cubic (V (1 / 5) (1 / 5) (1 / 5)) answer).
  - exact HP.
  - exact HF.
  - reflexivity.
  - cbn. lia.
  - exact id_cube.
  - apply box_id.
  - split; reflexivity.
  - lra.
  - lra.
  - lra.
  - lra.
  - rewrite moved_sites. exact SP.
  - exact Da.
  - exact Da.
  - exact Da.
  - rewrite moved_sites. exact RI.
  - rewrite moved_sites. exact PR.
  - rewrite moved_sites. apply shift_exact. intros x e [Q|[Q|[]]]; injection Q as <- <-.
    + exists (fracM 12 (V 0 0 0)%Z). split; [now left|]. exists (V 0 0 0)%Z. unfold act, unshift, fracM, Mapp, MofZ, mmap, Vadd, Vsub, VofZ. cbn [vx vy vz m11 m12 m13 m21 m22 m23 m31 m32 m33]. f_equal; lra.
    + exists (fracM 12 (V 6 6 6)%Z). split; [right; now left|]. exists (V (-1) (-1) (-1))%Z. unfold act, unshift, fracM, Mapp, MofZ, mmap, Vadd, Vsub, VofZ. cbn [vx vy vz m11 m12 m13 m21 m22 m23 m31 m32 m33]. f_equal; lra.
  - lra.
  - lra.
  - lra.
  - left. intro z. cbn [vx].
    assert (T : dtol / (412 / 100) <= 1 / 100) by lra.
    destruct (Z_le_gt_dec z 2) as [C|C].
    + apply IZR_le in C. rewrite Rabs_pos_eq; lra.
    + assert (C' : (3 <= z)%Z) by lia. apply IZR_le in C'. rewrite Rabs_left; lra.
Qed.
Lemma moved_slightly q codes : let L := M (412 / 100) 0 0 0 (412 / 100) 0 0 0 (412 / 100) in let entry code := code_op (has_char "A"%char "Pm-3m") code in
  (forall r t, (lattice_isometry L r /\ exact_operation (shift_sites (V q q q) (grid_sites 12 caesium_chloride_points)) r t) <->
    exists code, In code codes /\ along_from ZMid (V q q q) (fst (entry code)) (in_twelfths (snd (entry code))) r t) ->
  0 <= q <= 1 / 1000 -> forall code, In code codes -> barely_moved (1 / 500) (1 / 500) (1 / 500) (V q q q) (fst (entry code)).
Proof.
  intros L entry IFF Hq code Hc. destruct (proj2 (IFF (fst (entry code)) (Mapp (MofZ ZMid) (Vadd (in_twelfths (snd (entry code))) (Vsub (V q q q) (Mapp (MofZ (fst (entry code))) (V q q q))))))) as [LI _].
  { exists code. split; [exact Hc|]. split; [now rewrite !MofZ_id, Mmul_id_l, Mmul_id_r|apply Vcongr_refl]. }
  assert (CU : of_the_cube (fst (entry code))).
  { revert LI. unfold lattice_isometry, of_the_cube, L. destruct (MofZ (fst (entry code))) as [r11 r12 r13 r21 r22 r23 r31 r32 r33]. unfold Mmul, Mtr, Mid. cbn [m11 m12 m13 m21 m22 m23 m31 m32 m33].
    intro E. injection E as E1 E2 E3 E4 E5 E6 E7 E8 E9. f_equal; lra. }
  destruct (cube_signed _ CU) as (SG & _). destruct (signed_bounded _ q (V q q q) SG) as (B1 & B2 & B3); [split; [|split]; cbn [vx vy vz]; rewrite Rabs_pos_eq; lra|]. cbn [vx vy vz] in B1, B2, B3.
  unfold barely_moved. revert B1 B2 B3. generalize (Mapp (MofZ (fst (entry code))) (V q q q)). intros y B1 B2 B3. unfold Vsub. cbn [vx vy vz].
  assert (K : forall x, Rabs x <= q -> Rabs (q - x) <= 1 / 500) by (intros x Hx; pose proof (Rle_abs x); pose proof (Rle_abs (- x)) as Q; rewrite Rabs_Ropp in Q; apply Rabs_le; lra).
  split; [|split]; apply K; assumption.
Qed.
(** with the caesium atom up to 1/1000 from the origin along each axis it is Pm-3m still, at a tolerance of 1/100, and the operations reported are the crystal's own *)
Example C103_caesium_chloride (P : @Pinv RNum) (HO : HashOrd) fuel path q : pinv_inverts P -> (48 <= fuel)%nat -> 0 <= q <= 1 / 1000 -> exists ops,
  @get_space_group_info RNum P HO fuel path (1 / 100) (moved_caesium_chloride q) = Ok (221%Z, "Pm-3m"%string, ops) /\ Z.of_nat (List.length ops) = 48%Z /\
  forall op, In op ops -> exists t, exact_operation (shift_sites (V q q q) (grid_sites 12 caesium_chloride_points)) (rotation op) t /\ modulo_within (1 / 1000000000) (translation op) t.
Proof.
  intros HP HF Hq. destruct (moved_conditions q (1 / 100) ltac:(lra)) as (E0 & SP & RI & Da & PR & codes & HT & ES & IFF). pose proof (moved_slightly q codes IFF Hq) as SM.
  destruct (C103_shifted_origin_identified P HO fuel path (1 / 100) (412 / 100) (412 / 100) (412 / 100) (1 / (2 * 12)) (moved_caesium_chloride q) ZMid (V q q q) Cubic 48 221 codes "Pm-3m") as (ops & A & B & C & _).
  - exact HP.
  - exact HF.
  - reflexivity.
  - cbn. lia.
  - exact id_cube.
  - apply box_id.
  - split; reflexivity.
  - lra.
  - lra.
  - lra.
  - lra.
  - rewrite moved_sites. exact SP.
  - exact Da.
  - exact Da.
  - exact Da.
  - rewrite moved_sites. exact RI.
  - exact HT.
  - exact ES.
  - cbn. lia.
  - right. cbn. lia.
  - intros r t. cbv zeta. rewrite moved_sites. apply IFF.
  - intros code Hc. destruct (SM code Hc) as (B1 & B2 & B3). split; [|split]; lra.
  - exists ops. split; [exact A|]. split; [rewrite B; symmetry; apply (C54_tabulated_groups _ _ _ _ HT)|]. intros op Ho. destruct (C op Ho) as (_ & t & X & Y). exists t. rewrite moved_sites in X. split; [exact X|exact Y].
Qed.
(** whatever is answered for it is exact *)
Example C102_caesium_chloride (P : @Pinv RNum) (HO : HashOrd) fuel path q N sym ops : pinv_inverts P -> (48 <= fuel)%nat -> 0 <= q <= 1 / 1000 ->
  @get_space_group_info RNum P HO fuel path (1 / 100) (moved_caesium_chloride q) = Ok (N, sym, ops) -> ~ In N not_closed /\
  forall r t, lattice_isometry (M (412 / 100) 0 0 0 (412 / 100) 0 0 0 (412 / 100)) r -> exact_operation (shift_sites (V q q q) (grid_sites 12 caesium_chloride_points)) r t ->
    exists op, In op ops /\ rotation op = r /\ modulo_within (1 / 1000000000) (translation op) t.
Proof.
  intros HP HF Hq EI. destruct (moved_conditions q (1 / 100) ltac:(lra)) as (E0 & SP & RI & Da & PR & codes & HT & ES & IFF). pose proof (moved_slightly q codes IFF Hq) as SM.
  destruct (C102_answer_is_exact P HO fuel path (1 / 100) (412 / 100) (412 / 100) (412 / 100) (1 / (2 * 12)) (moved_caesium_chloride q) ZMid Cubic N sym ops) as (NC & _ & _ & C).
  - exact HP.
  - exact HF.
  - reflexivity.
  - cbn. lia.
  - exact id_cube.
  - apply box_id.
  - split; reflexivity.
  - lra.
  - lra.
  - lra.
  - lra.
  - rewrite moved_sites. exact SP.
  - exact Da.
  - exact Da.
  - exact Da.
  - rewrite moved_sites. exact RI.
  - rewrite moved_sites. exact PR.
  - rewrite moved_sites.
    apply (offset_clear (1 / 100) (412 / 100) (412 / 100) (412 / 100) _ _ ZMid Cubic _ "Pm-3m"%string codes (V q q q) id_cube (box_id _ _ _) ltac:(lra) ltac:(lra) ltac:(lra) E0 (Logic.conj eq_refl eq_refl) ltac:(lra)).
    + intros r t. exact (iff_trans (IFF r t) (offset_form ZMid (V q q q) "Pm-3m" codes r t eq_refl)).
    + intros cc Hc. unfold group_ops in Hc. apply in_map_iff in Hc. destruct Hc as (code & <- & Hc). destruct (SM code Hc) as (B1 & B2 & B3). split; [|split]; cbn [vx vy vz]; lra.
  - exact EI.
  - split; [exact NC|]. intros r t Hr EX. apply C; [exact Hr|rewrite moved_sites; exact EX].
Qed.
