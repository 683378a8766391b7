(** Triclinic and primitive monoclinic crystals: the whole run, from the structure to the answer. *)
From Coq Require Import ZArith Reals String Ascii List Bool Lia Lra Permutation.
From Verif Require Import Num Mat DataCore DataSG SymmOp SpaceGroup Structure Analyzer RInst Spec Spec2 Spec3 Spec5 Spec6 Spec8 Spec10 RFacts PSymmOp PStructure PLattice PPointGroup PSpaceGroup2 PCode PIdentify PSearch6 PSearch7 PEnd4
  PEnd11 PEnd12 PEnd13 PEnd14 PEnd15 PEnd17 PEnd18 PRun2 Prop4 Prop5 Prop10 PHex2 PHex3 PHex4 PHex5 PHex6 PRed PRed2 PRed3 PRed4 PRed5 PRed6 PRed7.
Import ListNotations.
Open Scope R_scope.

(** C116.  A cell in which nothing is a symmetry but the identity and the inversion.  Without an inversion the answer is P1 and its one operation; *)
Theorem C116_no_inversion_P1 :
  forall (P : @Pinv RNum) (HO : HashOrd) fuel path (dtol d A B C D E F : R) (s : @structure RNum) (w wi : mat Z),
    let sites := combine (frac_coords s) (species s) in let K := Mmul (lattice s) (MofZ w) in
    pinv_inverts P -> (48 <= fuel)%nat ->
    List.length (frac_coords s) = List.length (species s) -> (0 < Z.of_nat (List.length (species s)) <= 65535)%Z ->
    near_axes w -> ZMmul w wi = ZMid -> Mmul (Mtr K) K = metric A B C D E F ->
    strictly_reduced (metric_tolerance (lattice s)) A B C D E F -> no_two_zero D E F -> not_flat (lattice s) -> C <= 1000000 ->
    1 / 100000 <= dtol <= 1 / 25 -> spread d sites -> 36 * dtol <= d ->
    rigid (2 * dtol) (lattice s) sites (lattice_isometry (lattice s)) ->
    (forall t, exact_operation sites ZMid t -> exists n, t = VofZ n) ->
    (forall t, ~ exact_operation sites inverted t) ->
    exists op, @get_space_group_info RNum P HO fuel path dtol s = Ok (1%Z, "P1"%string, [op]) /\ rotation op = ZMid /\ modulo_within (3 * (1 / 1000000000)) (translation op) V0.
Proof.
  intros P HO fuel path dtol d A B C D E F s w wi sites K HP HF WF BIG NA WW EG SR NT NF HC Hd SP Dd RI PR NI.
  exact (tri_P1 P HO dtol d fuel path s w wi A B C D E F HP HF WF BIG Hd NA WW NF EG SR NT HC SP Dd RI PR NI).
Qed.
Print Assumptions C116_no_inversion_P1.
(** with one through the origin it is P-1 and its two operations *)
Theorem C116_inversion_Pm1 :
  forall (P : @Pinv RNum) (HO : HashOrd) fuel path (dtol d A B C D E F : R) (s : @structure RNum) (w wi : mat Z),
    let sites := combine (frac_coords s) (species s) in let K := Mmul (lattice s) (MofZ w) in
    pinv_inverts P -> (48 <= fuel)%nat ->
    List.length (frac_coords s) = List.length (species s) -> (0 < Z.of_nat (List.length (species s)) <= 65535)%Z ->
    near_axes w -> ZMmul w wi = ZMid -> Mmul (Mtr K) K = metric A B C D E F ->
    strictly_reduced (metric_tolerance (lattice s)) A B C D E F -> no_two_zero D E F -> not_flat (lattice s) -> C <= 1000000 ->
    1 / 100000 <= dtol <= 1 / 25 -> spread d sites -> 36 * dtol <= d ->
    rigid (2 * dtol) (lattice s) sites (lattice_isometry (lattice s)) ->
    (forall t, exact_operation sites ZMid t -> exists n, t = VofZ n) ->
    exact_operation sites inverted V0 ->
    exists ops, @get_space_group_info RNum P HO fuel path dtol s = Ok (2%Z, "P-1"%string, ops) /\ List.length ops = 2%nat /\
      (forall op, In op ops -> (rotation op = ZMid \/ rotation op = inverted) /\ modulo_within (3 * (1 / 1000000000)) (translation op) V0) /\
      (forall r, r = ZMid \/ r = inverted -> exists op, In op ops /\ rotation op = r).
Proof.
  intros P HO fuel path dtol d A B C D E F s w wi sites K HP HF WF BIG NA WW EG SR NT NF HC Hd SP Dd RI PR IV.
  exact (tri_Pm1 P HO dtol d fuel path s w wi A B C D E F HP HF WF BIG Hd NA WW NF EG SR NT HC SP Dd RI PR IV).
Qed.
Print Assumptions C116_inversion_Pm1.
(** a cell with three obtuse angles, with and without an inversion *)
Example C116_uncentred (HO : HashOrd) : exists op, @get_space_group_info RNum cofactor_pinv HO 48 [] (1 / 5000) (low_crystal 60 tri_lattice uncentred) = Ok (1%Z, "P1"%string, [op]).
Proof.
  destruct (low_conditions (1 / 5000) 60 tri_lattice _ ltac:(lia) tri_not_flat ltac:(lra) ltac:(lra) uncentred_fractions) as (SP & RI & Dd).
  destruct (C116_no_inversion_P1 cofactor_pinv HO 48 [] (1 / 5000) (1 / (2 * 60)) 25 37 51 (-5) (-5) (-5) (low_crystal 60 tri_lattice uncentred) ZMid ZMid) as (op & O1 & _);
    try rewrite low_sites; [exact cofactor_pinv_ok|lia|apply low_len|cbn; lia|exact id_near|reflexivity|exact tri_metric|exact tri_reduced|exact tri_angles|exact tri_not_flat|lra|lra|exact SP|exact Dd|exact RI|exact uncentred_primitive|exact uncentred_inverted|].
  exists op. exact O1.
Qed.
Example C116_centred (HO : HashOrd) : exists ops, @get_space_group_info RNum cofactor_pinv HO 48 [] (1 / 5000) (low_crystal 60 tri_lattice centred) = Ok (2%Z, "P-1"%string, ops) /\ List.length ops = 2%nat.
Proof.
  destruct (low_conditions (1 / 5000) 60 tri_lattice _ ltac:(lia) tri_not_flat ltac:(lra) ltac:(lra) centred_fractions) as (SP & RI & Dd).
  destruct (C116_inversion_Pm1 cofactor_pinv HO 48 [] (1 / 5000) (1 / (2 * 60)) 25 37 51 (-5) (-5) (-5) (low_crystal 60 tri_lattice centred) ZMid ZMid) as (ops & O1 & O2 & _);
    try rewrite low_sites; [exact cofactor_pinv_ok|lia|apply low_len|cbn; lia|exact id_near|reflexivity|exact tri_metric|exact tri_reduced|exact tri_angles|exact tri_not_flat|lra|lra|exact SP|exact Dd|exact RI|exact centred_primitive|exact centred_inverted|].
  exists ops. split; [exact O1|exact O2].
Qed.

(** C117.  A primitive monoclinic cell with standard axes [w] (the first the shortest, the third the next, in the plane at right angles to the second).  The crystal's operations are those of entry [N] along the
    axes [w g], which have the same second axis.  Groups without a glide plane are identified; Pc, P2/c and P2_1/c just when the third of the crystal's axes, along which the glide goes, has an even
    component along the first standard axis. *)
Definition monoclinic_crystal_of (N : Z) (dtol d A B C E : R) (s : @structure RNum) (w wi g gi : mat Z) (sym : string) (codes : list Z) : Prop :=
  let sites := combine (frac_coords s) (species s) in
  let entry code := code_op (has_char "A"%char sym) code in
  List.length (frac_coords s) = List.length (species s) /\ (0 < Z.of_nat (List.length (species s)) <= 65535)%Z /\
  near_axes w /\ ZMmul w wi = ZMid /\ monoclinic_cell (metric_tolerance (lattice s)) A B C E (Mmul (lattice s) (MofZ w)) /\ not_flat (lattice s) /\ B <= 1000000 /\ C <= 1000000 /\
  1 / 100000 <= dtol <= 1 / 25 /\ spread d sites /\ 36 * dtol <= d /\ rigid (2 * dtol) (lattice s) sites (lattice_isometry (lattice s)) /\
  (exists order, tabulated Monoclinic order N codes) /\ am_get Z.eqb N SG_NUM_TO_SYMBOL = Some sym /\
  same_second_axis g /\ ZMmul g gi = ZMid /\
  forall r t, (lattice_isometry (lattice s) r /\ exact_operation sites r t) <->
    exists code, In code codes /\ along (ZMmul w g) (fst (entry code)) (in_twelfths (snd (entry code))) r t.
Theorem C117_monoclinic_crystals_identified :
  forall (P : @Pinv RNum) (HO : HashOrd) fuel path (dtol d A B C E : R) (s : @structure RNum) (w wi g gi : mat Z) N codes sym,
    let entry code := code_op (has_char "A"%char sym) code in
    pinv_inverts P -> (48 <= fuel)%nat -> monoclinic_crystal_of N dtol d A B C E s w wi g gi sym codes ->
    (~ In N [7; 13; 14]%Z \/ Z.Even (m13 g)) ->
    exists ops, @get_space_group_info RNum P HO fuel path dtol s = Ok (N, sym, ops) /\
      List.length ops = List.length (filter (fun code => has_unit_entry (ZMmul (ZMmul (ZMmul w g) (fst (entry code))) (ZMmul gi wi))) codes) /\
      (forall op, In op ops -> has_unit_entry (rotation op) = true /\
         exists code t, In code codes /\ along (ZMmul w g) (fst (entry code)) (in_twelfths (snd (entry code))) (rotation op) t /\ modulo_within (3 * (1 / 1000000000)) (translation op) t) /\
      (forall code r t, In code codes -> along (ZMmul w g) (fst (entry code)) (in_twelfths (snd (entry code))) r t -> has_unit_entry r = true ->
         exists op, In op ops /\ rotation op = r /\ modulo_within (3 * (1 / 1000000000)) (translation op) t).
Proof.
  intros P HO fuel path dtol d A B C E s w wi g gi N codes sym entry HP HF (WF & BIG & NA & WW & MC & NF & HB & HC & Hd & SP & Dd & RI & (order & HT) & ES & GS & GG & IFF) EV.
  pose proof (Zcompose w wi g gi WW GG) as VV.
  destruct (mono_answered P HO dtol d fuel path s w wi g gi A B C E HP HF WF BIG Hd NA WW NF MC HB HC SP Dd RI order N codes sym) as (ops & O1 & O2 & O3 & O4).
  - apply sg_entries_In. exact HT.
  - exact ES.
  - exact GS.
  - exact GG.
  - intros r t. change (sites_of s) with (combine (frac_coords s) (species s)). rewrite IFF. split.
    + intros (code & Hc & Q). apply (along_conj_inv (ZMmul w g) (ZMmul gi wi)) in Q; [|exact VV]. exists (entry code). split; [now apply in_map|exact Q].
    + intros (o & Ho & Q). unfold group_ops in Ho. apply in_map_iff in Ho. destruct Ho as (code & <- & Hc). exists code. split; [exact Hc|]. apply (along_conj_inv (ZMmul w g) (ZMmul gi wi)); [exact VV|exact Q].
  - exact EV.
  - exists ops. split; [exact O1|]. split; [|split].
    + rewrite O2. unfold group_ops. rewrite filter_map_length. reflexivity.
    + intros op Hop. destruct (O3 op Hop) as (o & Ho & Q & UE & Nn). split; [exact UE|]. unfold group_ops in Ho. apply in_map_iff in Ho. destruct Ho as (code & <- & Hc). exists code, (Mapp (MofZ (ZMmul w g)) (in_twelfths (snd (entry code)))).
      split; [exact Hc|]. split; [apply (along_conj_inv (ZMmul w g) (ZMmul gi wi)); [exact VV|split; [exact Q|apply Vcongr_refl]]|exact Nn].
    + intros code r t Hc Q UE. apply (along_conj_inv (ZMmul w g) (ZMmul gi wi)) in Q; [|exact VV]. destruct Q as [-> VC]. destruct (O4 (entry code)) as (op & Hop & Q & Nn); [now apply in_map|exact UE|]. exists op. split; [exact Hop|]. split; [exact Q|].
      exact (nanos_congr_r _ _ _ _ Nn VC).
Qed.
Print Assumptions C117_monoclinic_crystals_identified.
Theorem C117_other_glides_never_answered :
  forall (P : @Pinv RNum) (HO : HashOrd) fuel path (dtol d A B C E : R) (s : @structure RNum) (w wi g gi : mat Z) N codes sym answer,
    pinv_inverts P -> (48 <= fuel)%nat -> monoclinic_crystal_of N dtol d A B C E s w wi g gi sym codes ->
    In N [7; 13; 14]%Z -> Z.Odd (m13 g) -> @get_space_group_info RNum P HO fuel path dtol s <> Ok answer.
Proof.
  intros P HO fuel path dtol d A B C E s w wi g gi N codes sym answer HP HF (WF & BIG & NA & WW & MC & NF & HB & HC & Hd & SP & Dd & RI & (order & HT) & ES & GS & GG & IFF) HN OD EI.
  pose proof (Zcompose w wi g gi WW GG) as VV. apply (Z.Even_Odd_False (m13 g)); [|exact OD].
  apply (mono_unanswered P HO dtol d fuel path s w wi g gi A B C E HP HF WF BIG Hd NA WW NF MC HB HC SP Dd RI order N codes sym) with (ans := answer).
  - apply sg_entries_In. exact HT.
  - exact ES.
  - exact GS.
  - exact GG.
  - intros r t. change (sites_of s) with (combine (frac_coords s) (species s)). rewrite IFF. split.
    + intros (code & Hc & Q). apply (along_conj_inv (ZMmul w g) (ZMmul gi wi)) in Q; [|exact VV]. exists (code_op (has_char "A"%char sym) code). split; [unfold group_ops; apply (in_map (code_op (has_char "A"%char sym))); exact Hc|exact Q].
    + intros (o & Ho & Q). unfold group_ops in Ho. apply in_map_iff in Ho. destruct Ho as (code & <- & Hc). exists code. split; [exact Hc|]. apply (along_conj_inv (ZMmul w g) (ZMmul gi wi)); [exact VV|exact Q].
  - exact HN.
  - exact EI.
Qed.
Print Assumptions C117_other_glides_never_answered.
(** four atoms of the group P2_1/c, and the same with the first and third axis exchanged *)
Lemma four_atoms_crystal : exists codes, monoclinic_crystal_of 14 (1 / 5000) (1 / (2 * 60)) 25 36 50 (-5) (low_crystal 60 mono_lattice four_atoms) ZMid ZMid ZMid ZMid "P12_1/c1" codes.
Proof.
  destruct (mono_facts four_atoms ZMid 14 4 "P12_1/c1" id_axis eq_refl standard_checked) as (codes & HT & ES & FR & IFF). destruct (low_conditions (1 / 5000) 60 mono_lattice _ ltac:(lia) mono_not_flat ltac:(lra) ltac:(lra) FR) as (SP & RI & Dd). exists codes.
  split; [apply low_len|]. split; [cbn; lia|]. split; [exact id_near|]. split; [reflexivity|]. split; [exact mono_lattice_cell|]. split; [exact mono_not_flat|]. split; [lra|]. split; [lra|]. split; [lra|]. split; [exact SP|]. split; [exact Dd|]. split; [exact RI|].
  split; [exists 4%Z; exact HT|]. split; [exact ES|]. split; [exact id_axis|]. split; [reflexivity|exact IFF].
Qed.
Lemma exchanged_crystal : exists codes, monoclinic_crystal_of 14 (1 / 5000) (1 / (2 * 60)) 25 36 50 (-5) (low_crystal 60 mono_lattice (turned exchange four_atoms)) ZMid ZMid exchange exchange "P12_1/c1" codes.
Proof.
  destruct (mono_facts (turned exchange four_atoms) exchange 14 4 "P12_1/c1" exchange_axis eq_refl exchanged_checked) as (codes & HT & ES & FR & IFF). destruct (low_conditions (1 / 5000) 60 mono_lattice _ ltac:(lia) mono_not_flat ltac:(lra) ltac:(lra) FR) as (SP & RI & Dd). exists codes.
  split; [apply low_len|]. split; [cbn; lia|]. split; [exact id_near|]. split; [reflexivity|]. split; [exact mono_lattice_cell|]. split; [exact mono_not_flat|]. split; [lra|]. split; [lra|]. split; [lra|]. split; [exact SP|]. split; [exact Dd|]. split; [exact RI|].
  split; [exists 4%Z; exact HT|]. split; [exact ES|]. split; [exact exchange_axis|]. split; [reflexivity|exact IFF].
Qed.
Example C117_four_atoms (HO : HashOrd) : exists ops, @get_space_group_info RNum cofactor_pinv HO 48 [] (1 / 5000) (low_crystal 60 mono_lattice four_atoms) = Ok (14%Z, "P12_1/c1"%string, ops).
Proof.
  destruct four_atoms_crystal as (codes & CR). destruct (C117_monoclinic_crystals_identified cofactor_pinv HO 48 [] _ _ _ _ _ _ _ _ _ _ _ _ _ _ cofactor_pinv_ok ltac:(lia) CR) as (ops & O1 & _); [right; exists 0%Z; reflexivity|]. exists ops. exact O1.
Qed.

(** C118.  Is every primitive monoclinic crystal with the operations of a tabulated group given the number of that group?  Not when the glide goes along the shorter axis. *)
Theorem C118_every_monoclinic_crystal_identified_refuted :
  exists dtol d A B C E s w wi g gi codes, monoclinic_crystal_of 14 dtol d A B C E s w wi g gi "P12_1/c1" codes /\
    forall (P : @Pinv RNum) (HO : HashOrd) fuel path answer, pinv_inverts P -> (48 <= fuel)%nat -> @get_space_group_info RNum P HO fuel path dtol s <> Ok answer.
Proof.
  destruct exchanged_crystal as (codes & CR). eexists _, _, _, _, _, _, _, _, _, _, _, codes. split; [exact CR|]. intros P HO fuel path answer HP HF.
  apply (C117_other_glides_never_answered P HO fuel path _ _ _ _ _ _ _ _ _ _ _ _ _ _ answer HP HF CR); [right; right; left; reflexivity|exists 0%Z; reflexivity].
Qed.
Print Assumptions C118_every_monoclinic_crystal_identified_refuted.
