(** Cubic crystals given in the cubic cell of a centred lattice: the whole run, from the structure to the answer. *)
From Coq Require Import ZArith Reals String Ascii List Bool Lia Lra Permutation.
From Verif Require Import Num Mat DataCore DataSG SymmOp SpaceGroup Structure Analyzer RInst Spec Spec2 Spec3 Spec4 Spec5 Spec6 Spec8 Spec10 Spec11 Spec12 RFacts PSymmOp PStructure PLattice PPointGroup PSpaceGroup2 PCode PIdentify PSearch6 PSearch7 PEnd4
  PEnd11 PEnd12 PEnd13 PEnd14 PEnd15 PEnd17 PEnd18 Prop4 Prop5 PNiggli PNiggli2 PTables PEnd8 PCen2 PCen3 PCen4 Prop27 PConv PConv2 PConv3.
Import ListNotations.
Open Scope R_scope.

(** the crystal [s] is the crystal [s0] in the cubic cell of edge [a], whose axes are the columns of [C] in the axes of [s0] *)
Definition in_the_cube (a : R) (C : mat Z) (s s0 : @structure RNum) : Prop :=
  let sites := combine (frac_coords s) (species s) in
  let sites0 := combine (frac_coords s0) (species s0) in
  cube_cell a (lattice s) /\ lattice s = Mmul (lattice s0) (MofZ C) /\ same_atoms (lattice s) sites (lattice s0) sites0 /\ listed_once sites /\
  List.length (frac_coords s) = List.length (species s) /\ (Z.of_nat (List.length (species s)) <= 65535)%Z.
Lemma cube_form f a C s s0 : 2 <= a -> gram (lattice s0) = zmet (a * a / 4) (km f) -> in_the_cube a C s s0 -> kform (km f) C = C6.
Proof.
  intros Ha EG (CC & LC & _). apply (zmet_inj (a * a / 4)); [nra|]. rewrite <- (gram_mul _ _ _ C EG), <- LC. apply cube_gram. exact CC.
Qed.

(** C124.  The groups identified in the primitive cell are identified in the cubic cell, and every operation is returned with every lattice vector of the cell. *)
Theorem C124_centred_cubic_crystals_in_the_cube :
  forall (P : @Pinv RNum) (HO : HashOrd) fuel path (dtol a d : R) (s s0 : @structure RNum) C N codes sym,
    let entry code := code_op (has_char "A"%char sym) code in
    pinv_inverts P -> (48 <= fuel)%nat -> centred_crystal_of face_centred_groups body_centred_groups N dtol a d s0 codes sym -> in_the_cube a C s s0 ->
    exists ops, @get_space_group_info RNum P HO fuel path dtol s = Ok (N, sym, ops) /\ List.length ops = (List.length codes * Z.to_nat (Z.abs (ZMdet C)))%nat /\
      (forall op, In op ops -> exists code t m, In code codes /\ modulo_within (3 * (1 / 1000000000)) t (in_twelfths (snd (entry code))) /\
         moved_operation C (fst (entry code)) t m (rotation op) (translation op)) /\
      (forall code, In code codes -> exists t, modulo_within (3 * (1 / 1000000000)) t (in_twelfths (snd (entry code))) /\
         forall m, exists op, In op ops /\ moved_operation C (fst (entry code)) t m (rotation op) (translation op)).
Proof.
  intros P HO fuel path dtol a d s s0 C N codes sym entry HP HF (CE & WF & BIG & Ba & Hd & SP & Da & RI & (order & HT) & ES & IFF) CB.
  assert (KF : exists f, gram (lattice s0) = zmet (a * a / 4) (km f) /\ In N (kgroups f)) by (destruct CE as [(E & HN)|(E & HN)]; [exists true; split; [now apply face_gram|exact HN]|exists false; split; [now apply body_gram|exact HN]]).
  destruct KF as (f & EG & HN). apply sg_entries_In in HT. pose proof (cube_form f a C s s0 ltac:(lra) EG CB) as KC. destruct CB as (_ & LC & SA & ON & WFs & HMs).
  assert (IFF' : forall r t, (lattice_isometry (lattice s0) r /\ exact_operation (sites_of s0) r t) <-> exists o, In o (group_ops sym codes) /\ r = fst o /\ Vcongr t (in_twelfths (snd o))).
  { intros r t. apply (iff_trans (IFF r t)). split.
    - intros (code & Hc & Q). exists (entry code). split; [unfold group_ops; apply (in_map entry); exact Hc|exact Q].
    - intros (o & Ho & Q). unfold group_ops in Ho. apply in_map_iff in Ho. destruct Ho as (code & <- & Hc). exists code. split; [exact Hc|exact Q]. }
  pose proof (kdet0 f P HO dtol a d fuel path s0 HP HF WF BIG ltac:(lra) Ba EG SP Da) as D0.
  destruct (cv_answered f P HO dtol a d fuel path s0 HP HF WF BIG Hd Ba EG SP Da RI order N codes sym HT ES (kgroups_all f N HN) IFF' s C WFs HMs LC KC
    (sites_forth _ _ _ _ C D0 LC SA) (sites_back _ _ _ _ C D0 LC SA) ON HN) as (ops & O1 & O2 & O3 & O4).
  exists ops. split; [exact O1|]. split; [|split].
  - rewrite O2. destruct (kcube f C KC) as (_ & -> & _). reflexivity.
  - intros op Hop. destruct (O3 op Hop) as (o & t & m & Ho & Q1 & Q2). unfold group_ops in Ho. apply in_map_iff in Ho. destruct Ho as (code & <- & Hc). exists code, t, m. split; [exact Hc|]. split; [exact Q1|exact Q2].
  - intros code Hc. destruct (O4 (entry code)) as (t & Q1 & Q2); [unfold group_ops; apply (in_map entry); exact Hc|]. exists t. split; [exact Q1|exact Q2].
Qed.
Print Assumptions C124_centred_cubic_crystals_in_the_cube.
Lemma grid_cube a C m L0 pts pts0 : (0 < m)%Z -> cube_axes a = Mmul L0 (MofZ C) -> same_grid m C pts pts0 = true -> (Z.of_nat (List.length (map (@snd (vec Z) string) pts)) <= 65535)%Z ->
  in_the_cube a C (grid_crystal m (cube_axes a) pts) (grid_crystal m L0 pts0).
Proof.
  intros Hm E CK LB. unfold in_the_cube. cbv zeta. rewrite !grid_crystal_sites. split; [apply cube_axes_cell|]. split; [exact E|]. split.
  - change (lattice (grid_crystal m (cube_axes a) pts)) with (cube_axes a). rewrite E. exact (grid_same m C L0 pts pts0 Hm CK).
  - split; [exact (grid_once m C L0 pts pts0 Hm CK)|]. split; [apply grid_crystal_len|exact LB].
Qed.
(** rock salt with its eight atoms, and Pt3O4 with its fourteen *)
Example C124_rock_salt (HO : HashOrd) : exists ops, @get_space_group_info RNum cofactor_pinv HO 48 [] (1 / 200) (grid_crystal 12 (cube_axes (564 / 100)) rock_salt_cube) = Ok (225%Z, "Fm-3m"%string, ops) /\ List.length ops = 192%nat.
Proof.
  destruct (grid_centred face_centred_groups body_centred_groups 225 48 "Fm-3m" true 12 1 (564 / 100) (1 / 200) (face_axes (564 / 100)) rock_salt ltac:(split; [apply face_axes_cell|cbn; tauto]) ltac:(lra) ltac:(lra) ltac:(lra) ltac:(cbn; lia) rock_salt_checked) as (codes & CC & CL).
  destruct (C124_centred_cubic_crystals_in_the_cube cofactor_pinv HO 48 [] (1 / 200) (564 / 100) _ _ _ face_cube 225 codes "Fm-3m" cofactor_pinv_ok ltac:(lia) CC (grid_cube (564 / 100) face_cube 12 _ rock_salt_cube rock_salt ltac:(lia) (face_cube_axes _) rock_salt_same ltac:(cbn; lia))) as (ops & O1 & O2 & _).
  exists ops. split; [exact O1|]. rewrite O2. change (Z.to_nat (Z.abs (ZMdet face_cube))) with 4%nat. lia.
Qed.
Example C124_platinum_oxide (HO : HashOrd) : exists ops, @get_space_group_info RNum cofactor_pinv HO 48 [] (1 / 200) (grid_crystal 12 (cube_axes (559 / 100)) platinum_oxide_cube) = Ok (229%Z, "Im-3m"%string, ops) /\ List.length ops = 96%nat.
Proof.
  destruct (grid_centred face_centred_groups body_centred_groups 229 48 "Im-3m" false 12 1 (559 / 100) (1 / 200) (body_axes (559 / 100)) platinum_oxide ltac:(split; [apply body_axes_cell|cbn; tauto]) ltac:(lra) ltac:(lra) ltac:(lra) ltac:(cbn; lia) platinum_oxide_checked) as (codes & CC & CL).
  destruct (C124_centred_cubic_crystals_in_the_cube cofactor_pinv HO 48 [] (1 / 200) (559 / 100) _ _ _ body_cube 229 codes "Im-3m" cofactor_pinv_ok ltac:(lia) CC (grid_cube (559 / 100) body_cube 12 _ platinum_oxide_cube platinum_oxide ltac:(lia) (body_cube_axes _) platinum_oxide_same ltac:(cbn; lia))) as (ops & O1 & O2 & _).
  exists ops. split; [exact O1|]. rewrite O2. change (Z.to_nat (Z.abs (ZMdet body_cube))) with 2%nat. lia.
Qed.

(** C125.  For all 21 groups, the answer in the cubic cell, if there is one, is the crystal's group, and the five groups I2_13, Ia-3, I4_132, I-43d, Ia-3d never get one. *)
Theorem C125_answer_in_the_cube_is_the_group :
  forall (P : @Pinv RNum) (HO : HashOrd) fuel path (dtol a d : R) (s s0 : @structure RNum) C N codes sym N' sym' ops,
    pinv_inverts P -> (48 <= fuel)%nat -> centred_crystal_of (face_centred_groups ++ diamond_groups) (body_centred_groups ++ open_body_centred_groups) N dtol a d s0 codes sym -> in_the_cube a C s s0 ->
    @get_space_group_info RNum P HO fuel path dtol s = Ok (N', sym', ops) -> N' = N /\ sym' = sym /\ ~ In N open_body_centred_groups.
Proof.
  intros P HO fuel path dtol a d s s0 C N codes sym N' sym' ops HP HF (CE & WF & BIG & Ba & Hd & SP & Da & RI & (order & HT) & ES & IFF) CB EI.
  assert (KF : exists f, gram (lattice s0) = zmet (a * a / 4) (km f) /\ In N (kall f)) by (destruct CE as [(E & HN)|(E & HN)]; [exists true; split; [now apply face_gram|exact HN]|exists false; split; [now apply body_gram|exact HN]]).
  destruct KF as (f & EG & HN). apply sg_entries_In in HT. pose proof (cube_form f a C s s0 ltac:(lra) EG CB) as KC. destruct CB as (_ & LC & SA & ON & WFs & HMs).
  assert (IFF' : forall r t, (lattice_isometry (lattice s0) r /\ exact_operation (sites_of s0) r t) <-> exists o, In o (group_ops sym codes) /\ r = fst o /\ Vcongr t (in_twelfths (snd o))).
  { intros r t. apply (iff_trans (IFF r t)). split.
    - intros (code & Hc & Q). exists (code_op (has_char "A"%char sym) code). split; [unfold group_ops; apply (in_map (code_op (has_char "A"%char sym))); exact Hc|exact Q].
    - intros (o & Ho & Q). unfold group_ops in Ho. apply in_map_iff in Ho. destruct Ho as (code & <- & Hc). exists code. split; [exact Hc|exact Q]. }
  pose proof (kdet0 f P HO dtol a d fuel path s0 HP HF WF BIG ltac:(lra) Ba EG SP Da) as D0.
  destruct (cv_meaning f P HO dtol a d fuel path s0 HP HF WF BIG Hd Ba EG SP Da RI order N codes sym HT ES HN IFF' s C WFs HMs LC KC
    (sites_forth _ _ _ _ C D0 LC SA) (sites_back _ _ _ _ C D0 LC SA) ON N' sym' ops EI) as (Q1 & Q2 & Q3).
  split; [exact Q2|]. split; [exact Q3|exact Q1].
Qed.
Print Assumptions C125_answer_in_the_cube_is_the_group.
Theorem C125_open_groups_never_answered :
  forall (P : @Pinv RNum) (HO : HashOrd) fuel path (dtol a d : R) (s s0 : @structure RNum) C N codes sym answer,
    pinv_inverts P -> (48 <= fuel)%nat -> centred_crystal_of [] open_body_centred_groups N dtol a d s0 codes sym -> in_the_cube a C s s0 ->
    @get_space_group_info RNum P HO fuel path dtol s <> Ok answer.
Proof.
  intros P HO fuel path dtol a d s s0 C N codes sym [[N' sym'] ops] HP HF (CE & REST) CB EI. destruct CE as [(_ & [])|(E & HN)].
  destruct (C125_answer_in_the_cube_is_the_group P HO fuel path dtol a d s s0 C N codes sym N' sym' ops HP HF) as (_ & _ & Q); [split; [right; split; [exact E|apply in_or_app; right; exact HN]|exact REST]|exact CB|exact EI|]. exact (Q HN).
Qed.
Print Assumptions C125_open_groups_never_answered.
(** whatever is answered for the eight atoms of diamond is 227, and nothing is answered for the 28 of Th3P4 *)
Example C125_diamond (HO : HashOrd) N' sym' ops : @get_space_group_info RNum cofactor_pinv HO 48 [] (1 / 250) (grid_crystal 12 (cube_axes (357 / 100)) diamond_cube) = Ok (N', sym', ops) -> N' = 227%Z.
Proof.
  destruct (grid_centred (face_centred_groups ++ diamond_groups) (body_centred_groups ++ open_body_centred_groups) 227 48 "Fd-3m1" true 12 1 (357 / 100) (1 / 250) (face_axes (357 / 100)) diamond ltac:(split; [apply face_axes_cell|cbn; tauto]) ltac:(lra) ltac:(lra) ltac:(lra) ltac:(cbn; lia) diamond_checked) as (codes & CC & CL).
  intro EI. exact (proj1 (C125_answer_in_the_cube_is_the_group cofactor_pinv HO 48 [] (1 / 250) (357 / 100) _ _ _ face_cube 227 codes "Fd-3m1" N' sym' ops cofactor_pinv_ok ltac:(lia) CC (grid_cube (357 / 100) face_cube 12 _ diamond_cube diamond ltac:(lia) (face_cube_axes _) diamond_same ltac:(cbn; lia)) EI)).
Qed.
Example C125_thorium_phosphide (HO : HashOrd) answer : @get_space_group_info RNum cofactor_pinv HO 48 [] (1 / 250) (grid_crystal 24 (cube_axes (862 / 100)) thorium_phosphide_cube) <> Ok answer.
Proof.
  destruct (grid_centred [] open_body_centred_groups 220 24 "I-43d" false 24 2 (862 / 100) (1 / 250) (body_axes (862 / 100)) thorium_phosphide ltac:(split; [apply body_axes_cell|cbn; tauto]) ltac:(lra) ltac:(lra) ltac:(lra) ltac:(cbn; lia) thorium_phosphide_checked) as (codes & CC & CL).
  exact (C125_open_groups_never_answered cofactor_pinv HO 48 [] (1 / 250) (862 / 100) _ _ _ body_cube 220 codes "I-43d" answer cofactor_pinv_ok ltac:(lia) CC (grid_cube (862 / 100) body_cube 24 _ thorium_phosphide_cube thorium_phosphide ltac:(lia) (body_cube_axes _) thorium_phosphide_same ltac:(cbn; lia))).
Qed.
