(** Minerals: crystals in a rectangular cell with positions that are fractions with a common denominator, for the examples and the refutations *)
From Coq Require Import ZArith Reals String Ascii List Bool Lia Lra.
From Verif Require Import Num Mat Utils DataCore DataSG SymmOp Structure Analyzer RInst Spec Spec2 Spec3 Spec5 Spec6 RFacts
  PUtils PSymmOp PStructure PStructure2 PPrim PPrim2 PLattice PSpaceGroup2 PCode PTables PIdentify PSearch PSearch4 PSearch6 PSearch7 PAnalyzer2 PEnd2 PEnd3 PEnd4 PEnd11 PEnd12 PEnd13 PEnd14 PEnd15 PEnd16 PEnd17 Prop4.
Import ListNotations.
Open Scope R_scope.

Definition mineral (m : Z) (a b c : R) (pts : list (vec Z * string)) : @structure RNum :=
  Structure (N := RNum) (M a 0 0 0 b 0 0 0 c) (map snd pts) [] (map (fun p => fracM m (fst p)) pts).
Lemma mineral_sites m a b c pts : combine (frac_coords (mineral m a b c pts)) (species (mineral m a b c pts)) = grid_sites m pts.
Proof. unfold mineral, grid_sites. cbn [frac_coords species]. induction pts as [|p pts IH]; [reflexivity|]. cbn [map combine]. now rewrite IH. Qed.
Lemma mineral_len m a b c pts : List.length (frac_coords (mineral m a b c pts)) = List.length (species (mineral m a b c pts)).
Proof. unfold mineral. cbn [frac_coords species]. now rewrite !map_length. Qed.
(** the entry of a group *)
Definition entry_of (N : Z) : option (lattice_system * Z * Z * list Z) := find (fun e => let '(_, _, n, _) := e in (n =? N)%Z) sg_entries.
Lemma entry_of_tabulated N ls order n codes : entry_of N = Some (ls, order, n, codes) -> tabulated ls order N codes.
Proof. intro E. apply sg_entries_In. apply find_some in E. destruct E as [E1 E2]. apply Z.eqb_eq in E2. now subst n. Qed.
(** the checks on a mineral *)
Definition iso_list (ls : lattice_system) (u v : mat Z) : list (mat Z) := map (fun r => conj (transpose v) (conj u r (transpose u)) v) (holo_rots (box_bravais ls)).
Lemma iso_list_spec ls eps a b c L u v : 0 < a -> 0 < b -> 0 < c -> 0 < eps -> standard_edges ls eps a b c -> box_cell a b c (Mmul L (MofZ u)) -> of_the_cube u -> of_the_cube v ->
  forall r, In r (iso_list ls u v) <-> lattice_isometry L (conj v r (transpose v)).
Proof.
  intros Ha Hb Hc He SE EL HU HV r. destruct (cube_signed u HU) as (_ & UI). destruct (cube_signed v HV) as (_ & VI). pose proof (zinv_comm _ _ UI) as IU. pose proof (zinv_comm _ _ VI) as IV.
  pose proof (std_holo ls eps a b c L u (transpose u) Ha Hb Hc He SE EL UI) as SH. unfold iso_list. rewrite in_map_iff. split.
  - intros (r' & <- & Hr). apply SH in Hr. rewrite conj_conj by assumption. exact Hr.
  - intro H. exists (conj (transpose u) (conj v r (transpose v)) u). split.
    + rewrite !conj_conj by assumption. reflexivity.
    + apply SH. rewrite conj_conj by assumption. exact H.
Qed.
Definition mineral_check (m w : Z) (pts : list (vec Z * string)) (ls : lattice_system) (u v : mat Z) (sym : string) (codes : list Z) : bool :=
  match pts with
  | (k0, e0) :: _ =>
      let hr := iso_list ls u v in let G := group_ops sym codes in
      if (m =? 12 * w)%Z then if (0 <? m)%Z then if distinct_check m pts then if check_only m pts w v (transpose v) hr G k0 e0 then check_has m pts w v (transpose v) hr G else false else false else false else false
  | [] => false
  end.
Lemma mineral_group m w pts ls eps a b c L u v sym codes : 0 < a -> 0 < b -> 0 < c -> 0 < eps -> standard_edges ls eps a b c -> box_cell a b c (Mmul L (MofZ u)) -> of_the_cube u -> of_the_cube v ->
  mineral_check m w pts ls u v sym codes = true ->
  (0 < m)%Z /\ fractions_of m (grid_sites m pts) /\
  forall r t, (lattice_isometry L r /\ exact_operation (grid_sites m pts) r t) <->
    exists code, In code codes /\ along v (fst (code_op (has_char "A"%char sym) code)) (in_twelfths (snd (code_op (has_char "A"%char sym) code))) r t.
Proof.
  intros Ha Hb Hc He SE EL HU HV Q. destruct (cube_signed v HV) as (_ & VI). unfold mineral_check in Q. destruct pts as [|[k0 e0] rest] eqn:EP; [discriminate|]. rewrite <- EP in *. cbv zeta in Q.
  destruct (m =? 12 * w)%Z eqn:Q1; [|discriminate]. destruct (0 <? m)%Z eqn:Q2; [|discriminate]. destruct (distinct_check m pts) eqn:Q3; [|discriminate].
  destruct (check_only m pts w v (transpose v) (iso_list ls u v) (group_ops sym codes) k0 e0) eqn:Q4; [|discriminate]. apply Z.eqb_eq in Q1. apply Z.ltb_lt in Q2.
  split; [exact Q2|]. split; [now apply grid_fractions|]. intros r t.
  rewrite (grid_group m pts Q2 w v (transpose v) (iso_list ls u v) (group_ops sym codes) (lattice_isometry L) k0 e0 Q1 ltac:(rewrite EP; now left) VI (iso_list_spec ls eps a b c L u v Ha Hb Hc He SE EL HU HV) Q4 Q r t).
  split.
  - intros (o & Ho & A). unfold group_ops in Ho. apply in_map_iff in Ho. destruct Ho as (code & <- & H). exists code. split; [exact H|]. apply along_conj; [exact VI|exact A].
  - intros (code & H & A). apply along_conj in A; [|exact VI]. exists (code_op (has_char "A"%char sym) code). split; [now apply in_map|exact A].
Qed.
Lemma small_eps x : 0 < x <= 1000 -> 0 < 1 / 100000 * Rpower x (1 / 3) <= 1 / 10000.
Proof.
  intro H. assert (Q : Rpower x (1 / 3) <= 10).
  { apply (Rle_trans _ (Rpower 1000 (1 / 3))); [apply Rle_Rpower_l; lra|]. replace 1000 with (Rpower 10 3).
    - rewrite Rpower_mult. replace (3 * (1 / 3)) with 1 by lra. rewrite Rpower_1; lra.
    - replace 3 with (INR 3) by (cbn; lra). rewrite Rpower_pow by lra. cbn. lra. }
  assert (0 < Rpower x (1 / 3)) by apply exp_pos. lra.
Qed.

(** ** Four minerals *)
Definition caesium_chloride_points : list (vec Z * string) := [(V 0 0 0, "Cs"%string); (V 6 6 6, "Cl"%string)]%Z.
Definition rutile_points : list (vec Z * string) := [(V 0 0 0, "Ti"%string); (V 300 300 300, "Ti"%string); (V 0 183 183, "O"%string); (V 0 417 417, "O"%string); (V 300 483 117, "O"%string); (V 300 117 483, "O"%string)]%Z.
Definition perovskite_points : list (vec Z * string) := [(V 108 750 2979, "Ca"%string); (V 1392 2250 1479, "Ca"%string); (V 2892 2250 21, "Ca"%string); (V 1608 750 1521, "Ca"%string); (V 0 0 1500, "Ti"%string); (V 1500 0 0, "Ti"%string); (V 0 1500 1500, "Ti"%string); (V 1500 1500 0, "Ti"%string); (V 1452 750 213, "O"%string); (V 48 2250 1713, "O"%string); (V 1548 2250 2787, "O"%string); (V 2952 750 1287, "O"%string); (V 867 111 2133, "O"%string); (V 633 2889 633, "O"%string); (V 2133 1611 867, "O"%string); (V 2367 1389 2367, "O"%string); (V 2133 2889 867, "O"%string); (V 2367 111 2367, "O"%string); (V 867 1389 2133, "O"%string); (V 633 1611 633, "O"%string)]%Z.
Definition pyrite_points : list (vec Z * string) := [(V 0 0 0, "Fe"%string); (V 300 0 300, "Fe"%string); (V 0 300 300, "Fe"%string); (V 300 300 0, "Fe"%string); (V 231 231 231, "S"%string); (V 69 369 531, "S"%string); (V 369 531 69, "S"%string); (V 531 69 369, "S"%string); (V 369 369 369, "S"%string); (V 531 231 69, "S"%string); (V 231 69 531, "S"%string); (V 69 531 231, "S"%string)]%Z.
Lemma cube_check u : ZMmul (transpose u) u = ZMid -> of_the_cube u.
Proof. intro E. unfold of_the_cube. change (Mtr (MofZ u)) with (MofZ (transpose u)). rewrite <- MofZ_mul, E. apply MofZ_id. Qed.
(** first to second to third to first axis, and back *)
Definition cyclic : mat Z := (M 0 0 1 1 0 0 0 1 0)%Z.
Definition cyclic_back : mat Z := (M 0 1 0 0 0 1 1 0 0)%Z.
Lemma cyclic_cube : of_the_cube cyclic. Proof. apply cube_check. reflexivity. Qed.
Lemma cyclic_back_cube : of_the_cube cyclic_back. Proof. apply cube_check. reflexivity. Qed.
Lemma id_cube : of_the_cube ZMid. Proof. apply cube_check. reflexivity. Qed.
Definition checked_entry (N : Z) (ls : lattice_system) (order : Z) (sym : string) (test : list Z -> bool) : bool :=
  match entry_of N with
  | Some (ls', order', _, codes) => if lattice_system_eqb ls' ls then if (order' =? order)%Z then if match am_get Z.eqb N SG_NUM_TO_SYMBOL with Some s => String.eqb s sym | None => false end then test codes else false else false else false
  | None => false
  end.
Lemma checked_entry_ok N ls order sym test : checked_entry N ls order sym test = true ->
  exists codes, tabulated ls order N codes /\ am_get Z.eqb N SG_NUM_TO_SYMBOL = Some sym /\ test codes = true.
Proof.
  unfold checked_entry. destruct (entry_of N) as [[[[ls' order'] n] codes]|] eqn:E; [|discriminate]. destruct (lattice_system_eqb ls' ls) eqn:E1; [|discriminate]. destruct (order' =? order)%Z eqn:E2; [|discriminate].
  destruct (am_get Z.eqb N SG_NUM_TO_SYMBOL) as [s|] eqn:E3; [|discriminate]. destruct (String.eqb s sym) eqn:E4; [|discriminate]. intro T.
  apply lattice_system_eqb_spec in E1. apply Z.eqb_eq in E2. apply String.eqb_eq in E4. subst. exists codes. split; [exact (entry_of_tabulated _ _ _ _ _ E)|auto].
Qed.
Lemma caesium_chloride_checked : checked_entry 221 Cubic 48 "Pm-3m" (mineral_check 12 1 caesium_chloride_points Cubic ZMid ZMid "Pm-3m") = true.
Proof. vm_compute. reflexivity. Qed.
Lemma rutile_checked : checked_entry 136 Tetragonal 16 "P4_2/mnm" (mineral_check 600 50 rutile_points Tetragonal cyclic cyclic "P4_2/mnm") = true.
Proof. vm_compute. reflexivity. Qed.
Lemma perovskite_checked : checked_entry 62 Orthorhombic 8 "Pnma" (fun codes => if mineral_check 3000 250 perovskite_points Orthorhombic cyclic_back ZMid "Pnma" codes then negb (within_list (map (conj_op cyclic_back) (group_ops "Pnma" codes)) (group_ops "Pnma" codes)) else false) = true.
Proof. vm_compute. reflexivity. Qed.
Lemma pyrite_checked : checked_entry 205 Cubic 24 "Pa-3" (mineral_check 600 50 pyrite_points Cubic ZMid ZMid "Pa-3") = true.
Proof. vm_compute. reflexivity. Qed.
(** operations that are those of [G] along both the basis and the axes [u] are mapped onto one another by [u] *)
Lemma renamed u (G : list zop) : of_the_cube u ->
  (forall o, In o G -> exists o', In o' G /\ along u (fst o') (in_twelfths (snd o')) (fst o) (in_twelfths (snd o))) ->
  within_list (map (conj_op u) G) G = true.
Proof.
  intros HU H. destruct (cube_signed u HU) as (_ & UI). pose proof (zinv_comm _ _ UI) as IU. apply forallb_forall. intros x Hx. apply in_map_iff in Hx. destruct Hx as (o & <- & Ho).
  destruct (H o Ho) as (o' & Ho' & A). apply along_conj in A; [|exact UI]. destruct A as [E C]. rewrite ex_if_existsb. apply existsb_exists. exists o'. split; [exact Ho'|].
  unfold zop_eq, conj_op. cbn [fst snd]. rewrite E, conj_conj by assumption. replace (zmat_eqb (fst o') (fst o')) with true by (symmetry; apply zmat_eqb_spec; reflexivity).
  apply congr12_eq12. apply twelfths_congr. intros x y Hxy. apply (PEnd11.Vcongr_app (transpose u)) in C. rewrite (app_inv (transpose u) u _ IU) in C.
  change (in_twelfths (snd o)) with (V12 (snd o)) in C. rewrite MofZ_V12 in C. destruct C as (n & C). unfold V12, in_twelfths, Vadd, VofZ in C. cbn [vx vy vz] in C. injection C as C1 C2 C3.
  cbn [In] in Hxy. destruct Hxy as [Q|[Q|[Q|[]]]]; injection Q as <- <-; [exists (vx n); rewrite C1|exists (vy n); rewrite C2|exists (vz n); rewrite C3];
    (match goal with |- Rabs ?e < _ => replace e with 0 by ring end; rewrite Rabs_R0; lra).
Qed.
Lemma box_id a b c : box_cell a b c (Mmul (M a 0 0 0 b 0 0 0 c) (MofZ ZMid)).
Proof. unfold box_cell. apply mat_ext; cbn; ring. Qed.
Lemma box_cyclic a b c : box_cell b c a (Mmul (M a 0 0 0 b 0 0 0 c) (MofZ cyclic)).
Proof. unfold box_cell, cyclic. apply mat_ext; cbn; ring. Qed.
Lemma box_cyclic_back a b c : box_cell c a b (Mmul (M a 0 0 0 b 0 0 0 c) (MofZ cyclic_back)).
Proof. unfold box_cell, cyclic_back. apply mat_ext; cbn; ring. Qed.
Lemma box_hand a b c u : 0 < a -> 0 < b -> 0 < c -> ZMdet u = 1%Z -> 0 < Mdet (Mmul (M a 0 0 0 b 0 0 0 c) (MofZ u)).
Proof. intros Ha Hb Hc D. rewrite Mdet_mul, MofZ_det, D. replace (Mdet (M a 0 0 0 b 0 0 0 c)) with (a * b * c) by (unfold Mdet; cbn [m11 m12 m13 m21 m22 m23 m31 m32 m33]; ring). rewrite Rmult_1_r. repeat apply Rmult_lt_0_compat; assumption. Qed.
