(** C48 - C53, C55, C57, C62, C63: lattice characters, standard cells, identification, the Python boundary *)
From Coq Require Import ZArith Reals String Ascii List Bool Lia Lra Permutation.
From Flocq Require Import Core IEEE754.BinarySingleNaN.
From Verif Require Import Num Mat Utils DataCore DataPG DataSG SymmOp Structure Reduce Analyzer Lib RInst Spec Spec2 RFacts PUtils PNiggli PAnalyzer PAnalyzer2 PCode PSpaceGroup2 Prop2 Prop4 Prop5 Prop6.
Import ListNotations.
Open Scope R_scope.

(** C48.  Any arithmetic. *)
Theorem C48_lattice_character_in_tables :
  forall (N : Num) (s : structure) (tol : num),
    get_lattice_character s tol = Panic PLatticeChar \/
    exists n, get_lattice_character s tol = Ok n /\ (1 <= n <= 44)%Z /\
      (exists T, am_get Z.eqb n LATTICE_CHAR_TO_CONV_TRANS = Some T) /\
      exists b c P h ls buckets gens,
        am_get Z.eqb n LATTICE_CHAR_TO_BRAVAIS = Some b /\
        bravais_centering b = Ok c /\ prim_trans_of c = Some P /\ primitive_transformation_matrix n = Ok (P, b) /\
        am_get bravais_eqb b BRAVAIS_TO_HOLOHEDRY_NUM = Some h /\ am_get Z.eqb h PG_NUM_TO_GENERATOR_MATRICES = Some gens /\
        bravais_lattice_system b = Ok ls /\ am_get lattice_system_eqb ls SG_NUM_TO_FULL_MATRICES = Some buckets.
Proof.
  intros N s tol. unfold get_lattice_character.
  match goal with |- context [character_of ?a ?b ?c ?d ?e ?f ?g] => destruct (character_of_range a b c d e f g) as [E|(n & E & HR)] end;
    [left; exact E|right]. exists n. split; [exact E|]. split; [exact HR|].
  destruct (row_facts n HR) as (T & b & l & c & blk & d & U & E1 & E2 & _ & E4 & E5 & _). split; [eauto|].
  assert (EP : prim_trans_of c = Some (mdivs (mcast blk) (fofZ d))) by (unfold prim_trans_of; now rewrite E5).
  exists b, c, (mdivs (mcast blk) (fofZ d)).
  assert (EM : primitive_transformation_matrix n = Ok (mdivs (mcast blk) (fofZ d), b)).
  { unfold primitive_transformation_matrix. rewrite E2. cbn [of_opt bind]. rewrite E4. cbn [bind]. now rewrite EP. }
  destruct b; (do 4 eexists); (repeat (split; [first [eassumption|reflexivity]|]); reflexivity).
Qed.
Print Assumptions C48_lattice_character_in_tables.

(** the second alternative of C48 is met by the cell [cell17] below, the first one by [cell555] *)

(** C49. *)
Theorem C49_character_conditions :
  forall (s : @structure RNum) (tol : R) n, 0 < Mdet (lattice s) -> 0 < tol ->
    @get_lattice_character RNum s tol = Ok n -> has_character (niggli_eps s tol) (gram (lattice s)) n.
Proof.
  intros s tol n HD Ht E. rewrite lattice_character_R in E by exact HD.
  apply character_sound; [|exact E]. apply Rmult_lt_0_compat; [exact Ht|apply exp_pos].
Qed.
Print Assumptions C49_character_conditions.

(** C50. *)
Theorem C50_conventional_metric :
  forall (s : @structure RNum) T n b letter, 0 < Mdet (lattice s) ->
    let eps := niggli_eps s (1 / 100000) in let g := gram (lattice s) in
    (eps < m23 g /\ eps < m13 g /\ eps < m12 g) \/ (m23 g <= eps /\ m13 g <= eps /\ m12 g <= eps) ->
    @conventional_transformation_matrix RNum s = Ok (T, n) ->
    am_get Z.eqb n LATTICE_CHAR_TO_BRAVAIS = Some b -> String.get 0 (bravais_to_string b) = Some letter ->
    family_metric (40 * eps) (gram (Mmul (lattice s) T)) letter.
Proof.
  intros s T n b letter HD eps g HS HC HB HL. destruct (conventional_inv _ _ _ HC) as (EC & _ & T' & ET & EM).
  rewrite tol_R in EC. apply C49_character_conditions in EC; [|exact HD|lra].
  assert (He : 0 < eps) by (apply Rmult_lt_0_compat; [lra|apply exp_pos]).
  replace (gram (Mmul (lattice s) T)) with (rcongr (Mtr (MofZ T')) g).
  - apply (conventional_metric eps g n T' b letter); auto; try lra;
      try (unfold g, gram, Mmul, Mtr; cbn; first [ring | nra]); try (destruct b; exact HL).
  - rewrite EM. change (transpose (@mcast RNum T')) with (Mtr (MofZ T')). unfold rcongr, g, gram. rewrite Mtr_mul, !Mmul_assoc. reflexivity.
Qed.
Print Assumptions C50_conventional_metric.

(** A right-handed reduced cell with character 17: lengths 13, 13, 17, scalar products -2, -5, -6. *)
Definition cell17 : mat Z := (M 3 0 (-3) 2 (-3) 2 0 (-2) (-2))%Z.
Definition bare (L : mat Z) : @structure RNum := Structure (N := RNum) (MofZ L) [] [] [].
Lemma cell17_det : Mdet (lattice (bare cell17)) = 42. Proof. unfold Mdet, cell17; cbn; lra. Qed.
Ltac niggli_lra :=
  split; unfold gram, Mmul, Mtr, MofZ; cbn;
  first [ lra | right; lra | apply Rabs_le; lra | intros _; rewrite !Rabs_left1 by lra; lra | intro; match goal with X : Rabs _ <= _ |- _ => apply Rabs_le_inv in X; lra end ].
Lemma cell17_niggli : niggli_within 0 (gram (MofZ cell17)).
Proof. niggli_lra. Qed.
Lemma cell17_gram : gram (MofZ cell17) = M 13 (-6) (-5) (-6) 13 (-2) (-5) (-2) 17.
Proof. apply mat_ext; unfold gram, Mmul, Mtr; cbn; lra. Qed.
Lemma character_17 (e : R) : 0 < e <= 1 / 10 -> @character_of RNum e 13 13 17 (-2) (-5) (-6) = Ok 17%Z.
Proof.
  intro He. unfold character_of.
  assert (EN : @num_negative_zero RNum [-2; -5; -6] e = (3, 0)%Z).
  { rewrite num_negative_zero_spec by (cbn; lia). unfold countb. cbn [filter].
    rewrite (Rlt_bool_true (-2)), (Rlt_bool_true (-5)), (Rlt_bool_true (-6)) by lra. reflexivity. }
  match goal with |- context [@num_negative_zero RNum ?l e] => change (@num_negative_zero RNum l e) with (@num_negative_zero RNum [-2; -5; -6] e) end.
  rewrite EN. change ((Z.rem 3 2 =? 0)%Z && (0 =? 0)%Z) with false.
  replace (@cust_eq RNum 13 13 e) with true by (symmetry; apply cust_eq_spec; apply Rabs_le; lra).
  replace (@cust_eq RNum 13 17 e) with false by (symmetry; apply cust_eq_false; rewrite Rabs_left by lra; lra).
  cbn [andb]. unfold get_second_set.
  assert (EX : @extra_eval_a RNum 13 13 (-2) (-5) (-6) e = true).
  { apply cust_eq_spec. cbn. rewrite (Rabs_left (_ + _)) by lra. apply Rabs_le. lra. }
  rewrite EX.
  cbn [app first_match vdivs vmap vx vy vz]. cust_lra. reflexivity.
Qed.
Lemma cell17_character (tol : R) : 0 < tol <= 1 / 1000 -> @get_lattice_character RNum (bare cell17) tol = Ok 17%Z.
Proof.
  intro Ht. rewrite lattice_character_R by (rewrite cell17_det; lra). cbv zeta. rewrite cell17_det.
  change (lattice (bare cell17)) with (MofZ cell17). rewrite cell17_gram. cbn [m11 m22 m33 m23 m13 m12].
  apply character_17. destruct (root_bounds 42 ltac:(lra)) as (R1 & R2). split; [apply Rmult_lt_0_compat; lra|nra].
Qed.

(** C52.  What holds: all characters but 17. *)
Theorem C52_right_handed_partial :
  forall (s : @structure RNum) T n, @conventional_transformation_matrix RNum s = Ok (T, n) ->
    (n <> 17%Z -> 0 < Mdet T) /\ (n = 17%Z -> Mdet T = -2).
Proof.
  intros s T n E. destruct (conventional_inv _ _ _ E) as (_ & HR & T' & ET & ->).
  change (transpose (@mcast RNum T')) with (Mtr (MofZ T')). rewrite Mdet_tr, MofZ_det. split; intro Hn.
  - destruct (row_facts n HR) as (T2 & b & l & c & blk & d & U & E1 & _ & _ & _ & _ & _ & _ & _ & E9 & E10).
    rewrite ET in E1. injection E1 as <-. apply IZR_lt. apply Z.eqb_neq in Hn. rewrite Hn in E10. rewrite E10 in *.
    unfold centering_multiplicity in *. destruct l as [[] [] [] [] [] [] [] []]; cbn in *; lia.
  - subst n. cbn in ET. injection ET as <-. reflexivity.
Qed.
Print Assumptions C52_right_handed_partial.
Theorem C52_right_handed_refuted :
  exists s : @structure RNum, 0 < Mdet (lattice s) /\ niggli_within 0 (gram (lattice s)) /\
    exists T, @conventional_transformation_matrix RNum s = Ok (T, 17%Z) /\ Mdet (Mmul (lattice s) T) < 0.
Proof.
  exists (bare cell17). rewrite cell17_det. split; [lra|]. split; [exact cell17_niggli|].
  eexists. split.
  - unfold conventional_transformation_matrix. rewrite cell17_character by (rewrite tol_R; lra). reflexivity.
  - rewrite Mdet_mul, cell17_det. unfold Mdet. cbn. lra.
Qed.
Print Assumptions C52_right_handed_refuted.

(** C49 and C50 apply to that cell: it is monoclinic with unique axis b *)
Example C49_example : has_character (niggli_eps (bare cell17) (1 / 1000)) (gram (MofZ cell17)) 17.
Proof. apply (C49_character_conditions (bare cell17)); [rewrite cell17_det; lra|lra|apply cell17_character; lra]. Qed.
Example C50_example : family_metric (40 * niggli_eps (bare cell17) (1 / 100000))
  (gram (Mmul (MofZ cell17) (Mtr (MofZ (M 1 (-1) 0 1 1 0 (-1) 0 (-1))%Z)))) "m"%char.
Proof.
  eapply (C50_conventional_metric (bare cell17)).
  - rewrite cell17_det. lra.
  - right. destruct (root_bounds 42 ltac:(lra)) as (R1 & R2).
    assert (0 < niggli_eps (bare cell17) (1 / 100000)) by (unfold niggli_eps; rewrite cell17_det; lra).
    change (lattice (bare cell17)) with (MofZ cell17). rewrite cell17_gram. cbn [m23 m13 m12]. lra.
  - unfold conventional_transformation_matrix. rewrite cell17_character by (rewrite tol_R; lra). reflexivity.
  - reflexivity.
  - reflexivity.
Qed.

(** C51. *)
Theorem C51_conventional_volume :
  forall (P : @Pinv RNum) (H : HashOrd) fuel path (dtol : R) (s s' : @structure RNum),
    @get_standard_conventional_structure RNum P H fuel path dtol s = Ok s' ->
    exists p, @find_primitive_cell RNum P H path dtol s = Ok p /\
      (0 < Mdet (lattice p) -> niggli_eps p (1 / 100000) < 1 ->
       exists n b letter, (1 <= n <= 44)%Z /\ am_get Z.eqb n LATTICE_CHAR_TO_BRAVAIS = Some b /\
         String.get 1 (bravais_to_string b) = Some letter /\
         Rabs (Mdet (lattice s')) = IZR (centering_multiplicity letter) * Mdet (lattice p) /\
         (forall v, in_lattice (lattice s') v -> in_lattice (lattice p) v)).
Proof.
  intros P H fuel path dtol s s' E.
  destruct (standard_conventional P H fuel path dtol s s' E) as (p & r & Tm & n & T & b & l & E1 & E2 & E3 & E4 & E5 & E6 & E7 & E8).
  exists p. split; [exact E1|]. intros HD He. destruct (conventional_inv _ _ _ E3) as (_ & HR & _).
  assert (He' : 0 <= niggli_eps p (1 / 100000) < 1).
  { split; [|exact He]. unfold niggli_eps. apply Rmult_le_pos; [lra|]. apply Rlt_le, exp_pos. }
  destruct (C35_niggli_same_lattice P dtol _ p r HD He' E2) as (W & HW & EL & EDr & SL).
  exists n, b, l. split; [exact HR|]. split; [exact E6|].
  assert (HL : String.get 1 (bravais_to_string b) = Some l) by (destruct b; exact E7). split; [exact HL|]. split.
  - rewrite E5, Mdet_mul, EDr, E4, Mdet_tr, MofZ_det, E8, Rabs_mult, (Rabs_pos_eq (Mdet (lattice p))) by lra.
    rewrite mult_IZR, Rabs_mult. rewrite Rmult_comm. f_equal.
    assert (0 <= IZR (centering_multiplicity l)).
    { apply IZR_le. destruct b; injection E7 as <-; cbn; lia. }
    rewrite (Rabs_pos_eq (IZR (centering_multiplicity l))) by exact H0.
    destruct (n =? 17)%Z; [rewrite Rabs_left by lra|rewrite Rabs_pos_eq by lra]; lra.
  - intros v Hv. apply SL. rewrite E5, E4 in Hv. change (Mtr (MofZ T)) with (MofZ (transpose T)) in Hv. exact (in_lattice_mul _ _ _ Hv).
Qed.
Print Assumptions C51_conventional_volume.
Theorem C51_primitive_same_lattice :
  forall (P : @Pinv RNum) (H : HashOrd) fuel path (dtol : R) (s s' : @structure RNum),
    @get_standard_primitive_structure RNum P H fuel path dtol s = Ok s' ->
    exists p, @find_primitive_cell RNum P H path dtol s = Ok p /\
      (0 < Mdet (lattice p) -> niggli_eps p (1 / 100000) < 1 ->
       same_lattice (lattice p) (lattice s') /\ Rabs (Mdet (lattice s')) = Mdet (lattice p)).
Proof.
  intros P H fuel path dtol s s' E. destruct (standard_primitive P H fuel path dtol s s' E) as (p & r & U & E1 & E2 & HU & E3).
  exists p. split; [exact E1|]. intros HD He.
  assert (He' : 0 <= niggli_eps p (1 / 100000) < 1).
  { split; [|exact He]. unfold niggli_eps. apply Rmult_le_pos; [lra|]. apply Rlt_le, exp_pos. }
  destruct (C35_niggli_same_lattice P dtol _ p r HD He' E2) as (W & HW & EL & EDr & SL). split.
  - apply (same_lattice_trans _ _ _ SL). rewrite E3. destruct (unimodular_inverse U HU) as (Ui & HI).
    exact (unimodular_same_lattice _ _ _ HI).
  - rewrite E3, Mdet_mul, EDr, MofZ_det, Rabs_mult, (Rabs_pos_eq (Mdet (lattice p))) by lra.
    destruct HU as [-> | ->]; [rewrite Rabs_pos_eq by lra|rewrite Rabs_left by lra]; lra.
Qed.
Print Assumptions C51_primitive_same_lattice.
(** For every character: conventional times primitive transformation is unimodular. *)
Theorem C51_transformations :
  forall n, (1 <= n <= 44)%Z -> exists T b letter P U,
    am_get Z.eqb n LATTICE_CHAR_TO_CONV_TRANS = Some T /\ am_get Z.eqb n LATTICE_CHAR_TO_BRAVAIS = Some b /\
    String.get 1 (bravais_to_string b) = Some letter /\ Z.abs (ZMdet T) = centering_multiplicity letter /\
    @primitive_transformation_matrix RNum n = Ok (P, b) /\ Mmul (Mtr (MofZ T)) P = MofZ U /\
    (ZMdet U = 1%Z \/ ZMdet U = (-1)%Z).
Proof.
  intros n HR. destruct (row_facts n HR) as (T & b & l & c & blk & d & U & E1 & E2 & E3 & E4 & E5 & E6 & E7 & E8 & _ & E10).
  destruct (prim_trans_R c blk d T U E5 E7 E6) as (P & EP & EU). exists T, b, l, P, U.
  split; [exact E1|]. split; [exact E2|]. split; [destruct b; exact E3|]. split.
  - rewrite E10. destruct b; injection E3 as <-; cbn; destruct (n =? 17)%Z; reflexivity.
  - split; [|auto]. unfold primitive_transformation_matrix. rewrite E2. cbn [of_opt bind]. rewrite E4. cbn [bind]. now rewrite EP.
Qed.
Print Assumptions C51_transformations.

(** the body-centred orthorhombic character 8 *)
Example C51_transformations_example : exists T P U, am_get Z.eqb 8%Z LATTICE_CHAR_TO_CONV_TRANS = Some T /\ ZMdet T = 2%Z /\
  @primitive_transformation_matrix RNum 8 = Ok (P, oI) /\ Mmul (Mtr (MofZ T)) P = MofZ U.
Proof.
  destruct (C51_transformations 8 ltac:(lia)) as (T & b & l & P & U & E1 & E2 & _ & _ & E5 & E6 & _).
  cbn in E2. injection E2 as <-. exists T, P, U. split; [exact E1|]. split; [cbn in E1; injection E1 as <-; reflexivity|]. auto.
Qed.

(** C53.  What holds: a cell whose lengths are pairwise different (first and second, second and third) has a character. *)
Theorem C53_generic_lengths_partial :
  forall (s : @structure RNum) (tol : R), 0 < Mdet (lattice s) -> 0 <= tol ->
    let eps := niggli_eps s tol in let g := gram (lattice s) in
    eps < Rabs (m11 g - m22 g) -> eps < Rabs (m22 g - m33 g) ->
    exists n, @get_lattice_character RNum s tol = Ok n.
Proof.
  intros s tol HD Ht eps g H1 H2. rewrite lattice_character_R by exact HD. cbv zeta. fold g.
  change (tol * Rpower (Mdet (lattice s)) (1 / 3)) with eps.
  assert (He : 0 <= eps) by (apply Rmult_le_pos; [exact Ht|apply Rlt_le, exp_pos]). clearbody eps g.
  assert (H1' := proj2 (cust_eq_false (m11 g) (m22 g) eps) H1). assert (H2' := proj2 (cust_eq_false (m22 g) (m33 g) eps) H2).
  unfold character_of. destruct (@num_negative_zero RNum _ eps) as [nn nz]. rewrite H1', H2'. cbn [andb].
  match goal with |- context [@first_match ?NN ?ep ?v ?x] => set (m := @first_match NN ep v x) end.
  assert (Hm : (0 < m)%Z).
  { assert (HC : forall x : R, @cust_eq RNum x x eps = true) by (intro; apply cust_eq_spec; rewrite Rminus_diag_eq, Rabs_R0 by reflexivity; exact He).
    unfold m, get_fourth_set. destruct ((Z.rem nn 2 =? 0)%Z && (nz =? 0)%Z); cbn [first_match vx vy vz];
      rewrite !HC; cbn [andb];
      repeat match goal with |- context [if ?b then _ else _] => destruct b; [reflexivity|] end; reflexivity. }
  clearbody m. destruct (_ && _); [|destruct (_ && _) eqn:E2].
  - destruct (Z.eqb_spec (m + 2) 0); [lia|eauto].
  - apply andb_true_iff in E2. destruct E2 as [E2 _]. apply Z.eqb_eq in E2. subst m. eexists. reflexivity.
  - destruct (Z.eqb_spec m 0); [lia|eauto].
Qed.
Print Assumptions C53_generic_lengths_partial.
Example C53_generic_example : exists n, @get_lattice_character RNum (bare (M 1 0 0 0 2 0 0 0 3)%Z) (1 / 1000) = Ok n.
Proof.
  apply C53_generic_lengths_partial; [unfold Mdet; cbn; lra|lra|..];
    unfold niggli_eps; replace (Mdet (lattice (bare (M 1 0 0 0 2 0 0 0 3)%Z))) with 6 by (unfold Mdet; cbn; lra);
    destruct (root_bounds 6 ltac:(lra)) as (R1 & R2); unfold gram, Mmul, Mtr, bare, MofZ; cbn; rewrite Rabs_left by lra; lra.
Qed.
(** refuted: the reduced cell with squared lengths 5, 5, 5 and scalar products 0, -1, -2 *)
Definition cell555 : mat Z := (M 2 0 0 1 (-2) (-1) 0 1 (-2))%Z.
Theorem C53_every_reduced_cell_refuted :
  exists s : @structure RNum, 0 < Mdet (lattice s) /\ niggli_within 0 (gram (lattice s)) /\
    forall tol, 0 < tol <= 1 / 1000 -> @get_lattice_character RNum s tol = Panic PLatticeChar.
Proof.
  exists (bare cell555). assert (ED : Mdet (lattice (bare cell555)) = 10) by (unfold Mdet, cell555; cbn; lra). rewrite ED.
  split; [lra|]. split.
  - niggli_lra.
  - intros tol Ht. rewrite lattice_character_R by (rewrite ED; lra). cbv zeta. rewrite ED.
    destruct (root_bounds 10 ltac:(lra)) as (R1 & R2). set (e := tol * Rpower 10 (1 / 3)).
    assert (He : 0 < e <= 1 / 100) by (unfold e; split; [apply Rmult_lt_0_compat; lra|nra]). clearbody e.
    replace (gram (lattice (bare cell555))) with (M 5 (-2) (-1) (-2) 5 0 (-1) 0 5)
      by (apply mat_ext; unfold gram, Mmul, Mtr; cbn; lra).
    cbn [m11 m22 m33 m23 m13 m12]. unfold character_of. destruct (@num_negative_zero RNum _ e) as [nn nz].
    replace (@cust_eq RNum 5 5 e) with true by (symmetry; apply cust_eq_spec; apply Rabs_le; lra).
    cbn [andb]. unfold get_first_set.
    assert (EX : @extra_eval_a RNum 5 5 0 (-1) (-2) e = false).
    { apply cust_eq_false. cbn. rewrite (Rabs_left (_ + _)) by lra. rewrite Rabs_left by lra. lra. }
    rewrite EX.
    destruct ((Z.rem nn 2 =? 0)%Z && (nz =? 0)%Z); cbn [app first_match vdivs vmap vx vy vz]; cust_lra; reflexivity.
Qed.
Print Assumptions C53_every_reduced_cell_refuted.

(** C55. *)
Theorem C55_identify_sound :
  forall (HO : HashOrd) path (ops : list (@symmop RNum)) ls (tols : vec R) n sym,
    0 < vx tols <= / 2 -> 0 < vy tols <= / 2 -> 0 < vz tols <= / 2 ->
    @identify_space_group RNum HO path ops ls tols = Ok (Some (n, sym)) ->
    exists order codes, tabulated ls order n codes /\ order = (Z.of_nat (List.length ops) mod 256)%Z /\
      am_get Z.eqb n SG_NUM_TO_SYMBOL = Some sym /\
      forall op, In op ops -> exists code, In code codes /\
        rotation op = fst (code_op (has_char "A"%char sym) code) /\
        near3 tols (translation op) (in_twelfths (snd (code_op (has_char "A"%char sym) code))).
Proof.
  intros HO path ops ls tols n sym T1 T2 T3 E. destruct (identify_some _ _ _ _ _ _ E) as (buckets & groups & codes & B1 & B2 & B3 & B4 & B5).
  apply am_get_in in B1. destruct B1 as (ls' & E1 & B1). apply lattice_system_eqb_spec in E1. subst ls'.
  apply am_get_in in B2. destruct B2 as (order & E2 & B2). apply Z.eqb_eq in E2. subst order.
  assert (HT : tabulated ls (Z.of_nat (List.length ops) mod 256) n codes) by (exists buckets, groups; auto).
  exists (Z.of_nat (List.length ops) mod 256)%Z, codes. split; [exact HT|]. split; [reflexivity|]. split; [exact B4|].
  intros op Hop. destruct (B5 op Hop) as (code & c & Hc & EC & EA). exists code. split; [exact Hc|].
  assert (0 <= code)%Z by (apply (codes_range _ _ _ _ _ _ code B1 B2 B3 Hc)).
  rewrite candidate_code in EC by assumption. injection EC as <-. apply C09_is_approx_eq_spec in EA; [|assumption..]. exact EA.
Qed.
Print Assumptions C55_identify_sound.
(** group 2, with an inversion centre slightly off the tabulated one *)
Lemma hord_one {HO : HashOrd} path {A} (x : A) : hord path [x] = [x].
Proof. apply Permutation_length_1_inv. apply Permutation_sym, hord_perm. Qed.
Lemma minus_one_found tols : 1 / 100 < vx tols <= / 2 -> 0 < vy tols <= / 2 -> 0 < vz tols <= / 2 -> forall (HO : HashOrd) path,
  @identify_space_group RNum HO path
    [SymmOp (N := RNum) ZMid (V 0 0 0); SymmOp (N := RNum) (M (-1) 0 0 0 (-1) 0 0 0 (-1))%Z (V (1 / 100) 0 3)] Triclinic tols
  = Ok (Some (2%Z, "P-1"%string)).
Proof.
  intros T1 T2 T3 HO path. unfold identify_space_group.
  set (ops := [_; _]). change (wrap_u8 _) with 2%Z.
  replace (am_get lattice_system_eqb Triclinic SG_NUM_TO_FULL_MATRICES) with
    (Some [(1%Z, [(1%Z, [16484]%Z)]); (2%Z, [(2%Z, [16484; 3198]%Z)])]) by (vm_compute; reflexivity).
  cbn [of_opt bind]. match goal with |- context [am_get Z.eqb 2%Z ?l] => change (am_get Z.eqb 2%Z l) with (Some [(2%Z, [16484; 3198]%Z)]) end.
  cbn [of_opt bind]. rewrite hord_one.
  unfold identify_loop. replace (am_get Z.eqb 2%Z SG_NUM_TO_SYMBOL) with (Some "P-1"%string) by (vm_compute; reflexivity).
  cbn [of_opt bind]. change (has_char "A" "P-1") with false. cbn [map_res]. rewrite !candidate_code by lia. cbn [bind].
  replace (all_found ops _ tols) with true; [reflexivity|]. symmetry. unfold all_found, ops. cbn [forallb existsb].
  apply andb_true_iff. split; [|apply andb_true_iff; split; [|reflexivity]]; apply orb_true_iff.
  - left. apply C09_is_approx_eq_spec; try lra. split; [reflexivity|].
    change (snd (code_op false 16484)) with (V 0 0 0)%Z. unfold near3, near1, in_twelfths. cbn.
    repeat split; exists 0%Z; apply Rabs_def1; lra.
  - right. apply orb_true_iff. left. apply C09_is_approx_eq_spec; try lra. split; [reflexivity|].
    change (snd (code_op false 3198)) with (V 0 0 0)%Z. unfold near3, near1, in_twelfths. cbn.
    repeat split; [exists 0%Z|exists 0%Z|exists 3%Z]; apply Rabs_def1; lra.
Qed.
Example C55_example : forall (HO : HashOrd) path,
  @identify_space_group RNum HO path
    [SymmOp (N := RNum) ZMid (V 0 0 0); SymmOp (N := RNum) (M (-1) 0 0 0 (-1) 0 0 0 (-1))%Z (V (1 / 100) 0 3)] Triclinic
    (V (1 / 20) (1 / 20) (1 / 20)) = Ok (Some (2%Z, "P-1"%string)).
Proof. apply minus_one_found; cbn; lra. Qed.

(** C57.  Refuted, in any arithmetic. *)
Theorem C57_rhombohedral_never_returned :
  forall (N : Num) (P : Pinv) (HO : HashOrd) fuel path (dtol : num) (s : structure) n sym ops,
    get_space_group_info fuel path dtol s = Ok (n, sym, ops) -> ~ In n [146; 148; 155; 160; 161; 166; 167]%Z.
Proof.
  intros N P HO fuel path dtol s n sym ops E HI. apply info_inv in E. destruct E as (b & sg & ls & tols & E1 & E2).
  destruct (identify_some _ _ _ _ _ _ E2) as (buckets & groups & codes & B1 & B2 & B3 & _).
  apply (bucket_numbers _ _ _ _ _ _ B1 B2 B3) in HI. subst ls. exact (never_rhombohedral b E1).
Qed.
Print Assumptions C57_rhombohedral_never_returned.
Theorem C57_every_number_refuted :
  exists n sym order codes, am_get Z.eqb n SG_NUM_TO_SYMBOL = Some sym /\ tabulated Rhombohedral order n codes /\
    forall (N : Num) (P : Pinv) (HO : HashOrd) fuel path (dtol : num) (s : structure) sym' ops,
      get_space_group_info fuel path dtol s <> Ok (n, sym', ops).
Proof.
  assert (E : In (Rhombohedral, 3, 146, [10816; 12064; 16484])%Z sg_entries).
  { apply (existsb_entry (Rhombohedral, 3, 146, [10816; 12064; 16484])%Z). vm_compute. reflexivity. }
  exists 146%Z, "R3H"%string, 3%Z, [10816; 12064; 16484]%Z. split; [vm_compute; reflexivity|]. split; [now apply sg_entries_In|].
  intros N P HO fuel path dtol s sym' ops Q. apply C57_rhombohedral_never_returned in Q. apply Q. now left.
Qed.
Print Assumptions C57_every_number_refuted.

(** C62. *)
Theorem C62_boundary_lossless :
  forall (N : Num) (P : Pinv) (lat : list num) (names : list string) (cs : list (list num)),
    List.length lat = 9%nat -> Forall (fun c => List.length c = 3%nat) cs ->
    exists s, generate_input_structure lat names cs false = Ok s /\
      generate_output_structure_data s = (lat, names, cs) /\
      vlist (col0 (lattice s)) ++ vlist (col1 (lattice s)) ++ vlist (col2 (lattice s)) = lat.
Proof.
  intros N P lat names cs L9 L3. do 9 (destruct lat as [|? lat]; [discriminate L9|]). destruct lat; [|discriminate L9].
  assert (E : exists vs, map_res coord_of_list cs = Ok vs /\ map vlist vs = cs).
  { induction L3 as [|c cs Hc _ (vs & E1 & E2)]; [exists []; auto|].
    do 3 (destruct c as [|? c]; [discriminate Hc|]). destruct c; [|discriminate Hc].
    eexists (V _ _ _ :: vs). cbn [map_res coord_of_list nth_error of_opt bind]. rewrite E1. cbn [bind]. split; [reflexivity|].
    cbn [map]. rewrite E2. reflexivity. }
  destruct E as (vs & E1 & E2). unfold generate_input_structure. cbn [mat_from_iter bind]. rewrite E1. cbn [bind].
  eexists. split; [reflexivity|]. split; [|reflexivity]. unfold generate_output_structure_data. cbn [lattice species frac_coords]. now rewrite E2.
Qed.
Print Assumptions C62_boundary_lossless.
Theorem C62_cartesian_input :
  forall (P : @Pinv RNum) (lat : list R) (names : list string) (cs : list (list R)) L,
    pinv_inverts P -> @mat_from_iter R lat = Ok L -> well_conditioned L -> Forall (fun c => List.length c = 3%nat) cs ->
    exists s lat' names' cs', @generate_input_structure RNum P lat names cs true = Ok s /\
      @generate_output_structure_data RNum s = (lat', names', cs') /\ names' = names /\ lat' = firstn 9 lat /\
      Forall2 (fun c c' => exists f, c' = [vx f; vy f; vz f] /\ c = [vx (Mapp L f); vy (Mapp L f); vz (Mapp L f)]) cs cs'.
Proof.
  intros P lat names cs L HP EL HL L3.
  assert (E : exists vs, map_res (@coord_of_list RNum) cs = Ok vs /\ map vlist vs = cs).
  { induction L3 as [|c cs Hc _ (vs & E1 & E2)]; [exists []; auto|].
    do 3 (destruct c as [|? c]; [discriminate Hc|]). destruct c; [|discriminate Hc].
    eexists (V _ _ _ :: vs). cbn [map_res coord_of_list nth_error of_opt bind]. rewrite E1. cbn [bind]. split; [reflexivity|].
    cbn [map]. rewrite E2. reflexivity. }
  destruct E as (vs & E1 & E2). destruct (C22_new_consistent P L names vs true HP HL) as (s & E3 & E4 & E5 & E6 & E7 & E8).
  exists s. unfold generate_input_structure, generate_output_structure_data.
  change (@mat_from_iter (@num RNum) lat) with (@mat_from_iter R lat). rewrite EL. cbn [bind]. rewrite E1. cbn [bind].
  do 3 eexists. split; [exact E3|]. split; [reflexivity|]. split; [exact E5|]. split.
  - rewrite E4. do 9 (destruct lat as [|? lat]; [discriminate EL|]). injection EL as <-. reflexivity.
  - rewrite E8 in E6. rewrite <- E2, <- E6, map_map. clear. induction (frac_coords s) as [|f fs IH]; cbn [map]; constructor; [|exact IH].
    exists f. split; reflexivity.
Qed.
Print Assumptions C62_cartesian_input.
Theorem C62_short_input_panics :
  forall (N : Num) (P : Pinv) (lat : list num) (names : list string) (cs : list (list num)) cart,
    (List.length lat < 9)%nat \/ Exists (fun c => (List.length c < 3)%nat) cs ->
    generate_input_structure lat names cs cart = Panic PIndex.
Proof.
  intros N P lat names cs cart H. unfold generate_input_structure.
  destruct (Nat.lt_ge_cases (List.length lat) 9) as [L|L].
  - do 9 (destruct lat as [|? lat]; [reflexivity|]). cbn [List.length] in L. lia.
  - destruct H as [H|H]; [lia|]. do 9 (destruct lat as [|? lat]; [cbn [List.length] in L; lia|]). cbn [mat_from_iter bind].
    replace (map_res coord_of_list cs) with (@Panic (list (vec num)) PIndex); [reflexivity|]. symmetry.
    induction cs as [|c cs IH]; [inversion H|]. cbn [map_res]. destruct (Nat.lt_ge_cases (List.length c) 3) as [L3|L3].
    + do 3 (destruct c as [|? c]; [reflexivity|]). cbn [List.length] in L3. lia.
    + inversion H as [? ? Q|? ? Q]; subst; [lia|]. do 3 (destruct c as [|? c]; [cbn [List.length] in L3; lia|]).
      cbn [coord_of_list nth_error of_opt bind]. now rewrite IH.
Qed.
Print Assumptions C62_short_input_panics.
(** The numbers reported for an operation: the three rows of the rotation, then the translation; nothing else changes. *)
Theorem C62_operations_row_by_row :
  forall (N : Num) (P : Pinv) (HO : HashOrd) fuel path lat names cs cart (dtol : num) r,
    py_get_space_group_info fuel path lat names cs cart dtol = Ok r ->
    exists s n sym ops, generate_input_structure lat names cs cart = Ok s /\ get_space_group_info fuel path dtol s = Ok (n, sym, ops) /\
      r = (n, sym, map (fun op => ([m11 (rotation op); m12 (rotation op); m13 (rotation op); m21 (rotation op); m22 (rotation op);
                                    m23 (rotation op); m31 (rotation op); m32 (rotation op); m33 (rotation op)],
                                   [vx (translation op); vy (translation op); vz (translation op)])) ops).
Proof.
  intros N P HO fuel path lat names cs cart dtol r E. unfold py_get_space_group_info in E. inv_bind E. inv_bind E.
  destruct x0 as [[n sym] ops]. injection E as <-. exists x, n, sym, ops. split; [assumption|]. split; [assumption|]. reflexivity.
Qed.
Print Assumptions C62_operations_row_by_row.
Example C62_example : forall (P : @Pinv RNum), exists s,
  @generate_input_structure RNum P [1; 2; 3; 0; 4; 0; 0; 1; 5] ["Po"%string] [[1 / 2; 0; 3]] false = Ok s /\
  col0 (lattice s) = V 1 2 3 /\ @generate_input_structure RNum P [1; 2; 3; 0; 4; 0; 0; 1; 5] ["Po"%string] [[1 / 2; 0]] false = Panic PIndex.
Proof.
  intro P. destruct (C62_boundary_lossless RNum P [1; 2; 3; 0; 4; 0; 0; 1; 5] ["Po"%string] [[1 / 2; 0; 3]]) as (s & E & _ & EL);
    [reflexivity|repeat constructor|]. exists s. split; [exact E|]. split.
  - unfold vlist, col0, col1, col2 in *. cbn in EL. injection EL as E1 E2 E3 _ _ _ _ _ _. apply vec_ext; assumption.
  - apply C62_short_input_panics. right. left. cbn. lia.
Qed.

(** C63. *)
Theorem C63_centering_strings :
  (forall c, am_get String.eqb (centering_to_string c) centering_table = Some c) /\
  (forall s c, am_get String.eqb s centering_table = Some c -> s = centering_to_string c).
Proof.
  split; [intros []; reflexivity|]. intros s c E. apply am_get_in in E. destruct E as (k & Ek & E). apply String.eqb_eq in Ek. subst k.
  cbn in E. repeat destruct E as [E|E]; try (injection E as <- <-; reflexivity). destruct E.
Qed.
Print Assumptions C63_centering_strings.
(** for lattice systems the one-letter abbreviations are read as well, and nothing else *)
Theorem C63_lattice_system_strings :
  (forall l, am_get String.eqb (lattice_system_to_string l) lattice_system_table = Some l) /\
  (forall s l, am_get String.eqb s lattice_system_table = Some l ->
     s = lattice_system_to_string l \/
     In (s, lattice_system_to_string l)
       [("a", "Triclinic"); ("m", "Monoclinic"); ("o", "Orthorhombic"); ("t", "Tetragonal"); ("r", "Rhombohedral");
        ("h", "Hexagonal"); ("c", "Cubic")]%string).
Proof.
  split; [intros []; reflexivity|]. intros s l E. apply am_get_in in E. destruct E as (k & Ek & E). apply String.eqb_eq in Ek. subst k.
  cbn in E. repeat destruct E as [E|E]; try (injection E as <- <-; cbn; tauto). destruct E.
Qed.
Print Assumptions C63_lattice_system_strings.
Theorem C63_bravais_letters :
  forall b, exists c l, bravais_centering b = Ok c /\ bravais_lattice_system b = Ok l /\
    String.get 1 (bravais_to_string b) = String.get 0 (centering_to_string c) /\
    (b <> hR -> In (bravais_to_string b, lattice_system_to_string l) bravais_systems) /\
    (b = hR -> l = Hexagonal /\ In (bravais_to_string b, "Rhombohedral"%string) bravais_systems).
Proof.
  intros []; do 2 eexists; (split; [reflexivity|]); (split; [reflexivity|]); (split; [reflexivity|]);
    split; intro Q; try discriminate Q; try (elim Q; reflexivity); cbn; tauto.
Qed.
Print Assumptions C63_bravais_letters.
