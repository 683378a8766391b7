(** At most one tabulated group matches a list of operations with distinct rotations *)
From Coq Require Import ZArith Reals String Ascii List Bool Lia Lra Permutation.
From Verif Require Import Num Mat DataSG SymmOp Analyzer RInst Spec Spec2 PSymmOp PSpaceGroup PSpaceGroup2 PAnalyzer2 PCode PTables.
Import ListNotations.
Open Scope R_scope.

Lemma find_perm {A} (f : A -> bool) l l' : Permutation l l' ->
  (forall x y, In x l -> In y l -> f x = true -> f y = true -> x = y) -> find f l = find f l'.
Proof.
  intros HP HU. destruct (find f l) as [x|] eqn:E1, (find f l') as [y|] eqn:E2; try reflexivity.
  - apply find_some in E1, E2. f_equal. apply HU; try tauto. apply (Permutation_in _ (Permutation_sym HP)); tauto.
  - apply find_some in E1. pose proof (find_none _ _ E2 x (Permutation_in _ HP (proj1 E1))). destruct E1. congruence.
  - apply find_some in E2. pose proof (find_none _ _ E1 y (Permutation_in _ (Permutation_sym HP) (proj1 E2))). destruct E2. congruence.
Qed.
Definition op_of (o : mat Z * vec Z) : sop := SymmOp (N := RNum) (fst o) (in_twelfths (snd o)).
Definition group_ops (sym : string) (codes : list Z) : list (mat Z * vec Z) := map (code_op (has_char "A"%char sym)) codes.
Lemma candidates a codes : (forall c, In c codes -> (0 <= c)%Z) -> map_res (@candidate_op RNum a) codes = Ok (map op_of (map (code_op a) codes)).
Proof.
  induction codes as [|c codes IH]; intro H; [reflexivity|]. cbn [map_res map]. rewrite candidate_code by (apply H; now left). cbn [bind].
  rewrite IH by (intros; apply H; now right). reflexivity.
Qed.
Definition matches (ops : list sop) (tols : vec R) (g : Z * list Z) : bool :=
  match am_get Z.eqb (fst g) SG_NUM_TO_SYMBOL with
  | Some sym => @all_found RNum ops (map op_of (group_ops sym (snd g))) tols
  | None => false
  end.
Lemma loop_find ops tols groups :
  (forall n codes, In (n, codes) groups -> (exists sym, am_get Z.eqb n SG_NUM_TO_SYMBOL = Some sym) /\ forall c, In c codes -> (0 <= c)%Z) ->
  @identify_loop RNum ops tols groups =
  Ok (match find (matches ops tols) groups with
      | Some g => option_map (fun s => (fst g, s)) (am_get Z.eqb (fst g) SG_NUM_TO_SYMBOL) | None => None end).
Proof.
  induction groups as [|[n codes] t IH]; intro H; [reflexivity|]. cbn [identify_loop find]. unfold matches at 1. cbn [fst snd].
  destruct (H n codes (or_introl eq_refl)) as [[sym E] HC]. rewrite E. cbn [of_opt bind].
  rewrite candidates by exact HC. cbn [bind]. fold (group_ops sym codes).
  destruct (all_found ops (map op_of (group_ops sym codes)) tols).
  - cbn [fst]. rewrite E. reflexivity.
  - apply IH. intros m c Hm. apply H. now right.
Qed.

Section Unique.
  Variable tols : vec R.
  Hypothesis T1 : 0 < vx tols <= 1 / 24.
  Hypothesis T2 : 0 < vy tols <= 1 / 24.
  Hypothesis T3 : 0 < vz tols <= 1 / 24.
  Lemma tols_ok_24 : tols_ok tols. Proof. repeat split; lra. Qed.
  Lemma near_both (t tol : R) (x y : Z) : 0 < tol <= 1 / 24 -> near1 tol t (IZR x / 12) -> near1 tol t (IZR y / 12) -> ((x - y) mod 12 = 0)%Z.
  Proof.
    intros Ht [z Hz] [w Hw]. apply Rabs_def2 in Hz, Hw.
    assert (E : IZR (x - y - 12 * (w - z)) = 12 * ((t - IZR y / 12 - IZR w) - (t - IZR x / 12 - IZR z))).
    { rewrite !minus_IZR, mult_IZR, minus_IZR. field. }
    assert (Q : (-1 < x - y - 12 * (w - z) < 1)%Z) by (split; apply lt_IZR; rewrite E; lra).
    replace (x - y)%Z with ((w - z) * 12)%Z by lia. apply Z_mod_mult.
  Qed.
  Lemma near3_both t x y : near3 tols t (in_twelfths x) -> near3 tols t (in_twelfths y) -> congr12 x y.
  Proof.
    intros (A1 & A2 & A3) (B1 & B2 & B3). apply congr12_eq12. unfold eq12.
    rewrite (near_both _ _ _ _ T1 A1 B1), (near_both _ _ _ _ T2 A2 B2), (near_both _ _ _ _ T3 A3 B3). reflexivity.
  Qed.
  Lemma all_found_spec (ops : list sop) l : @all_found RNum ops (map op_of l) tols = true <->
    forall op, In op ops -> exists c, In c l /\ rotation op = fst c /\ near3 tols (translation op) (in_twelfths (snd c)).
  Proof.
    unfold all_found. rewrite forallb_forall. split; intros H op Hop; specialize (H op Hop).
    - apply existsb_exists in H. destruct H as (c & Hc & E). apply in_map_iff in Hc. destruct Hc as (o & <- & Ho).
      apply is_approx_eq_spec in E; [|exact tols_ok_24]. exists o. split; [exact Ho|exact E].
    - destruct H as (c & Hc & E1 & E2). apply existsb_exists. exists (op_of c). split; [now apply in_map|].
      apply is_approx_eq_spec; [exact tols_ok_24|]. split; assumption.
  Qed.
  (** all tabulated operations are used *)
  Lemma all_used (ops : list sop) l : NoDup (map (@rotation RNum) ops) -> List.length ops = List.length l -> NoDup (map fst l) ->
    @all_found RNum ops (map op_of l) tols = true ->
    forall c, In c l -> exists op, In op ops /\ rotation op = fst c /\ near3 tols (translation op) (in_twelfths (snd c)).
  Proof.
    intros N1 HL N2 HA c Hc. rewrite all_found_spec in HA.
    assert (I1 : incl (map (@rotation RNum) ops) (map fst l)).
    { intros r Hr. apply in_map_iff in Hr. destruct Hr as (op & <- & Hop). destruct (HA op Hop) as (d & Hd & E & _). rewrite E. now apply in_map. }
    assert (I2 : incl (map fst l) (map (@rotation RNum) ops)) by (apply NoDup_length_incl; [exact N1|rewrite !map_length; lia|exact I1]).
    pose proof (I2 (fst c) (in_map fst l c Hc)) as Q. apply in_map_iff in Q. destruct Q as (op & E & Hop).
    destruct (HA op Hop) as (d & Hd & Ed & Nd). assert (d = c).
    { apply (same_rot_same l N2); auto. congruence. }
    subst d. exists op. auto.
  Qed.
  Lemma bucket_unique ls buckets order groups (ops : list sop) : In (ls, buckets) SG_NUM_TO_FULL_MATRICES -> In (order, groups) buckets ->
    NoDup (map (@rotation RNum) ops) -> (order = Z.of_nat (List.length ops) mod 256)%Z ->
    forall g g', In g groups -> In g' groups -> matches ops tols g = true -> matches ops tols g' = true -> g = g'.
  Proof.
    intros HB HG HN HO [n codes] [n' codes'] Hg Hg' M1 M2.
    assert (I1 : In (ls, order, n, codes) sg_entries) by (apply sg_entries_In; eauto).
    assert (I2 : In (ls, order, n', codes') sg_entries) by (apply sg_entries_In; eauto).
    destruct (entry_facts _ _ _ _ I1) as (sym & E1 & G1 & L1 & B1 & _). destruct (entry_facts _ _ _ _ I2) as (sym' & E2 & G2 & L2 & _ & _).
    unfold matches in M1, M2. cbn [fst snd] in M1, M2. rewrite E1 in M1. rewrite E2 in M2. fold (group_ops sym codes) in G1. fold (group_ops sym' codes') in G2.
    assert (HL : (List.length ops = List.length codes)%nat).
    { assert (Q : (List.length (map (@rotation RNum) ops) <= List.length (map fst (group_ops sym codes)))%nat).
      { apply NoDup_incl_length; [exact HN|]. intros r Hr. apply in_map_iff in Hr. destruct Hr as (op & <- & Hop).
        rewrite all_found_spec in M1. destruct (M1 op Hop) as (d & Hd & E & _). rewrite E. now apply in_map. }
      unfold group_ops in Q. rewrite !map_length in Q. rewrite Z.mod_small in HO by lia. lia. }
    assert (HL' : List.length ops = List.length codes') by lia.
    assert (N : n = n').
    { destruct (Z.eq_dec n n') as [E|NE]; [exact E|exfalso].
      pose proof (proj1 (forallb_forall _ _) buckets_differ _ HB) as Q. cbn [snd] in Q.
      pose proof (proj1 (forallb_forall _ _) Q _ HG) as Q2. cbn [snd] in Q2. unfold bucket_differs in Q2.
      pose proof (proj1 (forallb_forall _ _) Q2 _ (in_map _ _ _ Hg)) as Q3. cbn beta in Q3.
      pose proof (proj1 (forallb_forall _ _) Q3 _ (in_map _ _ _ Hg')) as Q4. cbn beta in Q4. cbn [fst snd] in Q4.
      unfold entry_ops in Q4. rewrite E1, E2 in Q4. fold (group_ops sym codes) in Q4. fold (group_ops sym' codes') in Q4.
      apply orb_true_iff in Q4. destruct Q4 as [Q4|Q4]; [apply Z.eqb_eq in Q4; contradiction|].
      unfold differ in Q4. apply negb_true_iff in Q4. assert (Q5 : forallb (fun a => ex_if (zop_eq a) (group_ops sym' codes')) (group_ops sym codes) = true); [|congruence].
      apply forallb_forall. intros c Hc. rewrite ex_if_existsb. apply existsb_exists.
      destruct (all_used ops (group_ops sym codes) HN) with (c := c) as (op & Hop & Er & Nr);
        [unfold group_ops; rewrite map_length; exact HL|apply (og_rotations _ G1)|exact M1|exact Hc|].
      rewrite all_found_spec in M2. destruct (M2 op Hop) as (d & Hd & Ed & Nd). exists d. split; [exact Hd|].
      apply same_op_eq. split; [congruence|]. eapply near3_both; eassumption. }
    subst n'. pose proof (number_unique _ _ I1 I2 eq_refl) as X. congruence.
  Qed.
  Lemma identify_any_order (HO HO' : HashOrd) path path' (ops : list sop) ls : NoDup (map (@rotation RNum) ops) ->
    @identify_space_group RNum HO path ops ls tols = @identify_space_group RNum HO' path' ops ls tols.
  Proof.
    intro HN. unfold identify_space_group. destruct (am_get lattice_system_eqb ls SG_NUM_TO_FULL_MATRICES) as [buckets|] eqn:E1; [|reflexivity].
    cbn [of_opt bind]. destruct (am_get Z.eqb (wrap_u8 (Z.of_nat (List.length ops))) buckets) as [groups|] eqn:E2; [|reflexivity]. cbn [of_opt bind].
    apply am_get_in in E1. destruct E1 as (ls' & Q1 & E1). apply lattice_system_eqb_spec in Q1. subst ls'.
    apply am_get_in in E2. destruct E2 as (order & Q2 & E2). apply Z.eqb_eq in Q2. symmetry in Q2.
    assert (HW : forall n codes, In (n, codes) groups -> (exists sym, am_get Z.eqb n SG_NUM_TO_SYMBOL = Some sym) /\ forall c, In c codes -> (0 <= c)%Z).
    { intros n codes Hn. split.
      - destruct (entry_facts ls order n codes) as (sym & E & _); [apply sg_entries_In; eauto|eauto].
      - intros c Hc. apply (codes_range _ _ _ _ _ _ _ E1 E2 Hn Hc). }
    pose proof (@hord_perm HO path _ groups) as P1. pose proof (@hord_perm HO' path' _ groups) as P2.
    rewrite !loop_find; [|intros n c Hn; apply HW; exact (Permutation_in _ P2 Hn)|intros n c Hn; apply HW; exact (Permutation_in _ P1 Hn)].
    rewrite (find_perm _ (@hord HO path _ groups) (@hord HO' path' _ groups)); [reflexivity| |].
    - apply (Permutation_trans P1). now apply Permutation_sym.
    - intros g g' Hg Hg' M1 M2. apply (Permutation_in _ P1) in Hg, Hg'.
      exact (bucket_unique _ _ _ _ _ E1 E2 HN Q2 _ _ Hg Hg' M1 M2).
  Qed.
End Unique.

(** ** Every list matching a tabulated group is identified as that group *)
Lemma identify_complete (HO : HashOrd) path (tols : vec R) (ops : list sop) ls order n codes sym :
  0 < vx tols <= 1 / 24 -> 0 < vy tols <= 1 / 24 -> 0 < vz tols <= 1 / 24 ->
  In (ls, order, n, codes) sg_entries -> am_get Z.eqb n SG_NUM_TO_SYMBOL = Some sym ->
  NoDup (map (@rotation RNum) ops) -> List.length ops = List.length codes ->
  (forall op, In op ops -> exists c, In c (group_ops sym codes) /\ rotation op = fst c /\ near3 tols (translation op) (in_twelfths (snd c))) ->
  @identify_space_group RNum HO path ops ls tols = Ok (Some (n, sym)).
Proof.
  intros T1 T2 T3 HI ES HN HL HF. destruct (proj1 (sg_entries_In _ _ _ _) HI) as (buckets & groups & H1 & H2 & H3).
  destruct (entry_facts _ _ _ _ HI) as (sym' & ES' & _ & EO & BO & _).
  assert (EW : wrap_u8 (Z.of_nat (List.length ops)) = order) by (unfold wrap_u8; rewrite Z.mod_small; lia).
  unfold identify_space_group. rewrite EW, (am_get_nodup _ lattice_system_eqb_spec _ _ _ systems_nodup H1). cbn [of_opt bind].
  rewrite (am_get_nodup _ Z.eqb_eq _ _ _ (orders_nodup _ _ H1) H2). cbn [of_opt bind].
  assert (HW : forall n codes, In (n, codes) groups -> (exists sym, am_get Z.eqb n SG_NUM_TO_SYMBOL = Some sym) /\ forall c, In c codes -> (0 <= c)%Z).
  { intros m cs Hn. split.
    - destruct (entry_facts ls order m cs) as (s2 & E & _); [apply sg_entries_In; eauto|eauto].
    - intros c Hc. apply (codes_range _ _ _ _ _ _ _ H1 H2 Hn Hc). }
  pose proof (@hord_perm HO path _ groups) as P1. rewrite loop_find by (intros m c Hn; apply HW; exact (Permutation_in _ P1 Hn)).
  assert (HM : matches ops tols (n, codes) = true).
  { unfold matches. cbn [fst snd]. rewrite ES. apply all_found_spec; auto. }
  rewrite (find_perm _ (@hord HO path _ groups) groups P1).
  - destruct (find (matches ops tols) groups) as [g|] eqn:EF.
    + apply find_some in EF. destruct EF as [Hg Mg].
      rewrite (bucket_unique tols T1 T2 T3 ls buckets order groups ops H1 H2 HN ltac:(unfold wrap_u8 in EW; lia) g (n, codes) Hg H3 Mg HM).
      cbn [fst]. rewrite ES. reflexivity.
    + pose proof (find_none _ _ EF _ H3). congruence.
  - intros g g' Hg Hg' M1 M2. apply (Permutation_in _ P1) in Hg, Hg'.
    exact (bucket_unique tols T1 T2 T3 ls buckets order groups ops H1 H2 HN ltac:(unfold wrap_u8 in EW; lia) g g' Hg Hg' M1 M2).
Qed.
