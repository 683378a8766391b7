(** C58, C59: the symmetry operations found for a primitive cell *)
From Coq Require Import ZArith Reals String Ascii List Bool Lia Lra Permutation.
From Verif Require Import Num Mat DataCore DataPG SymmOp PointGroup Structure Analyzer RInst Spec Spec3 RFacts PSymmOp PPointGroup2 PSearch4 Prop5.
Import ListNotations.
Open Scope R_scope.

(** C58. *)
Theorem C58_operations_are_symmetries :
  forall (H : HashOrd) (s : @structure RNum) (dtol : R) fuel path b,
    let sites := combine (frac_coords s) (species s) in
    (48 <= fuel)%nat -> List.length (frac_coords s) = List.length (species s) ->
    (0 < Z.of_nat (List.length (species s)) <= 65535)%Z -> grouped (species s) ->
    (forall k, (k < 3)%nat -> 2 / 1000000000 * Vnorm (Ccol (lattice s) k) <= dtol) ->
    sites_apart (4 * dtol) (lattice s) sites ->
    exists n c P Pi pg ops,
      am_get bravais_eqb b BRAVAIS_TO_HOLOHEDRY_NUM = Some n /\ bravais_centering b = Ok c /\
      @prim_trans_of RNum c = Some P /\ inverse_of P Pi /\ pg_from_number fuel (0%nat :: path) n = Ok pg /\
      @get_primitive_space_group_ops RNum H fuel path dtol s b = Ok ops /\
      forall op, In op ops ->
        (exists h, In h (pg_operations pg) /\ Mmul (Mmul Pi (MofZ h)) P = MofZ (rotation op)) /\
        operation_within (2 * dtol) (lattice s) sites (rotation op) (translation op).
Proof. intros H s dtol fuel path b sites HF WF BIG GR FI SEP. now apply search_sound. Qed.
Print Assumptions C58_operations_are_symmetries.

(** C59. *)
Theorem C59_exact_symmetries_found :
  forall (H : HashOrd) (s : @structure RNum) (dtol : R) fuel path b,
    let sites := combine (frac_coords s) (species s) in
    (48 <= fuel)%nat -> List.length (frac_coords s) = List.length (species s) ->
    (0 < Z.of_nat (List.length (species s)) <= 65535)%Z -> grouped (species s) ->
    (forall k, (k < 3)%nat -> 2 / 1000000000 * Vnorm (Ccol (lattice s) k) <= dtol /\ 2 * dtol <= Vnorm (Ccol (lattice s) k) /\
                              0 < Vnorm (Ccol (lattice s) k)) ->
    sites_apart (4 * dtol) (lattice s) sites ->
    exists n c P Pi pg ops,
      am_get bravais_eqb b BRAVAIS_TO_HOLOHEDRY_NUM = Some n /\ bravais_centering b = Ok c /\
      @prim_trans_of RNum c = Some P /\ inverse_of P Pi /\ pg_from_number fuel (0%nat :: path) n = Ok pg /\
      @get_primitive_space_group_ops RNum H fuel path dtol s b = Ok ops /\
      forall h r t, In h (pg_operations pg) -> Mmul (Mmul Pi (MofZ h)) P = MofZ r -> exact_operation sites r t ->
        exists op k, In op ops /\ rotation op = r /\
          Rabs (vx (translation op) - vx t - IZR (vx k)) <= 1 / 1000000000 /\
          Rabs (vy (translation op) - vy t - IZR (vy k)) <= 1 / 1000000000 /\
          Rabs (vz (translation op) - vz t - IZR (vz k)) <= 1 / 1000000000.
Proof.
  intros H s dtol fuel path b sites HF WF BIG GR FI SEP. apply search_complete; auto; intros k Hk; apply FI; exact Hk.
Qed.
Print Assumptions C59_exact_symmetries_found.

(** Both apply to a cubic cell with two C atoms at the corner and the centre and an O atom at an edge centre, off the origin by 1/8. *)
Definition off_origin : @structure RNum :=
  Structure (N := RNum) (M 4 0 0 0 4 0 0 0 4) ["C"; "C"; "O"]%string []
    [V (1 / 8) (1 / 8) (1 / 8); V (5 / 8) (5 / 8) (5 / 8); V (5 / 8) (1 / 8) (1 / 8)].
Lemma off_origin_hypotheses :
  (0 < Z.of_nat (List.length (species off_origin)) <= 65535)%Z /\ grouped (species off_origin) /\
  (forall k, (k < 3)%nat -> 2 / 1000000000 * Vnorm (Ccol (lattice off_origin) k) <= 1 / 20 /\ 2 * (1 / 20) <= Vnorm (Ccol (lattice off_origin) k) /\
                            0 < Vnorm (Ccol (lattice off_origin) k)) /\
  sites_apart (4 * (1 / 20)) (lattice off_origin) (combine (frac_coords off_origin) (species off_origin)).
Proof.
  split; [cbn; lia|]. split; [|split].
  - intros i j k e Hij. cbn [off_origin species]. destruct i as [|[|[|i]]]; [| | |destruct i; discriminate];
      destruct k as [|[|[|k]]]; try (intros _; cbn; destruct k; discriminate); destruct j as [|[|[|j]]]; try lia; cbn; congruence.
  - intros k Hk. assert (E : Vnorm (Ccol (lattice off_origin) k) = 4).
    { unfold Vnorm. replace (Vdot _ _) with (4 * 4); [apply R_sqrt.sqrt_square; lra|]. destruct k as [|[|[|k]]]; unfold Vdot; cbn; try ring; lia. }
    rewrite E. lra.
  - assert (G : forall z : Z, 2 <= Rabs (4 * (1 / 2 + IZR z)) /\ 2 <= Rabs (4 * (- (1 / 2) + IZR z))).
    { intro z. destruct (Z_lt_le_dec z 0) as [Q|Q]; [|destruct (Z_lt_le_dec 0 z) as [Q'|Q']].
      - assert (IZR z <= -1) by (apply IZR_le; lia). split; rewrite Rabs_left by lra; lra.
      - assert (1 <= IZR z) by (apply IZR_le; lia). split; rewrite Rabs_pos_eq by lra; lra.
      - replace z with 0%Z by lia. split; [rewrite Rabs_pos_eq by lra|rewrite Rabs_left by lra]; lra. }
    intros i j x y e n N Hi Hj. cbn [off_origin frac_coords species lattice combine] in *.
    assert (B : 2 <= Vnorm (Mapp (M 4 0 0 0 4 0 0 0 4) (Vadd (Vsub x y) (VofZ n)))).
    { apply int_norm_big; [lra|]. left. unfold Mapp, Vadd, Vsub, VofZ. cbn [vx vy vz m11 m12 m13].
      destruct i as [|[|[|i]]]; cbn in Hi; try (destruct i; discriminate); injection Hi as <- <-;
        destruct j as [|[|[|j]]]; cbn in Hj; try (destruct j; discriminate); try lia; try discriminate Hj; injection Hj as <-; cbn [vx].
      - eapply Rle_trans; [apply (proj2 (G (vx n)))|]. right. f_equal. field.
      - eapply Rle_trans; [apply (proj1 (G (vx n)))|]. right. f_equal. field. }
    lra.
Qed.
Lemma quarter_turn : In (M 1 0 0 0 0 (-1) 0 1 0)%Z (pg_table 30).
Proof.
  assert (X : existsb (zmat_eqb (M 1 0 0 0 0 (-1) 0 1 0)%Z) (pg_table 30) = true) by (vm_compute; reflexivity).
  apply existsb_exists in X. destruct X as (m & Hm & X). apply zmat_eqb_spec in X. subst m. exact Hm.
Qed.
(** the screw-free quarter turn about the axis through the shifted corner is found whatever the hash order, with its translation *)
Example C58_C59_example : forall (H : HashOrd) path,
  exists ops op k, @get_primitive_space_group_ops RNum H 48 path (1 / 20) off_origin cP = Ok ops /\ In op ops /\
    rotation op = (M 1 0 0 0 0 (-1) 0 1 0)%Z /\ Rabs (vy (translation op) - 1 / 4 - IZR k) <= 1 / 1000000000 /\
    operation_within (2 * (1 / 20)) (lattice off_origin) (combine (frac_coords off_origin) (species off_origin)) (rotation op) (translation op).
Proof.
  intros H path. destruct off_origin_hypotheses as (B & G & F & S).
  destruct (C59_exact_symmetries_found H off_origin (1 / 20) 48 path cP (le_n _) eq_refl B G F S) as (n & c & P & Pi & pg & ops & E1 & E2 & E3 & E4 & E5 & E6 & E7).
  destruct (C58_operations_are_symmetries H off_origin (1 / 20) 48 path cP (le_n _) eq_refl B G (fun k Hk => proj1 (F k Hk)) S)
    as (n' & c' & P' & Pi' & pg' & ops' & _ & _ & _ & _ & _ & E6' & E7'). rewrite E6 in E6'. injection E6' as <-.
  change (am_get bravais_eqb cP BRAVAIS_TO_HOLOHEDRY_NUM) with (Some 30%Z) in E1. injection E1 as <-.
  cbn in E2. injection E2 as <-.
  assert (EP : P = Mid). { cbn in E3. injection E3 as <-. apply mat_ext; cbn; field. }
  subst P. assert (EPi : Pi = Mid) by (apply (inverse_unique Mid); [exact E4|split; apply Mmul_id_l]). subst Pi.
  destruct (pg_from_number_spec 48 (0%nat :: path) 30 (le_n _) ltac:(lia)) as (sy & g & o & od & Q1 & _ & _ & Q4 & _). pose proof quarter_turn as QT. set (t30 := pg_table 30) in *. clearbody t30.
  rewrite E5 in Q1. injection Q1 as ->.
  destruct (E7 (M 1 0 0 0 0 (-1) 0 1 0)%Z (M 1 0 0 0 0 (-1) 0 1 0)%Z (V 0 (1 / 4) 0)) as (op & k & Hop & R1 & _ & R3 & _).
  - cbn [pg_operations]. apply (Permutation_in _ Q4). exact QT.
  - rewrite Mmul_id_l. apply Mmul_id_r.
  - intros x e Hx. exists x. split; [exact Hx|]. cbn in Hx. destruct Hx as [Q|[Q|[Q|[]]]]; injection Q as <- <-.
    + exists (V 0 0 0)%Z. unfold act, Mapp, MofZ, Vadd, VofZ. cbn. f_equal; lra.
    + exists (V 0 (-1) 0)%Z. unfold act, Mapp, MofZ, Vadd, VofZ. cbn. f_equal; lra.
    + exists (V 0 0 0)%Z. unfold act, Mapp, MofZ, Vadd, VofZ. cbn. f_equal; lra.
  - exists ops, op, (vy k). split; [exact E6|]. split; [exact Hop|]. split; [exact R1|]. split; [exact R3|]. apply E7'. exact Hop.
Qed.
