(** C90 - C92: the Cartesian frame, mirror images, the unit of length *)
From Coq Require Import ZArith Reals String List Bool Lia Lra Psatz Permutation Sorting.Sorted.
From Verif Require Import Num Mat Utils SymmOp SpaceGroup Structure Reduce Analyzer RInst Spec Spec4 RFacts PStructure PNiggli PDelaunay PPrim PPrim2 PLattice PPrim3 PPrim4 PFrame Prop5 Prop13 Prop15.
Import ListNotations.
Open Scope R_scope.

(** What the Moore-Penrose inverse does under rotations: (q m)^+ = m^+ q^T. *)
Definition pinv_turns (P : @Pinv RNum) : Prop := forall q m, proper_rotation q -> @pinv RNum P (Mmul q m) = Mmul (@pinv RNum P m) (Mtr q).
Example cofactor_pinv_turns : pinv_turns cofactor_pinv.
Proof. exact adj_inv_turns. Qed.

(** C90: rotating the crystal as a whole. *)
Theorem C90_answer_ignores_frame :
  forall (P : @Pinv RNum) (HO : HashOrd) (q : mat R) fuel path (dtol : R) (s : @structure RNum),
    pinv_turns P -> proper_rotation q ->
    @get_space_group_info RNum P HO fuel path dtol (turn q s) = @get_space_group_info RNum P HO fuel path dtol s.
Proof. intros P HO q fuel path dtol s HP Q. apply f_info; auto. Qed.
Print Assumptions C90_answer_ignores_frame.
Theorem C90_cells_turn_along :
  forall (P : @Pinv RNum) (HO : HashOrd) (q : mat R) fuel path (dtol tol : R) (s : @structure RNum) full,
    pinv_turns P -> proper_rotation q ->
    @find_primitive_cell RNum P HO path dtol (turn q s) = rmap (turn q) (@find_primitive_cell RNum P HO path dtol s) /\
    @niggli_reduce RNum P dtol (turn q s) tol = rmap (turn q) (@niggli_reduce RNum P dtol s tol) /\
    @delaunay_reduce RNum P dtol (turn q s) full = rmap (turn q) (@delaunay_reduce RNum P dtol s full) /\
    @get_standard_conventional_structure RNum P HO fuel path dtol (turn q s) = rmap (turn q) (@get_standard_conventional_structure RNum P HO fuel path dtol s) /\
    @get_standard_primitive_structure RNum P HO fuel path dtol (turn q s) = rmap (turn q) (@get_standard_primitive_structure RNum P HO fuel path dtol s) /\
    (forall t, @apply_transformation RNum fuel (turn q s) t dtol = rmap (turn q) (@apply_transformation RNum fuel s t dtol)).
Proof.
  intros P HO q fuel path dtol tol s full HP Q. split; [apply f_primitive; auto|]. split; [apply f_niggli; auto|]. split; [apply f_delaunay; auto|].
  split; [apply f_std_conv; auto|]. split; [apply f_std_prim; auto|]. intro t. apply f_apply; auto.
Qed.
Print Assumptions C90_cells_turn_along.
(** a rotation by the angle of the 3-4-5 triangle *)
Definition turn345 : mat R := M (3 / 5) (- (4 / 5)) 0 (4 / 5) (3 / 5) 0 0 0 1.
Example C90_example : pinv_turns cofactor_pinv /\ proper_rotation turn345 /\ turn turn345 (two_atoms (box 4 5 6) (V 0 0 (1 / 2))) <> two_atoms (box 4 5 6) (V 0 0 (1 / 2)).
Proof.
  split; [exact cofactor_pinv_turns|]. split.
  - split; [apply (@mat_ext R)|]; unfold Mmul, Mtr, Mdet, turn345, Mid; cbn; field.
  - intro E. assert (X : m11 (lattice (turn turn345 (two_atoms (box 4 5 6) (V 0 0 (1 / 2))))) = 4) by (rewrite E; reflexivity). cbn in X. lra.
Qed.

(** C91: in a left-handed cell the C centring that C87 says is flattened is found *)
Lemma left_handed_face P (HO : HashOrd) path (dtol : R) (s : @structure RNum) :
  pinv_inverts P -> well_conditioned (lattice s) -> List.length (species s) = List.length (frac_coords s) ->
  species s <> [] -> (Z.of_nat (List.length (species s)) <= 65535)%Z -> 0 < dtol -> tolerance_small dtol (lattice s) -> Mdet (lattice s) < 0 ->
  let t := V (1 / 2) (1 / 2) 0 in
  only_translation (2 * dtol) (lattice s) (frac_coords s) (species s) t ->
  Vnorm (Mapp (lattice s) t) < Vnorm (Ccol (lattice s) 0) -> Vnorm (Ccol (lattice s) 0) < Vnorm (Ccol (lattice s) 1) -> Vnorm (Ccol (lattice s) 1) < Vnorm (Ccol (lattice s) 2) ->
  exists s', @find_primitive_cell RNum P HO path dtol s = Ok s' /\ Mdet (lattice s') = Rabs (Mdet (lattice s)) / 2 /\
    forall v, in_lattice (lattice s') v <-> extended_lattice (lattice s) t v.
Proof.
  intros HP HW WF HN HM H0 [HT1 HT2] HR t HI L1 L2 L3.
  assert (ET : t = halfv (V 1 1 0)%Z) by (unfold t, halfv; cbn [vx vy vz]; f_equal; lra).
  rewrite ET in *. clear ET t. destruct (clen_axes (lattice s)) as (A1 & A2 & A3).
  assert (HS : (-1 = 1 \/ -1 = -1)%Z /\ Mdet (lattice s) = Rabs (Mdet (lattice s)) * IZR (-1)) by (split; [now right|rewrite Rabs_left by lra; cbn; ring]).
  apply (found_case P HO path dtol s (V 1 1 0)%Z (-1) WF HN HM H0 HT2 HT1 (HP _ HW)) with
    (cond := dnf (V 1 1 0)%Z [[((V 1 1 0)%Z, dbl e1); (dbl e1, dbl e2); (dbl e2, dbl e3)]]); auto.
  - unfold half_dir; cbn [vx vy vz]; repeat (split; [first [left; reflexivity|right; reflexivity]|]); discriminate.
  - intros l Pl Sl. apply (dnf_sorted (lattice s)); [clear l Pl Sl|exact Pl|exact Sl]. clear HS HI. rewrite <- (clen_half (lattice s)), <- ?A1, <- ?A2, <- ?A3 in *.
    exists [((V 1 1 0)%Z, dbl e1); (dbl e1, dbl e2); (dbl e2, dbl e3)]. split; [cbn [In]; tauto|]. intros x y Hxy. cbn [In] in Hxy. repeat destruct Hxy as [Hxy|Hxy]; try (destruct Hxy; fail); injection Hxy as <- <-; (split; [cbn [In four]; tauto|]; split; [cbn [In four]; tauto|]); lra.
Qed.
(** C91: a mirror image is reduced to a cell of the same volume.  Refuted: the C-centred box 4 x 5 x 6 is flattened (C87), its mirror image is reduced. *)
Definition mirror : mat R := M (-1) 0 0 0 1 0 0 0 1.
Theorem C91_mirror_images_refuted :
  exists (q : mat R) (dtol : R) (s : @structure RNum), Mmul (Mtr q) q = Mid /\ well_conditioned (lattice s) /\ 0 < dtol /\ tolerance_small dtol (lattice s) /\
    forall (P : @Pinv RNum) (HO : HashOrd) (path : list nat), pinv_inverts P -> exists s' s'',
      @find_primitive_cell RNum P HO path dtol s = Ok s' /\ @find_primitive_cell RNum P HO path dtol (turn q s) = Ok s'' /\
      Mdet (lattice s') <> Mdet (lattice s'').
Proof.
  exists mirror, (1 / 20), (two_atoms (box 4 5 6) (V (1 / 2) (1 / 2) 0)).
  split; [apply (@mat_ext R); unfold Mmul, Mtr, mirror, Mid; cbn; ring|]. split; [apply box_wc; lra|]. split; [lra|].
  split; [small 120|]. intros P HO path HP.
  assert (OT : only_translation (2 * (1 / 20)) (box 4 5 6) [V 0 0 0; V (1 / 2) (1 / 2) 0] ["Po"; "Po"]%string (V (1 / 2) (1 / 2) 0)).
  { apply (two_atoms_translation _ (box 4 5 6) _ (V 1 1 0)%Z). unfold Vadd, VofZ. cbn. apply (@vec_ext R); cbn; lra. }
  destruct (C87_face_centring_singular P HO path (1 / 20) (two_atoms (box 4 5 6) (V (1 / 2) (1 / 2) 0))) as (s' & E1 & D1);
    [exact HP|apply box_wc; lra|reflexivity|discriminate|cbn; lia|lra|small 120|unfold Mdet; cbn; lra|exact OT|left; repeat split; shorter|].
  destruct (left_handed_face P HO path (1 / 20) (turn mirror (two_atoms (box 4 5 6) (V (1 / 2) (1 / 2) 0)))) as (s'' & E2 & D2 & _).
  - exact HP.
  - apply (wc_sq _ 1); [lra|]. intros [x y z]. unfold Vdot, Mapp, turn, mirror, box, Mmul. cbn. pose proof (Rle_0_sqr x). pose proof (Rle_0_sqr y). pose proof (Rle_0_sqr z). unfold Rsqr in *. lra.
  - reflexivity.
  - discriminate.
  - cbn. lia.
  - lra.
  - split; [replace (Rabs _) with 120 by (unfold Mdet; cbn; rewrite Rabs_left by lra; lra); lra|].
    intros k Hk. replace (Rabs _) with 120 by (unfold Mdet; cbn; rewrite Rabs_left by lra; lra).
    destruct k as [|[|[|k]]]; [..|lia]; (split; [apply Vnorm_above; [lra|vdots; lra]|]);
    match goal with |- 4 * ?d * Vnorm ?v < _ => assert (Vnorm v < 10) by (apply Vnorm_below; [lra|vdots; lra]); lra end.
  - unfold Mdet. cbn. lra.
  - apply (two_atoms_translation _ _ _ (V 1 1 0)%Z). unfold Vadd, VofZ. cbn. apply (@vec_ext R); cbn; lra.
  - shorter.
  - shorter.
  - shorter.
  - exists s', s''. split; [exact E1|]. split; [exact E2|]. rewrite D1, D2. unfold Mdet. cbn. rewrite Rabs_left by lra. lra.
Qed.
Print Assumptions C91_mirror_images_refuted.

(** C92: the answer does not depend on the unit of length (crystal and tolerance multiplied by the same number).
    Refuted: niggli_reduce and get_lattice_character compare squared lengths with tol * (volume)^(1/3). *)
Definition scaled (k : R) (s : @structure RNum) : @structure RNum :=
  Structure (N := RNum) (Mscal k (lattice s)) (species s) (map (Vscal k) (coords s)) (frac_coords s).
Definition nearly_cubic : @structure RNum := Structure (N := RNum) (M 2 0 0 0 2 0 0 0 (2 + 2 / 1000000)) ["Po"%string] [V 0 0 0] [V 0 0 0].
Theorem C92_unit_of_length_refuted :
  exists (k dtol : R) (s : @structure RNum), 0 < k /\ 0 < dtol /\
    forall (P : @Pinv RNum) (HO : HashOrd) fuel path, pinv_inverts P -> (48 <= fuel)%nat -> exists n sym ops n' sym' ops',
      @get_space_group_info RNum P HO fuel path dtol s = Ok (n, sym, ops) /\
      @get_space_group_info RNum P HO fuel path (k * dtol) (scaled k s) = Ok (n', sym', ops') /\ n = 221%Z /\ n' = 123%Z.
Proof.
  exists 100, (1 / 10000), nearly_cubic. split; [lra|]. split; [lra|]. intros P HO fuel path HP HF.
  destruct (C83_orthogonal_box P HO (1 / 10000) 2 2 (2 + 2 / 1000000) fuel path nearly_cubic "Po"%string (V 0 0 0)%Z HP HF) as (x & y & z & n & sym & ops & PM & OR & E & CS & _); try lra; try reflexivity.
  destruct (C83_orthogonal_box P HO (100 * (1 / 10000)) 200 200 (200 + 2 / 10000) fuel path (scaled 100 nearly_cubic) "Po"%string (V 0 0 0)%Z HP HF) as (x' & y' & z' & n' & sym' & ops' & PM' & OR' & E' & CS' & _); try lra; try reflexivity.
  { unfold scaled, nearly_cubic, Mscal. cbn. f_equal; field. }
  exists n, sym, ops, n', sym', ops'. split; [exact E|]. split; [exact E'|].
  destruct (sorted_box 2 (2 + 2 / 1000000) x y z) as (-> & -> & ->); [lra|exact PM|lra|].
  destruct (sorted_box 200 (200 + 2 / 10000) x' y' z') as (-> & -> & ->); [lra|exact PM'|lra|].
  assert (B1 : 1 <= Rpower (2 * 2 * (2 + 2 / 1000000)) (1 / 3)) by (pose proof (Rle_Rpower_l 1 (2 * 2 * (2 + 2 / 1000000)) (1 / 3)) as G; rewrite (rpower_1 (1 / 3)) in G; lra).
  assert (B2 : Rpower (200 * 200 * (200 + 2 / 10000)) (1 / 3) <= 1000).
  { apply Rle_trans with (Rpower (1000 * (1000 * 1000)) (1 / 3)); [apply Rle_Rpower_l; lra|].
    replace (1000 * (1000 * 1000)) with (Rpower 1000 3) by (replace 3 with (INR 3) by (cbn; lra); rewrite Rpower_pow by lra; cbn; lra).
    rewrite Rpower_mult. replace (3 * (1 / 3)) with 1 by lra. rewrite Rpower_1; lra. }
  assert (B3 : 0 < Rpower (200 * 200 * (200 + 2 / 10000)) (1 / 3)) by apply exp_pos.
  cbv zeta in CS, CS'. split.
  - destruct CS as [(-> & _)|[(_ & _ & _ & C & _)|(_ & _ & _ & C & _)]]; [reflexivity| |]; exfalso; lra.
  - destruct CS' as [(_ & _ & _ & C)|[(-> & _)|(_ & _ & _ & C & _)]]; [|reflexivity|]; exfalso; lra.
Qed.
Print Assumptions C92_unit_of_length_refuted.
