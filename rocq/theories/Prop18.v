(** Cubic elements: one kind of atom on the points of a cubic lattice, described in the conventional or in a doubled cell. *)
From Coq Require Import ZArith Reals String List Bool Lia Lra Permutation.
From Verif Require Import Num Mat DataCore SymmOp SpaceGroup Structure Analyzer RInst Spec Spec5 PPrim5 PStructure Prop5 PNiggli2 PEnd8 PEnd9 PEnd10.
Import ListNotations.
Open Scope R_scope.

(** C95.  The body-centred cubic crystal (two atoms in the cube). *)
Theorem C95_body_centred_cubic :
  forall (P : @Pinv RNum) (HO : HashOrd) fuel path (dtol a : R) (s : @structure RNum) (e : string),
    pinv_inverts P -> (48 <= fuel)%nat -> 2 <= a <= 1000 -> 1 / 100000 <= dtol <= 1 / 24 -> cubic_cell a (lattice s) ->
    let points := [V 0 0 0; V (1 / 2) (1 / 2) (1 / 2)] in
    occupied points (frac_coords s) -> species s = [e; e] ->
    exists ops, @get_space_group_info RNum P HO fuel path dtol s = Ok (229%Z, "Im-3m"%string, ops) /\
      List.length ops = 96%nat /\ cube_operations points (map (fun op => (@rotation RNum op, @translation RNum op)) ops).
Proof.
  intros P HO fuel path dtol a s e HP HF Ha Hd HC points HO2 ES.
  destruct (cubic_run P HO fuel path dtol a s e bcc_dirs (Z6 3 3 3 (-1) (-1) (-1)) 5 cI 2 3 2 229 "Im-3m" points HP HF Ha Hd HC HO2) as (ops & O1 & O2);
    [exact ES|unfold points; cbn; unfold fracN; cbn; repeat f_equal; lra|exact bcc_checked|lia|vm_compute; reflexivity|reflexivity|exact char_bcc|reflexivity|].
  exists ops. split; [exact O1|]. split; [|exact O2]. destruct O2 as (O2 & _). now rewrite map_length in O2.
Qed.
Print Assumptions C95_body_centred_cubic.

(** C96.  The face-centred cubic crystal (four atoms in the cube). *)
Theorem C96_face_centred_cubic :
  forall (P : @Pinv RNum) (HO : HashOrd) fuel path (dtol a : R) (s : @structure RNum) (e : string),
    pinv_inverts P -> (48 <= fuel)%nat -> 2 <= a <= 1000 -> 1 / 100000 <= dtol <= 1 / 24 -> cubic_cell a (lattice s) ->
    let points := [V 0 0 0; V 0 (1 / 2) (1 / 2); V (1 / 2) 0 (1 / 2); V (1 / 2) (1 / 2) 0] in
    occupied points (frac_coords s) -> species s = [e; e; e; e] ->
    exists ops, @get_space_group_info RNum P HO fuel path dtol s = Ok (225%Z, "Fm-3m"%string, ops) /\
      List.length ops = 192%nat /\ cube_operations points (map (fun op => (@rotation RNum op, @translation RNum op)) ops).
Proof.
  intros P HO fuel path dtol a s e HP HF Ha Hd HC points HO2 ES.
  destruct (cubic_run P HO fuel path dtol a s e fcc_dirs (Z6 2 2 2 1 1 1) 1 cF 4 2 2 225 "Fm-3m" points HP HF Ha Hd HC HO2) as (ops & O1 & O2);
    [exact ES|unfold points; cbn; unfold fracN; cbn; repeat f_equal; lra|exact fcc_checked|lia|vm_compute; reflexivity|reflexivity|exact char_fcc|reflexivity|].
  exists ops. split; [exact O1|]. split; [|exact O2]. destruct O2 as (O2 & _). now rewrite map_length in O2.
Qed.
Print Assumptions C96_face_centred_cubic.

(** C97.  The simple cubic crystal in the cell doubled along all three axes (eight atoms). *)
Theorem C97_doubled_cube :
  forall (P : @Pinv RNum) (HO : HashOrd) fuel path (dtol a : R) (s : @structure RNum) (e : string),
    pinv_inverts P -> (48 <= fuel)%nat -> 2 <= a <= 1000 -> 1 / 100000 <= dtol <= 1 / 24 -> cubic_cell a (lattice s) ->
    let points := [V 0 0 0; V (1 / 2) 0 0; V 0 (1 / 2) 0; V 0 0 (1 / 2); V 0 (1 / 2) (1 / 2); V (1 / 2) 0 (1 / 2); V (1 / 2) (1 / 2) 0; V (1 / 2) (1 / 2) (1 / 2)] in
    occupied points (frac_coords s) -> species s = repeat e 8 ->
    exists ops, @get_space_group_info RNum P HO fuel path dtol s = Ok (221%Z, "Pm-3m"%string, ops) /\
      List.length ops = 384%nat /\ cube_operations points (map (fun op => (@rotation RNum op, @translation RNum op)) ops).
Proof.
  intros P HO fuel path dtol a s e HP HF Ha Hd HC points HO2 ES.
  destruct (cubic_run P HO fuel path dtol a s e double_dirs (Z6 1 1 1 0 0 0) 3 cP 8 1 2 221 "Pm-3m" points HP HF Ha Hd HC HO2) as (ops & O1 & O2);
    [exact ES|unfold points; cbn; unfold fracN; cbn; repeat f_equal; lra|exact double_checked|lia|vm_compute; reflexivity|reflexivity|exact char_sc|reflexivity|].
  exists ops. split; [exact O1|]. split; [|exact O2]. destruct O2 as (O2 & _). now rewrite map_length in O2.
Qed.
Print Assumptions C97_doubled_cube.

(** Examples: iron (a = 2.87, atoms listed in either order and in neighbouring cells), copper in a rotated, left-handed frame, polonium in the doubled cell. *)
Definition iron : @structure RNum := Structure (N := RNum) (M (287 / 100) 0 0 0 (287 / 100) 0 0 0 (287 / 100)) ["Fe"%string; "Fe"%string] [] [V (1 / 2) (3 / 2) (- (1 / 2)); V 1 0 0].
Definition copper : @structure RNum := Structure (N := RNum) (M (18 / 10) (24 / 10) 0 (24 / 10) (- 18 / 10) 0 0 0 3) (repeat "Cu"%string 4) []
  [V 0 0 0; V 0 (1 / 2) (1 / 2); V (1 / 2) 0 (1 / 2); V (1 / 2) (1 / 2) 0].
Definition polonium : @structure RNum := Structure (N := RNum) (M 6 0 0 0 6 0 0 0 6) (repeat "Po"%string 8) []
  [V 0 0 0; V (1 / 2) 0 0; V 0 (1 / 2) 0; V 0 0 (1 / 2); V 0 (1 / 2) (1 / 2); V (1 / 2) 0 (1 / 2); V (1 / 2) (1 / 2) 0; V (1 / 2) (1 / 2) (1 / 2)].
Lemma occupied_self pts : occupied pts pts.
Proof.
  exists pts. split; [apply Permutation_refl|]. induction pts as [|[x y z] pts IH]; constructor; [|exact IH]. exists (V 0 0 0)%Z. unfold Vadd, VofZ. cbn. f_equal; lra.
Qed.
Example C95_example : forall (HO : HashOrd) path, exists ops,
  @get_space_group_info RNum cofactor_pinv HO 48 path (1 / 1000) iron = Ok (229%Z, "Im-3m"%string, ops) /\ List.length ops = 96%nat.
Proof.
  intros HO path. destruct (C95_body_centred_cubic cofactor_pinv HO 48 path (1 / 1000) (287 / 100) iron "Fe") as (ops & O1 & O2 & _); [exact cofactor_pinv_ok|lia|lra|lra| | |reflexivity|eauto].
  - unfold cubic_cell, iron, Mscal, Mid, Mmul, Mtr, mmap. cbn. f_equal; lra.
  - exists [V (1 / 2) (1 / 2) (1 / 2); V 0 0 0]. split; [apply perm_swap|]. repeat constructor.
    + exists (V 0 1 (-1))%Z. unfold Vadd, VofZ. cbn. f_equal; lra.
    + exists (V 1 0 0)%Z. unfold Vadd, VofZ. cbn. f_equal; lra.
Qed.
Example C96_example : forall (HO : HashOrd) path, exists ops,
  @get_space_group_info RNum cofactor_pinv HO 48 path (1 / 100) copper = Ok (225%Z, "Fm-3m"%string, ops) /\ List.length ops = 192%nat.
Proof.
  intros HO path. destruct (C96_face_centred_cubic cofactor_pinv HO 48 path (1 / 100) 3 copper "Cu") as (ops & O1 & O2 & _); [exact cofactor_pinv_ok|lia|lra|lra| |apply occupied_self|reflexivity|eauto].
  unfold cubic_cell, copper, Mscal, Mid, Mmul, Mtr, mmap. cbn. f_equal; lra.
Qed.
Example C97_example : forall (HO : HashOrd) path, exists ops,
  @get_space_group_info RNum cofactor_pinv HO 48 path (1 / 100) polonium = Ok (221%Z, "Pm-3m"%string, ops) /\ List.length ops = 384%nat.
Proof.
  intros HO path. destruct (C97_doubled_cube cofactor_pinv HO 48 path (1 / 100) 6 polonium "Po") as (ops & O1 & O2 & _); [exact cofactor_pinv_ok|lia|lra|lra| |apply occupied_self|reflexivity|eauto].
  unfold cubic_cell, polonium, Mscal, Mid, Mmul, Mtr, mmap. cbn. f_equal; lra.
Qed.
