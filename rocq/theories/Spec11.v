(** Cubic crystals on centred lattices: notions for the statements, independent of the model. *)
From Coq Require Import ZArith Reals List.
From Verif Require Import Mat Spec Spec10.
Import ListNotations.
Open Scope R_scope.

(** the standard primitive cell of the face-centred cubic lattice with cubic edge [a]: three vectors of length a / sqrt 2 with angles of 60 degrees *)
Definition face_centred_cell (a : R) (L : mat R) : Prop := Mmul (Mtr L) L = metric (a * a / 2) (a * a / 2) (a * a / 2) (a * a / 4) (a * a / 4) (a * a / 4).
(** of the body-centred: three vectors of length a * sqrt 3 / 2 with angles of 109.47 degrees *)
Definition body_centred_cell (a : R) (L : mat R) : Prop := Mmul (Mtr L) L = metric (3 * (a * a) / 4) (3 * (a * a) / 4) (3 * (a * a) / 4) (- (a * a) / 4) (- (a * a) / 4) (- (a * a) / 4).
(** F23, Fm-3, F432, F-43m, F-43c, Fm-3m, Fm-3c *)
Definition face_centred_groups : list Z := [196; 202; 209; 216; 219; 225; 226]%Z.
(** I23, Im-3, I432, I-43m, Im-3m *)
Definition body_centred_groups : list Z := [197; 204; 211; 217; 229]%Z.
(** Fd-3, F4_132, Fd-3m, Fd-3c: along half of the 48 axes of the lattice only *)
Definition diamond_groups : list Z := [203; 210; 227; 228]%Z.
(** I2_13, Ia-3, I4_132, I-43d, Ia-3d *)
Definition open_body_centred_groups : list Z := [199; 206; 214; 220; 230]%Z.
