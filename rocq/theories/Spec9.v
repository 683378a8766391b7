(** One lattice of each of the 44 lattice characters: notions for the statements, independent of the model. *)
From Coq Require Import ZArith Reals String Ascii List.
From Verif Require Import Mat Spec.
Import ListNotations.
Open Scope R_scope.

(** number of the character, symbol of the Bravais type, and a metric a.a, b.b, c.c, b.c, a.c, a.b of that character (International Tables for Crystallography A, table of the 44 lattice characters) *)
Definition character_metrics : list (Z * string * (Z * Z * Z * Z * Z * Z)) :=
  [(1, "cF"%string, (2, 2, 2, 1, 1, 1));
   (2, "hR"%string, (3, 3, 3, 1, 1, 1));
   (3, "cP"%string, (1, 1, 1, 0, 0, 0));
   (4, "hR"%string, (4, 4, 4, (-1), (-1), (-1)));
   (5, "cI"%string, (3, 3, 3, (-1), (-1), (-1)));
   (6, "tI"%string, (7, 7, 7, (-2), (-2), (-3)));
   (7, "tI"%string, (5, 5, 5, (-1), (-2), (-2)));
   (8, "oI"%string, (9, 9, 9, (-2), (-3), (-4)));
   (9, "hR"%string, (2, 2, 3, 1, 1, 1));
   (10, "mC"%string, (3, 3, 4, 1, 1, 1));
   (11, "tP"%string, (1, 1, 2, 0, 0, 0));
   (12, "hP"%string, (2, 2, 3, 0, 0, (-1)));
   (13, "oC"%string, (3, 3, 4, 0, 0, (-1)));
   (14, "mC"%string, (3, 3, 4, (-1), (-1), 0));
   (15, "tI"%string, (2, 2, 3, (-1), (-1), 0));
   (16, "oF"%string, (3, 3, 4, (-1), (-1), (-1)));
   (17, "mC"%string, (5, 5, 6, (-1), (-2), (-2)));
   (18, "tI"%string, (4, 5, 5, 1, 2, 2));
   (19, "oI"%string, (2, 3, 3, 1, 1, 1));
   (20, "mC"%string, (3, 4, 4, 1, 1, 1));
   (21, "tP"%string, (1, 2, 2, 0, 0, 0));
   (22, "hP"%string, (1, 2, 2, (-1), 0, 0));
   (23, "oC"%string, (1, 3, 3, (-1), 0, 0));
   (24, "hR"%string, (3, 5, 5, (-2), (-1), (-1)));
   (25, "mC"%string, (3, 4, 4, (-1), (-1), (-1)));
   (26, "oF"%string, (4, 5, 6, 1, 2, 2));
   (27, "mC"%string, (2, 3, 4, 1, 1, 1));
   (28, "mC"%string, (6, 7, 8, 1, 3, 2));
   (29, "mC"%string, (6, 7, 8, 1, 2, 3));
   (30, "mC"%string, (4, 6, 7, 3, 1, 2));
   (31, "aP"%string, (3, 4, 5, 1, 1, 1));
   (32, "oP"%string, (1, 2, 3, 0, 0, 0));
   (33, "mP"%string, (3, 4, 5, 0, (-1), 0));
   (34, "mP"%string, (3, 4, 5, 0, 0, (-1)));
   (35, "mP"%string, (1, 3, 4, (-1), 0, 0));
   (36, "oC"%string, (2, 3, 4, 0, (-1), 0));
   (37, "mC"%string, (2, 3, 4, (-1), (-1), 0));
   (38, "oC"%string, (2, 3, 4, 0, 0, (-1)));
   (39, "mC"%string, (2, 3, 4, (-1), 0, (-1)));
   (40, "oC"%string, (1, 2, 3, (-1), 0, 0));
   (41, "mC"%string, (3, 4, 5, (-2), (-1), 0));
   (42, "oI"%string, (2, 4, 5, (-2), (-1), 0));
   (43, "mI"%string, (3, 5, 6, (-2), (-1), (-1)));
   (44, "aP"%string, (3, 4, 5, (-1), (-1), (-1)))]%Z.
(** the metric of the lattice is [u] times the given one; any orientation and either handedness *)
Definition metric_is (u : R) (g : Z * Z * Z * Z * Z * Z) (L : mat R) : Prop :=
  let '(a, b, c, d, e, f) := g in
  Mmul (Mtr L) L = M (u * IZR a) (u * IZR f) (u * IZR e) (u * IZR f) (u * IZR b) (u * IZR d) (u * IZR e) (u * IZR d) (u * IZR c).
(** the number of isometries of a lattice of the Bravais type *)
Definition holohedry_order (bravais : string) : nat :=
  if String.eqb bravais "hR" then 12%nat else
  match String.get 0 bravais with
  | Some "a"%char => 2%nat | Some "m"%char => 4%nat | Some "o"%char => 8%nat | Some "t"%char => 16%nat | Some "h"%char => 24%nat | Some "c"%char => 48%nat | _ => 0%nat
  end.
