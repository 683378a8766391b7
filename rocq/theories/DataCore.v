(** Enumerations and tables of /repo/src/data/core.rs.
    Generated by /verif/tools/gen_data.py from the source text; entries in source order. *)
From Coq Require Import ZArith List String.
From Verif Require Import Num Mat.
Import ListNotations.
Open Scope Z_scope.

(** core.rs 11-20 *)
Inductive centering := CP | CA | CB | CC | CI | CF | CR.

(** core.rs 53-62 *)
Inductive lattice_system := Triclinic | Monoclinic | Orthorhombic | Tetragonal | Rhombohedral | Hexagonal | Cubic.

(** core.rs 102-120 *)
Inductive bravais := aP | mP | mC | mI | oP | oC | oI | oF | tP | tI | hR | hP | cP | cI | cF.

(** core.rs 22-34: Display for Centering *)
Definition centering_to_string (c : centering) : string :=
  match c with
  | CP => "P"
  | CA => "A"
  | CB => "B"
  | CC => "C"
  | CI => "I"
  | CF => "F"
  | CR => "R"
  end.

(** core.rs 36-51: FromStr for Centering *)
Definition centering_table : list (string * centering) :=
  [("P"%string, CP);
   ("A"%string, CA);
   ("B"%string, CB);
   ("C"%string, CC);
   ("I"%string, CI);
   ("F"%string, CF);
   ("R"%string, CR)].

(** core.rs 64-76: Display for LatticeSystem *)
Definition lattice_system_to_string (l : lattice_system) : string :=
  match l with
  | Triclinic => "Triclinic"
  | Monoclinic => "Monoclinic"
  | Orthorhombic => "Orthorhombic"
  | Tetragonal => "Tetragonal"
  | Rhombohedral => "Rhombohedral"
  | Hexagonal => "Hexagonal"
  | Cubic => "Cubic"
  end.

(** core.rs 78-100: FromStr for LatticeSystem *)
Definition lattice_system_table : list (string * lattice_system) :=
  [("Triclinic"%string, Triclinic);
   ("Monoclinic"%string, Monoclinic);
   ("Orthorhombic"%string, Orthorhombic);
   ("Tetragonal"%string, Tetragonal);
   ("Rhombohedral"%string, Rhombohedral);
   ("Hexagonal"%string, Hexagonal);
   ("Cubic"%string, Cubic);
   ("a"%string, Triclinic);
   ("m"%string, Monoclinic);
   ("o"%string, Orthorhombic);
   ("t"%string, Tetragonal);
   ("r"%string, Rhombohedral);
   ("h"%string, Hexagonal);
   ("c"%string, Cubic)].

(** core.rs 136-156: Display for BravaisType *)
Definition bravais_to_string (b : bravais) : string :=
  match b with
  | aP => "aP"
  | mP => "mP"
  | mC => "mC"
  | mI => "mI"
  | oP => "oP"
  | oC => "oC"
  | oI => "oI"
  | oF => "oF"
  | tP => "tP"
  | tI => "tI"
  | hR => "hR"
  | hP => "hP"
  | cP => "cP"
  | cI => "cI"
  | cF => "cF"
  end.

(** core.rs 160-211 LATTICE_CHAR_TO_BRAVAIS *)
Definition LATTICE_CHAR_TO_BRAVAIS : list (Z * bravais) :=
  [(1, cF);
   (2, hR);
   (3, cP);
   (5, cI);
   (4, hR);
   (6, tI);
   (7, tI);
   (8, oI);
   (9, hR);
   (10, mC);
   (11, tP);
   (12, hP);
   (13, oC);
   (15, tI);
   (16, oF);
   (14, mC);
   (17, mC);
   (18, tI);
   (19, oI);
   (20, mC);
   (21, tP);
   (22, hP);
   (23, oC);
   (24, hR);
   (25, mC);
   (26, oF);
   (27, mC);
   (28, mC);
   (29, mC);
   (30, mC);
   (31, aP);
   (32, oP);
   (40, oC);
   (35, mP);
   (36, oC);
   (33, mP);
   (38, oC);
   (34, mP);
   (42, oI);
   (41, mC);
   (37, mC);
   (39, mC);
   (43, mI);
   (44, aP)].

(** core.rs 214-268 LATTICE_CHAR_TO_CONV_TRANS *)
Definition LATTICE_CHAR_TO_CONV_TRANS : list (Z * mat Z) :=
  [(1, M 1 (-1) 1 1 1 (-1) (-1) 1 1);
   (2, M 1 (-1) 0 (-1) 0 1 (-1) (-1) (-1));
   (3, zmat_id);
   (5, M 1 0 1 1 1 0 0 1 1);
   (4, M 1 (-1) 0 (-1) 0 1 (-1) (-1) (-1));
   (6, M 0 1 1 1 0 1 1 1 0);
   (7, M 1 0 1 1 1 0 0 1 1);
   (8, M (-1) (-1) 0 (-1) 0 (-1) 0 (-1) (-1));
   (9, M 1 0 0 (-1) 1 0 (-1) (-1) 3);
   (10, M 1 1 0 1 (-1) 0 0 0 (-1));
   (11, zmat_id);
   (12, zmat_id);
   (13, M 1 1 0 (-1) 1 0 0 0 1);
   (15, M 1 0 0 0 1 0 1 1 2);
   (16, M (-1) (-1) 0 1 (-1) 0 1 1 2);
   (14, M 1 1 0 (-1) 1 0 0 0 1);
   (17, M 1 (-1) 0 1 1 0 (-1) 0 (-1));
   (18, M 0 (-1) 1 1 (-1) (-1) 1 0 0);
   (19, M (-1) 0 0 0 (-1) 1 (-1) 1 1);
   (20, M 0 1 1 0 1 (-1) (-1) 0 0);
   (21, M 0 1 0 0 0 1 1 0 0);
   (22, M 0 1 0 0 0 1 1 0 0);
   (23, M 0 1 1 0 (-1) 1 1 0 0);
   (24, M 1 2 1 0 (-1) 1 1 0 0);
   (25, M 0 1 1 0 (-1) 1 1 0 0);
   (26, M 1 0 0 (-1) 2 0 (-1) 0 2);
   (27, M (-1) 2 0 (-1) 0 0 0 (-1) 1);
   (28, M (-1) 0 0 (-1) 0 2 0 1 0);
   (29, M 1 0 0 1 (-2) 0 0 0 (-1));
   (30, M 0 1 0 0 1 (-2) (-1) 0 0);
   (31, zmat_id);
   (32, zmat_id);
   (40, M 0 (-1) 0 0 1 2 (-1) 0 0);
   (35, M 0 (-1) 0 (-1) 0 0 0 0 (-1));
   (36, M 1 0 0 (-1) 0 (-2) 0 1 0);
   (33, zmat_id);
   (38, M (-1) 0 0 1 2 0 0 0 (-1));
   (34, M (-1) 0 0 0 0 (-1) 0 (-1) 0);
   (42, M (-1) 0 0 0 (-1) 0 1 1 2);
   (41, M 0 (-1) (-2) 0 (-1) 0 (-1) 0 0);
   (37, M 1 0 2 1 0 0 0 1 0);
   (39, M (-1) (-2) 0 (-1) 0 0 0 0 (-1));
   (43, M (-1) 0 0 (-1) (-1) (-2) 0 (-1) 0);
   (44, zmat_id)].

(** core.rs 271-303 CENTERING_TO_PRIM_TRANS: Matrix4<isize>, of which the code only ever reads the
    upper left 3x3 block and m44; kept here as that pair. *)
Definition CENTERING_TO_PRIM_TRANS : list (centering * (mat Z * Z)) :=
  [(CP, (M 1 0 0 0 1 0 0 0 1, 1));
   (CA, (M 2 0 0 0 1 (-1) 0 1 1, 2));
   (CB, (M 1 0 (-1) 0 2 0 1 0 1, 2));
   (CC, (M 1 1 0 (-1) 1 0 0 0 2, 2));
   (CI, (M (-1) 1 1 1 (-1) 1 1 1 (-1), 2));
   (CF, (M 0 1 1 1 0 1 1 1 0, 2));
   (CR, (M 2 (-1) (-1) 1 1 (-2) 1 1 1, 3))].
