(** Tables of /repo/src/data/pointgroup.rs.
    Generated by /verif/tools/gen_data.py from the source text; entries in source order. *)
From Coq Require Import ZArith List String.
From Verif Require Import Num Mat DataCore.
Import ListNotations.
Open Scope Z_scope.

(** pointgroup.rs 7-42 *)
Definition PG_NUM_TO_SYMBOL : list (Z * string) :=
  [(1, "1"%string);
   (2, "-1"%string);
   (3, "-3"%string);
   (4, "-3m"%string);
   (5, "-4"%string);
   (6, "-42m"%string);
   (7, "-43m"%string);
   (8, "-6"%string);
   (9, "-6m2"%string);
   (10, "2"%string);
   (11, "2/m"%string);
   (12, "222"%string);
   (13, "23"%string);
   (14, "3"%string);
   (15, "32"%string);
   (16, "3m"%string);
   (17, "4"%string);
   (18, "4/m"%string);
   (19, "4/mmm"%string);
   (20, "422"%string);
   (21, "432"%string);
   (22, "4mm"%string);
   (23, "6"%string);
   (24, "6/m"%string);
   (25, "6/mmm"%string);
   (26, "622"%string);
   (27, "6mm"%string);
   (28, "m"%string);
   (29, "m-3"%string);
   (30, "m-3m"%string);
   (31, "mm2"%string);
   (32, "mmm"%string)].

(** pointgroup.rs 45-63 *)
Definition BRAVAIS_TO_HOLOHEDRY_NUM : list (bravais * Z) :=
  [(aP, 2);
   (mP, 11);
   (mC, 11);
   (mI, 11);
   (oP, 32);
   (oC, 32);
   (oI, 32);
   (oF, 32);
   (tP, 19);
   (tI, 19);
   (hR, 4);
   (hP, 25);
   (cP, 30);
   (cI, 30);
   (cF, 30)].

(** pointgroup.rs 66-101 *)
Definition PG_NUM_TO_GENERATOR_MATRICES : list (Z * list Z) :=
  [(1, [16484]);
   (2, [16484; 3198]);
   (3, [16484; 7817; 3198]);
   (4, [16484; 7817; 12270; 3198]);
   (5, [16484; 11784]);
   (6, [16484; 3360; 11784]);
   (7, [16484; 10816; 11784; 12272]);
   (8, [16484; 16482; 7817]);
   (9, [16484; 16482; 7412; 7817]);
   (10, [16484; 3360]);
   (11, [16484; 3360; 3198]);
   (12, [16484; 3200; 3360]);
   (13, [16484; 3360; 10816]);
   (14, [16484; 7817]);
   (15, [16484; 7817; 12270]);
   (16, [16484; 7817; 7412]);
   (17, [16484; 7898]);
   (18, [16484; 7898; 3198]);
   (19, [16484; 3360; 7898; 3198]);
   (20, [16484; 3360; 7898]);
   (21, [16484; 10816; 7898]);
   (22, [16484; 7898; 16322]);
   (23, [16484; 3200; 7817]);
   (24, [16484; 3200; 3198; 7817]);
   (25, [16484; 3200; 12270; 7817; 3198]);
   (26, [16484; 3200; 12270; 7817]);
   (27, [16484; 3200; 7412; 7817]);
   (28, [16484; 16322]);
   (29, [16484; 3360; 10816; 3198]);
   (30, [16484; 10816; 7898; 3198; 12272]);
   (31, [16484; 3200; 16322]);
   (32, [16484; 3200; 3360; 3198])].
