(** Crystals with one kind of atom on the points of a lattice: notions for the statements about centred and doubled cells, independent of the model. *)
From Coq Require Import ZArith Reals List Permutation.
From Verif Require Import Mat Spec.
Import ListNotations.
Open Scope R_scope.

(** a cube of edge [a], in any orientation and of either handedness *)
Definition cubic_cell (a : R) (L : mat R) : Prop := Mmul (Mtr L) L = Mscal (a * a) Mid.
(** the fractional positions [fc] are the points [pts], in any order, each up to whole periods *)
Definition occupied (pts fc : list (vec R)) : Prop :=
  exists ys, Permutation pts ys /\ Forall2 (fun x y => exists n, x = Vadd y (VofZ n)) fc ys.
(** equal to within [d], up to whole periods *)
Definition modulo_within (d : R) (u v : vec R) : Prop := exists n : vec Z,
  Rabs (vx u - vx v - IZR (vx n)) <= d /\ Rabs (vy u - vy v - IZR (vy n)) <= d /\ Rabs (vz u - vz v - IZR (vz n)) <= d.
(** the integer matrix [r], in a cubic cell, is a rotation or rotoinversion of the cube *)
Definition of_the_cube (r : mat Z) : Prop := Mmul (Mtr (MofZ r)) (MofZ r) = Mid.
(** the operations are the 48 of the cube, each combined with each of the translations [pts] (to 1e-8) *)
Definition cube_operations (pts : list (vec R)) (ops : list (mat Z * vec R)) : Prop :=
  List.length ops = (48 * List.length pts)%nat /\
  (forall r t, In (r, t) ops -> of_the_cube r /\ exists p, In p pts /\ modulo_within (1 / 100000000) t p) /\
  (forall r p, of_the_cube r -> In p pts -> exists t, In (r, t) ops /\ modulo_within (1 / 100000000) t p).
