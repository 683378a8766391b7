(** Hexagonal crystals: notions for the statements, independent of the model. *)
From Coq Require Import ZArith Reals.
From Verif Require Import Mat Spec.
Open Scope R_scope.

(** the first two basis vectors have length [a] and make an angle of 120 degrees, the third has length [c] and is perpendicular to them; any orientation and either handedness *)
Definition hexagonal_cell (a c : R) (L : mat R) : Prop := Mmul (Mtr L) L = M (a * a) (- (a * a) / 2) 0 (- (a * a) / 2) (a * a) 0 0 0 (c * c).
(** the columns of [u] are another basis of the same lattice, each a sum of some of the basis vectors and their opposites *)
Definition near_axes (u : mat Z) : Prop := entries_within (-1) 1 u /\ (ZMdet u = 1%Z \/ ZMdet u = (-1)%Z).
(** the sum of the absolute values of the entries *)
Definition skewness (u : mat Z) : Z :=
  (Z.abs (m11 u) + Z.abs (m12 u) + Z.abs (m13 u) + Z.abs (m21 u) + Z.abs (m22 u) + Z.abs (m23 u) + Z.abs (m31 u) + Z.abs (m32 u) + Z.abs (m33 u))%Z.
(** hexagonal cells are distinguished from others by [a] and [c] being different at the tolerance the code uses *)
Definition told_apart (a c : R) (L : mat R) : Prop := 1 / 100000 * Rpower (Rabs (Mdet L)) (1 / 3) < Rabs (a * a - c * c).
