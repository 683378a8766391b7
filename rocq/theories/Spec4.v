(** Crystals with one inner translation: notions for the statements about find_primitive_cell, independent of the model. *)
From Coq Require Import ZArith Reals List String.
From Verif Require Import Mat Spec.
Import ListNotations.
Open Scope R_scope.

(** [t] maps the sites (fractional positions [fc], species [sp]) onto themselves exactly, and, up to lattice vectors, no other
    difference of two like atoms is a translation of the crystal even within [tol] *)
Definition only_translation (tol : R) (L : mat R) (fc : list (vec R)) (sp : list string) (t : vec R) : Prop :=
  (forall x e, In (x, e) (combine fc sp) -> exists y n, In (y, e) (combine fc sp) /\ Vadd x t = Vadd y (VofZ n)) /\
  (forall i j x y e, i <> j -> nth_error fc i = Some x -> nth_error fc j = Some y -> nth_error sp i = Some e -> nth_error sp j = Some e ->
     translation_within tol L (combine fc sp) (Vsub x y) -> exists n, Vsub x y = Vadd t (VofZ n)).
(** the lattice generated by the columns of [L] and the vector with fractional coordinates [t] *)
Definition extended_lattice (L : mat R) (t v : vec R) : Prop := exists (n : vec Z) (k : Z), v = Mapp L (Vadd (VofZ n) (Vscal (IZR k) t)).
(** the tolerance is small against the cell *)
Definition tolerance_small (tol : R) (L : mat R) : Prop :=
  8 * tol < Rabs (Mdet L) /\ forall k, (k < 3)%nat -> 2 * tol < Vnorm (Ccol L k) /\ 4 * tol * Vnorm (Ccol L k) < Rabs (Mdet L).
(** ** Rotations of the Cartesian frame *)
Definition proper_rotation (q : mat R) : Prop := Mmul (Mtr q) q = Mid /\ Mdet q = 1.

(** ** Operations of a sublattice *)
(** {r'|t'}, written in the basis T of a sublattice, is {r|t} followed by the lattice vector [m] (up to the sublattice) *)
Definition moved_operation (T : mat Z) (r : mat Z) (t : vec R) (m : vec Z) (r' : mat Z) (t' : vec R) : Prop :=
  exists n : vec Z, forall x : vec R,
    Mapp (MofZ T) (act r' t' x) = Vadd (Vadd (act r t (Mapp (MofZ T) x)) (VofZ m)) (Mapp (MofZ T) (VofZ n)).
