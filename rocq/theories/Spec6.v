(** Crystals with several atoms in a rectangular cell: notions for the statements, independent of the model. *)
From Coq Require Import ZArith Reals String List.
From Verif Require Import Mat DataCore Spec Spec3 Spec5.
Import ListNotations.
Open Scope R_scope.

(** the basis vectors are at right angles and have lengths [a], [b], [c]; any orientation and either handedness *)
Definition box_cell (a b c : R) (L : mat R) : Prop := Mmul (Mtr L) L = M (a * a) 0 0 0 (b * b) 0 0 0 (c * c).
(** the edges of the box are named as the settings of the tables name them, and edges that are not equal are told apart at [eps]:
    a cube; a square prism along the third axis; a brick with its edges in increasing order *)
Definition standard_edges (ls : lattice_system) (eps a b c : R) : Prop :=
  match ls with
  | Cubic => a = b /\ b = c
  | Tetragonal => a = b /\ eps < Rabs (a * a - c * c)
  | Orthorhombic => eps < b * b - a * a /\ eps < c * c - b * b
  | _ => False
  end.
(** any two sites, of whichever species, and all their images are more than [d] apart in fractional coordinates *)
Definition spread (d : R) (sites : list (vec R * string)) : Prop :=
  forall i j x e y f n, i <> j -> nth_error sites i = Some (x, e) -> nth_error sites j = Some (y, f) -> d < Vnorm (Vadd (Vsub x y) (VofZ n)).
(** the integer matrix [r], acting on fractional coordinates, is an isometry of the lattice *)
Definition lattice_isometry (L : mat R) (r : mat Z) : Prop := Mmul (Mtr (Mmul L (MofZ r))) (Mmul L (MofZ r)) = Mmul (Mtr L) L.
(** the positions are fractions with denominator [m], and no two sites share a position up to whole periods *)
Definition fractions_of (m : Z) (sites : list (vec R * string)) : Prop :=
  (forall x e, In (x, e) sites -> exists k : vec Z, x = V (IZR (vx k) / IZR m) (IZR (vy k) / IZR m) (IZR (vz k) / IZR m)) /\
  (forall i j x e y f n, i <> j -> nth_error sites i = Some (x, e) -> nth_error sites j = Some (y, f) -> x <> Vadd y (VofZ n)).
(** the operation {r0|t0} described along the axes [u] (the columns of [u], in terms of the basis) is {r|t} along the basis, up to whole periods *)
Definition along (u : mat Z) (r0 : mat Z) (t0 : vec R) (r : mat Z) (t : vec R) : Prop :=
  Mmul (MofZ r) (MofZ u) = Mmul (MofZ u) (MofZ r0) /\ Vcongr t (Mapp (MofZ u) t0).
(** the same with the axes [u] drawn from the point [p] (in terms of these axes) instead of the origin *)
Definition along_from (u : mat Z) (p : vec R) (r0 : mat Z) (t0 : vec R) (r : mat Z) (t : vec R) : Prop :=
  along u r0 (Vadd t0 (Vsub p (Mapp (MofZ r0) p))) r t.
(** [p] is moved by the rotation [r0] by no more than [f] along the first axis, [g] along the second, [h] along the third *)
Definition barely_moved (f g h : R) (p : vec R) (r0 : mat Z) : Prop :=
  let m := Vsub p (Mapp (MofZ r0) p) in Rabs (vx m) <= f /\ Rabs (vy m) <= g /\ Rabs (vz m) <= h.
(** no translation of an operation of the crystal, in whichever standard axes, is off a multiple of a twelfth by exactly the tolerance [tol] (to 1e-8) *)
Definition clear_of (tol a b c : R) (L : mat R) (sites : list (vec R * string)) : Prop :=
  forall w r t (z : Z), of_the_cube w -> box_cell a b c (Mmul L (MofZ w)) -> lattice_isometry L r -> exact_operation sites r (Mapp (MofZ w) t) ->
    1 / 100000000 < Rabs (Rabs (vx t - IZR z / 12) - tol / a) /\ 1 / 100000000 < Rabs (Rabs (vy t - IZR z / 12) - tol / b) /\
    1 / 100000000 < Rabs (Rabs (vz t - IZR z / 12) - tol / c).
