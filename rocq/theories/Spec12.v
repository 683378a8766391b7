(** Crystals described in a larger cell: notions for the statements, independent of the model. *)
From Coq Require Import ZArith Reals String List.
From Verif Require Import Mat Spec.
Import ListNotations.
Open Scope R_scope.

(** an atom of species [e] is at the point [z] of the crystal with cell [L] and sites [sites] *)
Definition atom_at (L : mat R) (sites : list (vec R * string)) (e : string) (z : vec R) : Prop :=
  exists (x : vec R) (n : vec Z), In (x, e) sites /\ z = Mapp L (Vadd x (VofZ n)).
(** the atoms of the two crystals are the same *)
Definition same_atoms (L : mat R) (sites : list (vec R * string)) (L0 : mat R) (sites0 : list (vec R * string)) : Prop :=
  forall e z, atom_at L sites e z <-> atom_at L0 sites0 e z.
(** no site is listed twice, even moved by whole periods *)
Definition listed_once (sites : list (vec R * string)) : Prop :=
  forall i j x e y f n, i <> j -> nth_error sites i = Some (x, e) -> nth_error sites j = Some (y, f) -> Vadd (Vsub x y) (VofZ n) <> V 0 0 0.
(** a cube of edge [a] *)
Definition cube_cell (a : R) (L : mat R) : Prop := Mmul (Mtr L) L = M (a * a) 0 0 0 (a * a) 0 0 0 (a * a).
