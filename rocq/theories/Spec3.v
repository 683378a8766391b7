(** Vocabulary for the statements about symmetry operations of a crystal.  A crystal is a lattice basis [L] (columns) and a
    list of sites, each a fractional position with the name of its species. *)
From Coq Require Import ZArith Reals String List.
From Verif Require Import Mat Spec.
Import ListNotations.
Open Scope R_scope.

(** sites of equal species stand next to each other in the list *)
Definition grouped (names : list string) : Prop :=
  forall i j k e, (i <= j <= k)%nat -> nth_error names i = Some e -> nth_error names k = Some e -> nth_error names j = Some e.
(** any two sites of the same species, and all their periodic images, are more than [d] apart *)
Definition sites_apart (d : R) (L : mat R) (sites : list (vec R * string)) : Prop :=
  forall i j x y e n, i <> j -> nth_error sites i = Some (x, e) -> nth_error sites j = Some (y, e) ->
    d < Vnorm (Mapp L (Vadd (Vsub x y) (VofZ n))).
(** {r|t} carries every site to within [tol] of a site of the same species, modulo the lattice *)
Definition operation_within (tol : R) (L : mat R) (sites : list (vec R * string)) (r : mat Z) (t : vec R) : Prop :=
  forall x e, In (x, e) sites ->
    exists y n, In (y, e) sites /\ Vnorm (Mapp L (Vadd (Vsub (act r t x) y) (VofZ n))) <= tol.
(** {r|t} carries every site exactly onto a site of the same species, up to whole periods *)
Definition exact_operation (sites : list (vec R * string)) (r : mat Z) (t : vec R) : Prop :=
  forall x e, In (x, e) sites -> exists y, In (y, e) sites /\ Vcongr (act r t x) y.
(** every operation {r|t} of the crystal to within [tol], for a rotation of the set [rots], is that close to an exact operation *)
Definition rigid (tol : R) (L : mat R) (sites : list (vec R * string)) (rots : mat Z -> Prop) : Prop :=
  forall r t, rots r -> operation_within tol L sites r t ->
    exists t0 n, exact_operation sites r t0 /\ Vnorm (Mapp L (Vadd (Vsub t t0) (VofZ n))) <= tol.

(** ** One atom per primitive cell: the symmetry is that of the lattice *)
(** the group of the lattice alone, by Bravais symbol, for the settings in which the library finds it *)
Definition lattice_group (bravais : string) : option (Z * string) :=
  if String.eqb bravais "aP" then Some (2%Z, "P-1"%string) else
  if String.eqb bravais "mP" then Some (10%Z, "P12/m1"%string) else
  if String.eqb bravais "mC" then Some (12%Z, "C12/m1"%string) else
  if String.eqb bravais "oP" then Some (47%Z, "Pmmm"%string) else
  if String.eqb bravais "oC" then Some (65%Z, "Cmmm"%string) else
  if String.eqb bravais "oI" then Some (71%Z, "Immm"%string) else
  if String.eqb bravais "oF" then Some (69%Z, "Fmmm"%string) else
  if String.eqb bravais "tP" then Some (123%Z, "P4/mmm"%string) else
  if String.eqb bravais "tI" then Some (139%Z, "I4/mmm"%string) else
  if String.eqb bravais "hP" then Some (191%Z, "P6/mmm"%string) else
  if String.eqb bravais "cP" then Some (221%Z, "Pm-3m"%string) else
  if String.eqb bravais "cI" then Some (229%Z, "Im-3m"%string) else
  if String.eqb bravais "cF" then Some (225%Z, "Fm-3m"%string) else None.
