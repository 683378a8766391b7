(** Triclinic and monoclinic crystals: notions for the statements, independent of the model. *)
From Coq Require Import ZArith Reals.
From Verif Require Import Mat Spec.
Open Scope R_scope.

(** the scalar products of the basis vectors: [A], [B], [C] of each with itself, [D] of the second and third, [E] of the first and third, [F] of the first and second *)
Definition metric (A B C D E F : R) : mat R := M A F E F B D E D C.
(** a reduced cell (shortest edges, all angles acute or none), in which every inequality holds with a margin [e], or is a right angle *)
Definition zero_or_below (e x : R) : Prop := x = 0 \/ x < - e.
Record strictly_reduced (e A B C D E F : R) : Prop := {
  sr_ab : A + e < B;
  sr_bc : B + e < C;
  sr_angles : (e < D /\ e < E /\ e < F /\ 2 * D + 2 * e < B /\ 2 * E + 2 * e < A /\ 2 * F + 2 * e < A) \/
              (zero_or_below e D /\ zero_or_below e E /\ zero_or_below e F /\
               - 2 * D + 2 * e < B /\ - 2 * E + 2 * e < A /\ - 2 * F + 2 * e < A /\ 2 * e < A + B + 2 * (D + E + F)) }.
(** no two of the three angles are right *)
Definition no_two_zero (D E F : R) : Prop := ~ (D = 0 /\ E = 0) /\ ~ (D = 0 /\ F = 0) /\ ~ (E = 0 /\ F = 0).
(** every vector is at least as long as its coordinates *)
Definition not_flat (L : mat R) : Prop := forall v, Vnorm v <= Vnorm (Mapp L v).
(** the code's tolerance for metrics *)
Definition metric_tolerance (L : mat R) : R := 1 / 100000 * Rpower (Rabs (Mdet L)) (1 / 3).
(** a primitive monoclinic cell in standard axes: the second axis at right angles to the others, the first shorter than the third, the angle between them obtuse and the cell reduced; the second is not as long as another *)
Record monoclinic_cell (e A B C E : R) (K : mat R) : Prop := {
  mc_metric : Mmul (Mtr K) K = M A 0 E 0 B 0 E 0 C;
  mc_ac : A + e < C;
  mc_obtuse : E < - e;
  mc_short : - 2 * E + 2 * e < A;
  mc_b : 2 * e < B;
  mc_ab : e < Rabs (A - B);
  mc_bc : e < Rabs (B - C) }.
(** other axes with the same second axis, up to its direction *)
Definition same_second_axis (g : mat Z) : Prop := m12 g = 0%Z /\ m32 g = 0%Z /\ m21 g = 0%Z /\ m23 g = 0%Z /\ (ZMdet g = 1%Z \/ ZMdet g = (-1)%Z).
(** x -> -x *)
Definition inverted : mat Z := (M (-1) 0 0 0 (-1) 0 0 0 (-1))%Z.
