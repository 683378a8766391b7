(** Vocabulary for the statements about lattice characters and standard cells, independent of the model. *)
From Coq Require Import ZArith Reals List String Ascii Bool.
From Verif Require Import Mat Spec.
Import ListNotations.
Open Scope R_scope.

(** ** Lattice characters: International Tables for Crystallography A, Table 9.2.5.1 *)
(** which of a, b, c have equal lengths *)
Inductive lengths := A_B_C | A_B | B_C | Any.
(** the additional condition of a row: none, the starred one, the daggered one *)
Inductive extra := NoExtra | Star | Dagger.
(** row [n]: equal lengths, type I (all angles acute) or not, required D, E, F, additional condition *)
Definition character_row (A B D E F : R) (n : Z) : option (lengths * bool * (R * R * R) * extra) :=
  match n with
  | 1%Z => Some (A_B_C, true, (A / 2, A / 2, A / 2), NoExtra)
  | 2%Z => Some (A_B_C, true, (D, D, D), NoExtra)
  | 3%Z => Some (A_B_C, false, (0, 0, 0), NoExtra)
  | 4%Z => Some (A_B_C, false, (D, D, D), NoExtra)
  | 5%Z => Some (A_B_C, false, (- A / 3, - A / 3, - A / 3), NoExtra)
  | 6%Z => Some (A_B_C, false, (D, D, F), Star)
  | 7%Z => Some (A_B_C, false, (D, E, E), Star)
  | 8%Z => Some (A_B_C, false, (D, E, F), Star)
  | 9%Z => Some (A_B, true, (A / 2, A / 2, A / 2), NoExtra)
  | 10%Z => Some (A_B, true, (D, D, F), NoExtra)
  | 11%Z => Some (A_B, false, (0, 0, 0), NoExtra)
  | 12%Z => Some (A_B, false, (0, 0, - A / 2), NoExtra)
  | 13%Z => Some (A_B, false, (0, 0, F), NoExtra)
  | 14%Z => Some (A_B, false, (D, D, F), NoExtra)
  | 15%Z => Some (A_B, false, (- A / 2, - A / 2, 0), NoExtra)
  | 16%Z => Some (A_B, false, (D, D, F), Star)
  | 17%Z => Some (A_B, false, (D, E, F), Star)
  | 18%Z => Some (B_C, true, (A / 4, A / 2, A / 2), NoExtra)
  | 19%Z => Some (B_C, true, (D, A / 2, A / 2), NoExtra)
  | 20%Z => Some (B_C, true, (D, E, E), NoExtra)
  | 21%Z => Some (B_C, false, (0, 0, 0), NoExtra)
  | 22%Z => Some (B_C, false, (- B / 2, 0, 0), NoExtra)
  | 23%Z => Some (B_C, false, (D, 0, 0), NoExtra)
  | 24%Z => Some (B_C, false, (D, - A / 3, - A / 3), Star)
  | 25%Z => Some (B_C, false, (D, E, E), NoExtra)
  | 26%Z => Some (Any, true, (A / 4, A / 2, A / 2), NoExtra)
  | 27%Z => Some (Any, true, (D, A / 2, A / 2), NoExtra)
  | 28%Z => Some (Any, true, (D, A / 2, 2 * D), NoExtra)
  | 29%Z => Some (Any, true, (D, 2 * D, A / 2), NoExtra)
  | 30%Z => Some (Any, true, (B / 2, E, 2 * E), NoExtra)
  | 31%Z => Some (Any, true, (D, E, F), NoExtra)
  | 32%Z => Some (Any, false, (0, 0, 0), NoExtra)
  | 33%Z => Some (Any, false, (0, E, 0), NoExtra)
  | 34%Z => Some (Any, false, (0, 0, F), NoExtra)
  | 35%Z => Some (Any, false, (D, 0, 0), NoExtra)
  | 36%Z => Some (Any, false, (0, - A / 2, 0), NoExtra)
  | 37%Z => Some (Any, false, (D, - A / 2, 0), NoExtra)
  | 38%Z => Some (Any, false, (0, 0, - A / 2), NoExtra)
  | 39%Z => Some (Any, false, (D, 0, - A / 2), NoExtra)
  | 40%Z => Some (Any, false, (- B / 2, 0, 0), NoExtra)
  | 41%Z => Some (Any, false, (- B / 2, E, 0), NoExtra)
  | 42%Z => Some (Any, false, (- B / 2, - A / 2, 0), NoExtra)
  | 43%Z => Some (Any, false, (D, E, F), Dagger)
  | 44%Z => Some (Any, false, (D, E, F), NoExtra)
  | _ => None
  end.
Definition within (eps x y : R) : Prop := Rabs (x - y) <= eps.
Definition lengths_ok (eps A B C : R) (k : lengths) : Prop :=
  match k with
  | A_B_C => within eps A B /\ within eps A C
  | A_B => within eps A B
  | B_C => within eps B C
  | Any => True
  end.
(** type I: the product of the scalar products is positive; type II: it is not, or one of them is zero within [eps] *)
Definition type_ok (eps D E F : R) (type_i : bool) : Prop :=
  if type_i then 0 < D * E * F else D * E * F <= 0 \/ Rabs D <= eps \/ Rabs E <= eps \/ Rabs F <= eps.
Definition extra_ok (eps A B D E F : R) (x : extra) : Prop :=
  match x with
  | NoExtra => True
  | Star => within eps (2 * Rabs (D + E + F)) (A + B)
  | Dagger => within eps (2 * Rabs (D + E + F)) (A + B) /\ within eps (Rabs (2 * D + F)) B
  end.
(** the cell with metric tensor [g] meets the conditions of row [n] within [eps] *)
Definition has_character (eps : R) (g : mat R) (n : Z) : Prop :=
  let A := m11 g in let B := m22 g in let C := m33 g in let D := m23 g in let E := m13 g in let F := m12 g in
  exists k t d e f x, character_row A B D E F n = Some (k, t, (d, e, f), x) /\
    lengths_ok eps A B C k /\ type_ok eps D E F t /\
    within eps d D /\ within eps e E /\ within eps f F /\ extra_ok eps A B D E F x.

(** ** Metrics of the crystal families, first letter of the Bravais symbol; monoclinic cells have unique axis b *)
Definition family_metric (tol : R) (g : mat R) (letter : ascii) : Prop :=
  match letter with
  | "c"%char => within tol (m11 g) (m22 g) /\ within tol (m11 g) (m33 g) /\
                within tol (m12 g) 0 /\ within tol (m13 g) 0 /\ within tol (m23 g) 0
  | "t"%char => within tol (m11 g) (m22 g) /\ within tol (m12 g) 0 /\ within tol (m13 g) 0 /\ within tol (m23 g) 0
  | "o"%char => within tol (m12 g) 0 /\ within tol (m13 g) 0 /\ within tol (m23 g) 0
  | "h"%char => within tol (m11 g) (m22 g) /\ within tol (2 * m12 g) (- m11 g) /\
                within tol (m13 g) 0 /\ within tol (m23 g) 0
  | "m"%char => within tol (m12 g) 0 /\ within tol (m23 g) 0
  | "a"%char => True
  | _ => False
  end.
(** number of lattice points per conventional cell, second letter of the Bravais symbol *)
Definition centering_multiplicity (letter : ascii) : Z :=
  match letter with
  | "P"%char => 1 | "A"%char | "B"%char | "C"%char | "I"%char => 2 | "F"%char => 4 | "R"%char => 3 | _ => 0
  end%Z.
(** the 14 Bravais symbols (mI is an alternative setting of mC) with their lattice systems *)
Definition bravais_systems : list (string * string) :=
  [("aP", "Triclinic"); ("mP", "Monoclinic"); ("mC", "Monoclinic"); ("mI", "Monoclinic"); ("oP", "Orthorhombic");
   ("oC", "Orthorhombic"); ("oI", "Orthorhombic"); ("oF", "Orthorhombic"); ("tP", "Tetragonal"); ("tI", "Tetragonal");
   ("hR", "Rhombohedral"); ("hP", "Hexagonal"); ("cP", "Cubic"); ("cI", "Cubic"); ("cF", "Cubic")]%string.

(** ** Codes of tabulated operations: nine base-3 digits (matrix entries plus one, row by row, most significant first),
    above them three base-8 digits (translations in twelfths, by index) *)
Definition digit (base e : Z) (k : nat) : Z := ((e / base ^ Z.of_nat k) mod base)%Z.
Definition twelfths (d : Z) : Z :=
  match d with 0 => 0 | 1 => 2 | 2 => 3 | 3 => 4 | 4 => 6 | 5 => 8 | 6 => 9 | _ => 10 end%Z.
Definition code_rotation (c : Z) : mat Z :=
  (M (digit 3 c 8 - 1) (digit 3 c 7 - 1) (digit 3 c 6 - 1)
     (digit 3 c 5 - 1) (digit 3 c 4 - 1) (digit 3 c 3 - 1)
     (digit 3 c 2 - 1) (digit 3 c 1 - 1) (digit 3 c 0 - 1))%Z.
Definition code_translation (c : Z) : vec Z :=
  let t := (c / 19683)%Z in V (twelfths (digit 8 t 2)) (twelfths (digit 8 t 1)) (twelfths (digit 8 t 0)).
(** the same operation after renaming the axes a, b, c into c, a, b *)
Definition cycled_mat {A} (m : mat A) : mat A := M (m22 m) (m23 m) (m21 m) (m32 m) (m33 m) (m31 m) (m12 m) (m13 m) (m11 m).
Definition cycled_vec {A} (v : vec A) : vec A := V (vy v) (vz v) (vx v).
Definition in_twelfths (v : vec Z) : vec R := V (IZR (vx v) / 12) (IZR (vy v) / 12) (IZR (vz v) / 12).
(** rotation and translation (in twelfths) of a code, axes renamed for the A-centred settings *)
Definition code_op (a_centred : bool) (c : Z) : mat Z * vec Z :=
  if a_centred then (cycled_mat (code_rotation c), cycled_vec (code_translation c)) else (code_rotation c, code_translation c).

(** ** Space group operations modulo lattice translations; translations in twelfths *)
Definition congr12 (v w : vec Z) : Prop :=
  exists n : vec Z, v = V (vx w + 12 * vx n)%Z (vy w + 12 * vy n)%Z (vz w + 12 * vz n)%Z.
(** x -> (a o b) x *)
Definition compose (a b : mat Z * vec Z) : mat Z * vec Z := (ZMmul (fst a) (fst b), ZVadd (ZMapp (fst a) (snd b)) (snd a)).
Definition same_op (a b : mat Z * vec Z) : Prop := fst a = fst b /\ congr12 (snd a) (snd b).
Record operation_group (ops : list (mat Z * vec Z)) : Prop := {
  og_rotations : NoDup (map fst ops);
  og_det : forall a, In a ops -> ZMdet (fst a) = 1%Z \/ ZMdet (fst a) = (-1)%Z;
  og_identity : exists e, In e ops /\ same_op e (ZMid, V 0 0 0)%Z;
  og_closed : forall a b, In a ops -> In b ops -> exists c, In c ops /\ same_op c (compose a b);
  og_inverse : forall a, In a ops -> exists b, In b ops /\ same_op (compose a b) (ZMid, V 0 0 0)%Z /\
                                                    same_op (compose b a) (ZMid, V 0 0 0)%Z }.
