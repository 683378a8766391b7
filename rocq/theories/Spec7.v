(** Vectors and operations of binary64 numbers as real vectors and operations: notions for the statements, independent of the model's functions. *)
From Coq Require Import ZArith Reals.
From Flocq Require Import IEEE754.BinarySingleNaN.
From Verif Require Import Num Mat SymmOp FInst RInst Spec.
Open Scope R_scope.

(** all three components are finite numbers (no infinity, no NaN) *)
Definition finite3 (v : vec f64) : Prop := is_finite (vx v) = true /\ is_finite (vy v) = true /\ is_finite (vz v) = true.
(** the real numbers the components stand for *)
Definition real3 (v : vec f64) : vec R := V (B2R (vx v)) (B2R (vy v)) (B2R (vz v)).
(** every component is at most [b] in magnitude *)
Definition within3 (b : R) (v : vec R) : Prop := Rabs (vx v) <= b /\ Rabs (vy v) <= b /\ Rabs (vz v) <= b.
(** the vectors differ by at most [e] in every component *)
Definition close3 (e : R) (v w : vec R) : Prop := Rabs (vx v - vx w) <= e /\ Rabs (vy v - vy w) <= e /\ Rabs (vz v - vz w) <= e.
(** [v] with [d] added to every component *)
Definition raised (d : R) (v : vec R) : vec R := V (vx v + d) (vy v + d) (vz v + d).
(** a matrix of finite numbers, its values, and a bound for all entries *)
Definition finite9 (m : mat f64) : Prop := finite3 (V (m11 m) (m12 m) (m13 m)) /\ finite3 (V (m21 m) (m22 m) (m23 m)) /\ finite3 (V (m31 m) (m32 m) (m33 m)).
Definition real9 (m : mat f64) : mat R := mmap B2R m.
Definition within9 (b : R) (m : mat R) : Prop := within3 b (V (m11 m) (m12 m) (m13 m)) /\ within3 b (V (m21 m) (m22 m) (m23 m)) /\ within3 b (V (m31 m) (m32 m) (m33 m)).
(** the operation on real numbers that an operation of binary64 numbers stands for *)
Definition real_op {L : Libm} (o : @symmop FNum) : @symmop RNum := SymmOp (N := RNum) (rotation o) (real3 (translation o)).
