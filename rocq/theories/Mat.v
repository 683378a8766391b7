(** nalgebra Vector3 / Matrix3 (0.31.3), written out in its evaluation order. *)
From Coq Require Import ZArith List Bool.
From Verif Require Import Num.
Import ListNotations.
Open Scope Z_scope.

Record vec (A : Type) := V { vx : A; vy : A; vz : A }.
Arguments V {A} _ _ _.
Arguments vx {A} _.
Arguments vy {A} _.
Arguments vz {A} _.

(** Constructor arguments in the order of [Matrix3::new] (row by row); fields named as in nalgebra. *)
Record mat (A : Type) := M {
  m11 : A; m12 : A; m13 : A;
  m21 : A; m22 : A; m23 : A;
  m31 : A; m32 : A; m33 : A }.
Arguments M {A} _ _ _ _ _ _ _ _ _.
Arguments m11 {A} _. Arguments m12 {A} _. Arguments m13 {A} _.
Arguments m21 {A} _. Arguments m22 {A} _. Arguments m23 {A} _.
Arguments m31 {A} _. Arguments m32 {A} _. Arguments m33 {A} _.

Section Poly.
  Context {A B C : Type}.
  Definition vmap (f : A -> B) (v : vec A) : vec B := V (f (vx v)) (f (vy v)) (f (vz v)).
  Definition vmap2 (f : A -> B -> C) (v : vec A) (w : vec B) : vec C :=
    V (f (vx v) (vx w)) (f (vy v) (vy w)) (f (vz v) (vz w)).
  Definition mmap (f : A -> B) (m : mat A) : mat B :=
    M (f (m11 m)) (f (m12 m)) (f (m13 m))
      (f (m21 m)) (f (m22 m)) (f (m23 m))
      (f (m31 m)) (f (m32 m)) (f (m33 m)).
  Definition vlist (v : vec A) : list A := [vx v; vy v; vz v].
  (** Matrix iterators and linear indices are column-major. *)
  Definition mlist (m : mat A) : list A :=
    [m11 m; m21 m; m31 m; m12 m; m22 m; m32 m; m13 m; m23 m; m33 m].
  Definition transpose (m : mat A) : mat A :=
    M (m11 m) (m21 m) (m31 m) (m12 m) (m22 m) (m32 m) (m13 m) (m23 m) (m33 m).
  Definition col0 (m : mat A) : vec A := V (m11 m) (m21 m) (m31 m).
  Definition col1 (m : mat A) : vec A := V (m12 m) (m22 m) (m32 m).
  Definition col2 (m : mat A) : vec A := V (m13 m) (m23 m) (m33 m).
  (** [Matrix3::from_columns(&[a,b,c])] *)
  Definition from_columns (a b c : vec A) : mat A :=
    M (vx a) (vx b) (vx c) (vy a) (vy b) (vy c) (vz a) (vz b) (vz c).
  (** [Matrix3::from_iterator]: column-major, panics when the iterator is too short, ignores a surplus. *)
  Definition mat_from_iter (l : list A) : res (mat A) :=
    match l with
    | a :: b :: c :: d :: e :: f :: g :: h :: i :: _ => Ok (M a d g b e h c f i)
    | _ => Panic PIndex
    end.
  (** [Vector3::from_iterator] *)
  Definition vec_from_iter (l : list A) : res (vec A) :=
    match l with a :: b :: c :: _ => Ok (V a b c) | _ => Panic PIndex end.
End Poly.

Section NumMat.
  Context {N : Num}.
  Local Open Scope F_scope.
  Definition vadd (v w : vec num) : vec num := vmap2 fadd v w.
  Definition vsub (v w : vec num) : vec num := vmap2 fsub v w.
  Definition vscale (k : num) (v : vec num) : vec num := vmap (fun x => k * x) v.      (* [k * v] *)
  Definition vscale_r (v : vec num) (k : num) : vec num := vmap (fun x => x * k) v.    (* [v * k] *)
  Definition vdivs (v : vec num) (k : num) : vec num := vmap (fun x => x / k) v.       (* [v / k] *)
  Definition mdivs (m : mat num) (k : num) : mat num := mmap (fun x => x / k) m.
  Definition mscale_r (m : mat num) (k : num) : mat num := mmap (fun x => x * k) m.
  Definition dot (v w : vec num) : num := vx v * vx w + vy v * vy w + vz v * vz w.
  Definition cross (a b : vec num) : vec num :=
    V (vy a * vz b - vz a * vy b) (vz a * vx b - vx a * vz b) (vx a * vy b - vy a * vx b).
  Definition magnitude_squared (v : vec num) : num := dot v v.
  Definition magnitude (v : vec num) : num := fsqrt (dot v v).
  Definition mvmul (m : mat num) (v : vec num) : vec num :=
    V (m11 m * vx v + m12 m * vy v + m13 m * vz v)
      (m21 m * vx v + m22 m * vy v + m23 m * vz v)
      (m31 m * vx v + m32 m * vy v + m33 m * vz v).
  Definition mmul (a b : mat num) : mat num :=
    from_columns (mvmul a (col0 b)) (mvmul a (col1 b)) (mvmul a (col2 b)).
  Definition midentity : mat num := M f1 f0 f0 f0 f1 f0 f0 f0 f1.
  (** nalgebra [determinant], 3x3 case *)
  Definition det (m : mat num) : num :=
    let minor_m12_m23 := m22 m * m33 m - m32 m * m23 m in
    let minor_m11_m23 := m21 m * m33 m - m31 m * m23 m in
    let minor_m11_m22 := m21 m * m32 m - m31 m * m22 m in
    m11 m * minor_m12_m23 - m12 m * minor_m11_m23 + m13 m * minor_m11_m22.
  (** nalgebra [try_invert_to] / [try_inverse], 3x3 case: None when the determinant is zero *)
  Definition try_inverse (m : mat num) : option (mat num) :=
    let d := det m in
    if d =? f0 then None else
    let minor_m12_m23 := m22 m * m33 m - m32 m * m23 m in
    let minor_m11_m23 := m21 m * m33 m - m31 m * m23 m in
    let minor_m11_m22 := m21 m * m32 m - m31 m * m22 m in
    Some (M (minor_m12_m23 / d)
            ((m13 m * m32 m - m33 m * m12 m) / d)
            ((m12 m * m23 m - m22 m * m13 m) / d)
            (fneg minor_m11_m23 / d)
            ((m11 m * m33 m - m31 m * m13 m) / d)
            ((m13 m * m21 m - m23 m * m11 m) / d)
            (minor_m11_m22 / d)
            ((m12 m * m31 m - m32 m * m11 m) / d)
            ((m11 m * m22 m - m21 m * m12 m) / d)).
  (** [m.cast::<f64>()] on integer matrices / vectors *)
  Definition mcast (m : mat Z) : mat num := mmap fofZ m.
  Definition vcast (v : vec Z) : vec num := vmap fofZ v.
  (** [x.round() as i8] on every entry *)
  Definition mround_i8 (m : mat num) : mat Z := mmap (fun x => fto_i8 (fround x)) m.
End NumMat.

(** nalgebra [pseudo_inverse(eps)]: an SVD, kept abstract.  The function itself returns [Err] only for eps < 0. *)
Class Pinv {N : Num} := pinv : mat num -> mat num.
Definition pseudo_inverse {N : Num} {P : Pinv} (eps : num) (m : mat num) : option (mat num) :=
  if (eps <? f0)%F then None else Some (pinv m).

(** Integer matrices. *)
Definition zmat_eqb (a b : mat Z) : bool :=
  if m11 a =? m11 b then if m12 a =? m12 b then if m13 a =? m13 b then
  if m21 a =? m21 b then if m22 a =? m22 b then if m23 a =? m23 b then
  if m31 a =? m31 b then if m32 a =? m32 b then m33 a =? m33 b
  else false else false else false else false else false else false else false else false.
Definition zvec_eqb (a b : vec Z) : bool :=
  (vx a =? vx b) && (vy a =? vy b) && (vz a =? vz b).
Definition zmat_id : mat Z := M 1 0 0 0 1 0 0 0 1.
(** Matrix3<i8> product (release build: every + and * wraps; wrapping once at the end is the same). *)
Definition i8_mmul (a b : mat Z) : mat Z :=
  mmap wrap_i8
  (M (m11 a * m11 b + m12 a * m21 b + m13 a * m31 b)
     (m11 a * m12 b + m12 a * m22 b + m13 a * m32 b)
     (m11 a * m13 b + m12 a * m23 b + m13 a * m33 b)
     (m21 a * m11 b + m22 a * m21 b + m23 a * m31 b)
     (m21 a * m12 b + m22 a * m22 b + m23 a * m32 b)
     (m21 a * m13 b + m22 a * m23 b + m23 a * m33 b)
     (m31 a * m11 b + m32 a * m21 b + m33 a * m31 b)
     (m31 a * m12 b + m32 a * m22 b + m33 a * m32 b)
     (m31 a * m13 b + m32 a * m23 b + m33 a * m33 b)).
