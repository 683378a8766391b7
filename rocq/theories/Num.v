(** Scalar arithmetic as a parameter, results with panics, hash iteration order,
    machine integers, and the std / itertools helpers the crate uses.

    Every model function in this development is written once over the class [Num].
    [RInst.v] instantiates it with the exact reals, [FInst.v] with IEEE binary64. *)
From Coq Require Import ZArith List Bool String Ascii Permutation.
Import ListNotations.
Open Scope Z_scope.

(** The f64 operations used by /repo/src.  [frem1 x] is [x % 1.0]; [fcbrt x] is
    [x.powf(1.0/3.0)]; [fto_i8], [fto_i64] are the saturating [as] casts. *)
Class Num := MkNum {
  num : Type;
  fofZ : Z -> num;                       (* integer literals, [n as f64] *)
  fadd : num -> num -> num;
  fsub : num -> num -> num;
  fmul : num -> num -> num;
  fdiv : num -> num -> num;
  fneg : num -> num;                     (* unary minus *)
  fabs : num -> num;
  fsqrt : num -> num;
  flt : num -> num -> bool;              (* IEEE <, false on NaN *)
  fle : num -> num -> bool;
  feq : num -> num -> bool;              (* IEEE ==, false on NaN *)
  frem1 : num -> num;
  fround : num -> num;                   (* f64::round: half away from zero *)
  fsignum : num -> num;                  (* f64::signum *)
  fcbrt : num -> num;
  facos : num -> num;
  fpi : num;
  fto_i8 : num -> Z;
  fto_i64 : num -> Z }.

Declare Scope F_scope.
Delimit Scope F_scope with F.
Notation "x + y" := (fadd x y) : F_scope.
Notation "x - y" := (fsub x y) : F_scope.
Notation "x * y" := (fmul x y) : F_scope.
Notation "x / y" := (fdiv x y) : F_scope.
Notation "x <? y" := (flt x y) : F_scope.
Notation "x >? y" := (flt y x) (only parsing) : F_scope.
Notation "x <=? y" := (fle x y) : F_scope.
Notation "x =? y" := (feq x y) : F_scope.

Section Literals.
  Context {N : Num}.
  Definition f0 : num := fofZ 0.
  Definition f1 : num := fofZ 1.
  Definition f2 : num := fofZ 2.
  Definition fm1 : num := fofZ (-1).
  (** A decimal literal p/q with exactly representable p, q: the correctly rounded
      quotient is the correctly rounded decimal. *)
  Definition flit (p q : Z) : num := (fofZ p / fofZ q)%F.
  (** NaN is the only value that is not equal to itself. *)
  Definition fisnan (x : num) : bool := negb (x =? x)%F.
End Literals.

(** Panics of the crate, one constructor per message / kind. *)
Inductive panic :=
| PUnwrapNone            (* Option::unwrap on None *)
| PIndex                 (* index / slice out of bounds *)
| PDivZero               (* integer remainder by zero *)
| PNanCmp                (* partial_cmp(..).unwrap() on NaN *)
| PLenMismatch           (* "Iterators provided for comparison do not have equal lengths" *)
| PTransNotInvertible    (* "Transformation matrix is not invertible!" *)
| PLatticeNotInvertible  (* "Crystal lattice is not invertible!" *)
| PNiggli                (* "Could not find Niggli reduced structure!" *)
| PDelaunay              (* "Reached max number of iterations without reduction!" *)
| PLatticeChar           (* "Cannot find lattice character of input structure!" *)
| PConvTrans             (* "Could not find the appropriate conventional transformation matrix!" *)
| PBravais               (* "Could not find the appropriate lattice character or bravais symbol!" *)
| PPrimTrans             (* "Could not find the appropriate primitive transformation matrix!" *)
| PCentering             (* "Problem determining centering." *)
| PLatticeSystem         (* "Problem determining lattice system." *)
| PNoLatticeGroups       (* "Cannot find candidate groups with the provided lattice system!" *)
| PNoOrder               (* "Could not find candidate group with the provided number of operations!" *)
| PBadNumber             (* "ITA space group number provided is not valid!" *)
| PIdentify              (* "Cannot identify spacegroup from operations!" *)
| PPrimNotInvertible     (* "Primitive transformation is not invertible." *)
| PConvNotInvertible.    (* "Conventional transformation is not invertible." *)

Inductive res (A : Type) :=
| Ok (a : A)
| Panic (p : panic)
| OutOfFuel.
Arguments Ok {A} a.
Arguments Panic {A} p.
Arguments OutOfFuel {A}.

Definition bind {A B} (r : res A) (f : A -> res B) : res B :=
  match r with Ok a => f a | Panic p => Panic p | OutOfFuel => OutOfFuel end.
Notation "'do' x <- e ; f" := (bind e (fun x => f))
  (at level 200, x pattern, e at level 100, f at level 200, right associativity).

Definition of_opt {A} (p : panic) (o : option A) : res A :=
  match o with Some a => Ok a | None => Panic p end.

Fixpoint map_res {A B} (f : A -> res B) (l : list A) : res (list B) :=
  match l with
  | [] => Ok []
  | x :: t => do y <- f x; do ys <- map_res f t; Ok (y :: ys)
  end.

(** Iteration order of std HashMap / HashSet: an arbitrary permutation of the entries for
    each iteration performed, the iteration being identified by a path. *)
Class HashOrd := MkHashOrd {
  hord : list nat -> forall {A : Type}, list A -> list A;
  hord_perm : forall p A (l : list A), Permutation (hord p l) l }.

(** Wrap-around of machine integers (release build). *)
Definition wrap_i8 (z : Z) : Z := (z + 128) mod 256 - 128.
Definition wrap_u8 (z : Z) : Z := z mod 256.
Definition wrap_u16 (z : Z) : Z := z mod 65536.
Definition clamp (lo hi z : Z) : Z := Z.max lo (Z.min hi z).

(** slice::sort_by / Itertools::sorted: a stable sort.  All stable sorts agree, so insertion sort is used. *)
Section Sort.
  Context {A : Type} (le : A -> A -> bool).
  Fixpoint insert_by (x : A) (l : list A) : list A :=
    match l with
    | [] => [x]
    | y :: t => if le x y then x :: l else y :: insert_by x t
    end.
  Definition sort_by (l : list A) : list A := fold_right insert_by [] l.
End Sort.

(** std HashMap as an association list without duplicate keys: lookup, and insert that replaces. *)
Section AssocMap.
  Context {K V : Type} (keq : K -> K -> bool).
  Fixpoint am_get (k : K) (m : list (K * V)) : option V :=
    match m with
    | [] => None
    | (k', v) :: t => if keq k k' then Some v else am_get k t
    end.
  Fixpoint am_insert (k : K) (v : V) (m : list (K * V)) : list (K * V) :=
    match m with
    | [] => [(k, v)]
    | (k', v') :: t => if keq k k' then (k', v) :: t else (k', v') :: am_insert k v t
    end.
End AssocMap.

(** itertools iproduct!(a, b): row by row. *)
Definition iproduct {A B} (a : list A) (b : list B) : list (A * B) :=
  flat_map (fun x => map (fun y => (x, y)) b) a.

(** 0..n as integers *)
Definition zrange (n : nat) : list Z := map Z.of_nat (seq 0 n).
