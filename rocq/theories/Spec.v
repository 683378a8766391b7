(** Vocabulary for the statements, independent of the model: real and integer 3-vectors and
    matrices, whole periods, lattices, positional notation, counting.
    Only the container types [vec] and [mat] of Mat.v are shared. *)
From Coq Require Import ZArith Reals List Bool.
From Verif Require Import Mat.
Import ListNotations.

(** ** Whole numbers inside R *)
Definition is_int (x : R) : Prop := exists z : Z, x = IZR z.
(** equal up to whole periods *)
Definition congr1 (x y : R) : Prop := is_int (x - y).

(** ** Real vectors and matrices *)
Section RealLA.
  Open Scope R_scope.
  Definition Vadd (a b : vec R) : vec R := V (vx a + vx b) (vy a + vy b) (vz a + vz b).
  Definition Vsub (a b : vec R) : vec R := V (vx a - vx b) (vy a - vy b) (vz a - vz b).
  Definition Vscal (k : R) (a : vec R) : vec R := V (k * vx a) (k * vy a) (k * vz a).
  Definition Vdot (a b : vec R) : R := vx a * vx b + vy a * vy b + vz a * vz b.
  Definition Vcross (a b : vec R) : vec R :=
    V (vy a * vz b - vz a * vy b) (vz a * vx b - vx a * vz b) (vx a * vy b - vy a * vx b).
  Definition Vnorm (a : vec R) : R := R_sqrt.sqrt (Vdot a a).
  Definition V0 : vec R := V 0 0 0.
  (** matrix applied to a column vector *)
  Definition Mapp (m : mat R) (v : vec R) : vec R :=
    V (m11 m * vx v + m12 m * vy v + m13 m * vz v)
      (m21 m * vx v + m22 m * vy v + m23 m * vz v)
      (m31 m * vx v + m32 m * vy v + m33 m * vz v).
  Definition Mmul (a b : mat R) : mat R :=
    M (m11 a * m11 b + m12 a * m21 b + m13 a * m31 b) (m11 a * m12 b + m12 a * m22 b + m13 a * m32 b)
      (m11 a * m13 b + m12 a * m23 b + m13 a * m33 b)
      (m21 a * m11 b + m22 a * m21 b + m23 a * m31 b) (m21 a * m12 b + m22 a * m22 b + m23 a * m32 b)
      (m21 a * m13 b + m22 a * m23 b + m23 a * m33 b)
      (m31 a * m11 b + m32 a * m21 b + m33 a * m31 b) (m31 a * m12 b + m32 a * m22 b + m33 a * m32 b)
      (m31 a * m13 b + m32 a * m23 b + m33 a * m33 b).
  Definition Mid : mat R := M 1 0 0 0 1 0 0 0 1.
  Definition Mtr (m : mat R) : mat R :=
    M (m11 m) (m21 m) (m31 m) (m12 m) (m22 m) (m32 m) (m13 m) (m23 m) (m33 m).
  Definition Mdet (m : mat R) : R :=
    m11 m * m22 m * m33 m + m12 m * m23 m * m31 m + m13 m * m21 m * m32 m
    - m13 m * m22 m * m31 m - m12 m * m21 m * m33 m - m11 m * m23 m * m32 m.
  Definition Mscal (k : R) (m : mat R) : mat R :=
    M (k * m11 m) (k * m12 m) (k * m13 m) (k * m21 m) (k * m22 m) (k * m23 m)
      (k * m31 m) (k * m32 m) (k * m33 m).
  (** [b] is the two-sided inverse of [a] *)
  Definition inverse_of (a b : mat R) : Prop := Mmul a b = Mid /\ Mmul b a = Mid.
  (** columns *)
  Definition Ccol (m : mat R) (j : nat) : vec R :=
    match j with
    | O => V (m11 m) (m21 m) (m31 m)
    | S O => V (m12 m) (m22 m) (m32 m)
    | _ => V (m13 m) (m23 m) (m33 m)
    end.
End RealLA.

(** ** Integer vectors and matrices (no machine wrap) *)
Section IntLA.
  Open Scope Z_scope.
  Definition ZMmul (a b : mat Z) : mat Z :=
    M (m11 a * m11 b + m12 a * m21 b + m13 a * m31 b) (m11 a * m12 b + m12 a * m22 b + m13 a * m32 b)
      (m11 a * m13 b + m12 a * m23 b + m13 a * m33 b)
      (m21 a * m11 b + m22 a * m21 b + m23 a * m31 b) (m21 a * m12 b + m22 a * m22 b + m23 a * m32 b)
      (m21 a * m13 b + m22 a * m23 b + m23 a * m33 b)
      (m31 a * m11 b + m32 a * m21 b + m33 a * m31 b) (m31 a * m12 b + m32 a * m22 b + m33 a * m32 b)
      (m31 a * m13 b + m32 a * m23 b + m33 a * m33 b).
  Definition ZMid : mat Z := M 1 0 0 0 1 0 0 0 1.
  Definition ZMdet (m : mat Z) : Z :=
    m11 m * m22 m * m33 m + m12 m * m23 m * m31 m + m13 m * m21 m * m32 m
    - m13 m * m22 m * m31 m - m12 m * m21 m * m33 m - m11 m * m23 m * m32 m.
  Definition ZMapp (m : mat Z) (v : vec Z) : vec Z :=
    V (m11 m * vx v + m12 m * vy v + m13 m * vz v)
      (m21 m * vx v + m22 m * vy v + m23 m * vz v)
      (m31 m * vx v + m32 m * vy v + m33 m * vz v).
  Definition ZVadd (a b : vec Z) : vec Z := V (vx a + vx b) (vy a + vy b) (vz a + vz b).
End IntLA.

Definition VofZ (v : vec Z) : vec R := V (IZR (vx v)) (IZR (vy v)) (IZR (vz v)).
Definition MofZ (m : mat Z) : mat R :=
  M (IZR (m11 m)) (IZR (m12 m)) (IZR (m13 m)) (IZR (m21 m)) (IZR (m22 m)) (IZR (m23 m))
    (IZR (m31 m)) (IZR (m32 m)) (IZR (m33 m)).

(** Vectors equal up to whole periods in every component. *)
Definition Vcongr (a b : vec R) : Prop := exists n : vec Z, a = Vadd b (VofZ n).
(** [v] is a lattice vector of the lattice with basis the columns of [L]. *)
Definition in_lattice (L : mat R) (v : vec R) : Prop := exists n : vec Z, v = Mapp L (VofZ n).
(** Two bases span the same set of lattice vectors. *)
Definition same_lattice (L L' : mat R) : Prop := forall v, in_lattice L v <-> in_lattice L' v.

(** ** Positional notation *)
Definition digits_value (base : Z) (ds : list Z) : Z := fold_left (fun acc d => acc * base + d)%Z ds 0%Z.
Definition digits_ok (base : Z) (ds : list Z) : Prop := Forall (fun d => 0 <= d < base)%Z ds.

(** ** Counting *)
(** [l] splits into as many members satisfying each predicate as the numbers say *)
Fixpoint count_where {A} (p : A -> Prop) (dec : forall a, {p a} + {~ p a}) (l : list A) : Z :=
  match l with
  | [] => 0
  | a :: t => (if dec a then 1 else 0) + count_where p dec t
  end%Z.

(** Component [i] of a vector. *)
Definition vnth {A} (v : vec A) (i : nat) : A := match i with O => vx v | S O => vy v | _ => vz v end.
(** Column-major position [k] of a matrix: column [k/3], row [k mod 3]. *)
Definition mnth {A} (m : mat A) (k : nat) : A :=
  match k with
  | 0%nat => m11 m | 1%nat => m21 m | 2%nat => m31 m
  | 3%nat => m12 m | 4%nat => m22 m | 5%nat => m32 m
  | 6%nat => m13 m | 7%nat => m23 m | _ => m33 m
  end.

(** ** Symmetry operations x |-> R x + t with integer R *)
(** [x] and [y] are closer than [tol] up to a whole number of periods *)
Definition near1 (tol x y : R) : Prop := exists z : Z, (Rabs (x - y - IZR z) < tol)%R.
Definition near3 (tol x y : vec R) : Prop :=
  near1 (vx tol) (vx x) (vx y) /\ near1 (vy tol) (vy x) (vy y) /\ near1 (vz tol) (vz x) (vz y).
(** action of {R|t} on a point *)
Definition act (r : mat Z) (t v : vec R) : vec R := Vadd (Mapp (MofZ r) v) t.
(** all entries between -b and b *)
Definition entries_within (lo hi : Z) (m : mat Z) : Prop :=
  (lo <= m11 m <= hi /\ lo <= m12 m <= hi /\ lo <= m13 m <= hi /\
   lo <= m21 m <= hi /\ lo <= m22 m <= hi /\ lo <= m23 m <= hi /\
   lo <= m31 m <= hi /\ lo <= m32 m <= hi /\ lo <= m33 m <= hi)%Z.
(** representable as Matrix3<i8> *)
Definition i8_range (m : mat Z) : Prop := entries_within (-128) 127 m.

(** ** Matrix groups *)
(** non-empty products of generators *)
Inductive product_of (gens : list (mat Z)) : mat Z -> Prop :=
| po_gen g : In g gens -> product_of gens g
| po_mul a b : product_of gens a -> product_of gens b -> product_of gens (ZMmul a b).
(** a finite group of integer matrices of determinant +-1, listed without repetition *)
Record matrix_group (ops : list (mat Z)) : Prop := {
  mg_nodup : NoDup ops;
  mg_id : In ZMid ops;
  mg_mul : forall a b, In a ops -> In b ops -> In (ZMmul a b) ops;
  mg_inv : forall a, In a ops -> exists b, In b ops /\ ZMmul a b = ZMid /\ ZMmul b a = ZMid;
  mg_det : forall a, In a ops -> ZMdet a = 1%Z \/ ZMdet a = (-1)%Z }.

(** The 32 crystallographic point groups (international symbol, order), in the alphabetical
    numbering used by the crate. *)
From Coq Require Import String.
Definition point_groups : list (string * nat) :=
  [("1", 1%nat); ("-1", 2%nat); ("-3", 6%nat); ("-3m", 12%nat); ("-4", 4%nat); ("-42m", 8%nat);
   ("-43m", 24%nat); ("-6", 6%nat); ("-6m2", 12%nat); ("2", 2%nat); ("2/m", 4%nat); ("222", 4%nat);
   ("23", 12%nat); ("3", 3%nat); ("32", 6%nat); ("3m", 6%nat); ("4", 4%nat); ("4/m", 8%nat);
   ("4/mmm", 16%nat); ("422", 8%nat); ("432", 24%nat); ("4mm", 8%nat); ("6", 6%nat); ("6/m", 12%nat);
   ("6/mmm", 24%nat); ("622", 12%nat); ("6mm", 12%nat); ("m", 2%nat); ("m-3", 24%nat);
   ("m-3m", 48%nat); ("mm2", 4%nat); ("mmm", 8%nat)]%string.
(** some entry is 0, 1 or -1 *)
Definition has_unit_entry (m : mat Z) : bool :=
  existsb (fun z => Z.leb (Z.abs z) 1)
    [m11 m; m12 m; m13 m; m21 m; m22 m; m23 m; m31 m; m32 m; m33 m].

(** ** Structures *)
(** the smallest singular value exceeds 1e-6 *)
Definition well_conditioned (m : mat R) : Prop :=
  forall v, v <> V0 -> (1 / 1000000 * Vnorm v < Vnorm (Mapp m v))%R.
(** the entries of [xs] whose companion in [names] is [e], in order *)
Definition sites_named {A} (e : string) (names : list string) (xs : list A) : list A :=
  map snd (filter (fun p => String.eqb (fst p) e) (combine names xs)).
(** greatest common divisor of a list *)
Definition zgcd_list (l : list Z) : Z := fold_right Z.gcd 0%Z l.

(** ** Reduced cells *)
(** The Niggli conditions on a metric tensor, each comparison loosened by [eps]
    (International Tables A 9.2; Grosse-Kunstleve et al. 2004). *)
Record niggli_within (eps : R) (g : mat R) : Prop := {
  ng_ab : (m11 g <= m22 g + eps)%R;
  ng_bc : (m22 g <= m33 g + eps)%R;
  ng_xi : (Rabs (2 * m23 g) <= m22 g + eps)%R;
  ng_eta : (Rabs (2 * m13 g) <= m11 g + eps)%R;
  ng_zeta : (Rabs (2 * m12 g) <= m11 g + eps)%R;
  ng_sum : (- eps <= 2 * m23 g + 2 * m13 g + 2 * m12 g + m11 g + m22 g)%R;
  ng_sign : (eps <= 2 * m23 g /\ eps <= 2 * m13 g /\ eps <= 2 * m12 g)%R \/
            (2 * m23 g <= eps /\ 2 * m13 g <= eps /\ 2 * m12 g <= eps)%R;
  ng_a_b : (Rabs (m11 g - m22 g) <= eps -> Rabs (2 * m23 g) <= Rabs (2 * m13 g) + eps)%R;
  ng_b_c : (Rabs (m22 g - m33 g) <= eps -> Rabs (2 * m13 g) <= Rabs (2 * m12 g) + eps)%R;
  ng_xi_b : (Rabs (2 * m23 g - m22 g) <= eps -> 2 * m12 g <= 2 * (2 * m13 g) + eps)%R;
  ng_xi_mb : (Rabs (2 * m23 g + m22 g) <= eps -> - eps <= 2 * m12 g)%R;
  ng_eta_a : (Rabs (2 * m13 g - m11 g) <= eps -> 2 * m12 g <= 2 * (2 * m23 g) + eps)%R;
  ng_eta_ma : (Rabs (2 * m13 g + m11 g) <= eps -> - eps <= 2 * m12 g)%R;
  ng_zeta_a : (Rabs (2 * m12 g - m11 g) <= eps -> 2 * m13 g <= 2 * (2 * m23 g) + eps)%R;
  ng_zeta_ma : (Rabs (2 * m12 g + m11 g) <= eps -> - eps <= 2 * m13 g)%R;
  ng_sum_0 : (Rabs (2 * m23 g + 2 * m13 g + 2 * m12 g + m11 g + m22 g) <= eps ->
              2 * (m11 g + 2 * m13 g) + 2 * m12 g <= eps)%R }.
(** scalar products of the basis vectors *)
Definition gram (L : mat R) : mat R := Mmul (Mtr L) L.
(** the fourth vector of Selling's quadruple, minus the sum of the basis vectors *)
Definition fourth (L : mat R) : vec R := Vscal (-1) (Vadd (Vadd (Ccol L 0) (Ccol L 1)) (Ccol L 2)).
(** no two vectors of the quadruple have a scalar product above [tol] *)
Definition delaunay_within (tol : R) (L : mat R) : Prop :=
  (Vdot (Ccol L 0) (Ccol L 1) <= tol /\ Vdot (Ccol L 0) (Ccol L 2) <= tol /\ Vdot (Ccol L 1) (Ccol L 2) <= tol /\
   Vdot (Ccol L 0) (fourth L) <= tol /\ Vdot (Ccol L 1) (fourth L) <= tol /\ Vdot (Ccol L 2) (fourth L) <= tol)%R.
(** sum of the squared lengths of the quadruple *)
Definition quad_size (L : mat R) : R :=
  (Vdot (Ccol L 0) (Ccol L 0) + Vdot (Ccol L 1) (Ccol L 1) + Vdot (Ccol L 2) (Ccol L 2) + Vdot (fourth L) (fourth L))%R.
(** all scalar products of basis vectors are whole multiples of [u] *)
Definition unit_metric (u : R) (L : mat R) : Prop :=
  exists K : mat Z, gram L = (M (u * IZR (m11 K)) (u * IZR (m12 K)) (u * IZR (m13 K)) (u * IZR (m21 K)) (u * IZR (m22 K))
    (u * IZR (m23 K)) (u * IZR (m31 K)) (u * IZR (m32 K)) (u * IZR (m33 K)))%R.
(** the seven vectors a, b, c, d, a+b, b+c, c+a of a quadruple *)
Definition seven (L : mat R) : list (vec R) :=
  let a := Ccol L 0 in let b := Ccol L 1 in let c := Ccol L 2 in
  [a; b; c; fourth L; Vadd a b; Vadd b c; Vadd c a].
(** [t] carries every site to within [tol] of a site of the same species, modulo the lattice [L];
    sites are (fractional position, species) *)
Definition translation_within (tol : R) (L : mat R) (sites : list (vec R * string)) (t : vec R) : Prop :=
  forall x e, In (x, e) sites ->
    exists y n, In (y, e) sites /\ (Vnorm (Mapp L (Vadd (Vsub (Vadd x t) y) (VofZ n))) <= tol)%R.
