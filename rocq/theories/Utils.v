(** Model of /repo/src/utils.rs *)
From Coq Require Import ZArith List Bool.
From Verif Require Import Num Mat.
Import ListNotations.
Open Scope Z_scope.

Section Utils.
  Context {N : Num}.
  Local Open Scope F_scope.

  (** utils.rs 7-13: the body of the loop over one component. *)
  Definition normalize1 (x tol : num) : num :=
    let x := frem1 x in
    if x <? fm1 * tol then x + f1
    else if x >? f1 - tol then x - f1
    else x.

  (** utils.rs 6-14: one vector *)
  Definition normalize_vec (v tols : vec num) : vec num := vmap2 normalize1 v tols.

  (** utils.rs 4-15 *)
  Definition normalize_frac_vectors (vecs : list (vec num)) (frac_tols : vec num) : list (vec num) :=
    map (fun v => normalize_vec v frac_tols) vecs.

  (** utils.rs 22-28: counters are i8 *)
  Definition nnz_step (eps : num) (c : Z * Z) (val : num) : Z * Z :=
    let '(neg, zero) := c in
    if val <? fm1 * eps then (wrap_i8 (neg + 1), zero)
    else if val <? eps then (neg, wrap_i8 (zero + 1))
    else (neg, zero).

  (** utils.rs 18-30 *)
  Definition num_negative_zero (l : list num) (eps : num) : Z * Z :=
    fold_left (nnz_step eps) l (0, 0)%Z.

  (** utils.rs 33-35 *)
  Definition cust_eq (a b eps : num) : bool :=
    negb ((a <? b - eps) || (b <? a - eps)).

  (** utils.rs 66-74: linear (column-major) indices; tols is an array of at least nine values *)
  Definition compare_matrices (a b : mat num) (tols : list num) : res bool :=
    (fix loop (xs ys ts : list num) : res bool :=
       match xs, ys with
       | x :: xs', y :: ys' =>
           match ts with
           | t :: ts' => if cust_eq x y t then loop xs' ys' ts' else Ok false
           | [] => Panic PIndex
           end
       | _, _ => Ok true
       end) (mlist a) (mlist b) tols.

  (** utils.rs 77-79 *)
  Definition approx_equal (a b tol : num) : bool := fabs (a - b) <? tol.

  (** utils.rs 81-89 *)
  Definition approx_equal_iter (a b : list num) (tol : num) : res bool :=
    if Nat.eqb (length a) (length b)
    then Ok (forallb (fun p => approx_equal (fst p) (snd p) tol) (combine a b))
    else Panic PLenMismatch.
End Utils.

(** utils.rs 39-47: the loop; [n] counts the remaining iterations of [0..len].
    [(new_e % base) as i8 - sub] wraps in i8; [out.insert(0, d)] is consing. *)
Fixpoint decode_loop (n : nat) (e base sub : Z) (out : list Z) : list Z :=
  match n with
  | O => out
  | S n' => decode_loop n' (e / base) base sub (wrap_i8 (wrap_i8 (e mod base) - sub) :: out)
  end.

(** utils.rs 39-47.  e : u32, base : u8, sub, len : i8.  [e % 0] panics. *)
Definition decode (e base sub len : Z) : res (list Z) :=
  if (base =? 0) && (0 <? len) then Panic PDivZero
  else Ok (decode_loop (Z.to_nat len) e base sub []).

(** utils.rs 50 *)
Definition base8_translation_map : list Z := [0; 2; 3; 4; 6; 8; 9; 10].

(** utils.rs 49-62; [i as usize] of a negative i8 is out of bounds as well. *)
Definition decode_spg_op (n : Z) : res (list Z * list Z) :=
  let num_rot := n mod (3 ^ 9) in
  let num_trans := n / (3 ^ 9) in
  do dec_rot <- decode num_rot 3 1 9;
  do dec_trans <- decode num_trans 8 0 3;
  do tr <- map_res (fun i => if i <? 0 then Panic PIndex
                             else of_opt PIndex (nth_error base8_translation_map (Z.to_nat i))) dec_trans;
  Ok (dec_rot, tr).
