(** Model of /repo/src/pointgroup.rs *)
From Coq Require Import ZArith List Bool String.
From Verif Require Import Num Mat Utils DataPG.
Import ListNotations.
Open Scope Z_scope.

(** pointgroup.rs 8-12 *)
Record point_group := PointGroup {
  pg_symbol : string;
  pg_operations : list (mat Z);
  pg_generators : list (mat Z) }.

(** HashSet::contains (pointgroup.rs 69) *)
Definition set_mem (m : mat Z) (s : list (mat Z)) : bool := existsb (zmat_eqb m) s.
(** HashSet::insert (pointgroup.rs 70-71); a set is the duplicate-free list of its elements. *)
Definition set_insert (s : list (mat Z)) (m : mat Z) : list (mat Z) :=
  if set_mem m s then s else s ++ [m].
(** HashSet::from_iter (pointgroup.rs 61-62) *)
Definition set_of_list (l : list (mat Z)) : list (mat Z) := fold_left set_insert l [].

(** pointgroup.rs 67-73: one pair of the inner loop; state = (symm_ops, generated) *)
Definition pg_pair_step (st : list (mat Z) * list (mat Z)) (p : mat Z * mat Z)
  : list (mat Z) * list (mat Z) :=
  let '(symm_ops, generated) := st in
  let op := i8_mmul (fst p) (snd p) in
  if set_mem op symm_ops then st
  else (set_insert symm_ops op, set_insert generated op).

Section PG.
  Context {H : HashOrd}.

  (** pointgroup.rs 64-76: the while loop, [n] rounds done so far.  The two sets are iterated in
      hash order; the vector at the end (78) is again in hash order. *)
  Fixpoint pg_rounds (fuel : nat) (path : list nat) (n : nat)
           (symm_ops new_ops : list (mat Z)) : res (list (mat Z)) :=
    match new_ops with
    | [] => Ok (hord (n :: 2%nat :: path) symm_ops)
    | _ =>
        match fuel with
        | O => OutOfFuel
        | S fuel' =>
            let pairs := iproduct (hord (n :: 0%nat :: path) symm_ops)
                                  (hord (n :: 1%nat :: path) new_ops) in
            let '(symm_ops', generated) := fold_left pg_pair_step pairs (symm_ops, []) in
            pg_rounds fuel' path (S n) symm_ops' generated
        end
    end.

  (** pointgroup.rs 60-81 *)
  Definition generate_operations (fuel : nat) (path : list nat) (generators : list (mat Z))
    : res (list (mat Z)) :=
    let s := set_of_list generators in pg_rounds fuel path 0 s s.

  (** pointgroup.rs 21-27: one generator *)
  Definition decode_generator (encoding : Z) : res (mat Z) :=
    do matrix_vec <- decode encoding 3 1 9;
    do m <- mat_from_iter matrix_vec;
    Ok (transpose m).

  (** pointgroup.rs 15-36 *)
  Definition pg_from_number (fuel : nat) (path : list nat) (pg_num : Z) : res point_group :=
    do symbol <- of_opt PUnwrapNone (am_get Z.eqb pg_num PG_NUM_TO_SYMBOL);
    do encoded_matrices <- of_opt PUnwrapNone (am_get Z.eqb pg_num PG_NUM_TO_GENERATOR_MATRICES);
    do decoded_matrices <- map_res decode_generator encoded_matrices;
    do operations <- generate_operations fuel path decoded_matrices;
    Ok (PointGroup symbol operations decoded_matrices).
End PG.

Section PGTrans.
  Context {N : Num}.
  (** pointgroup.rs 48-50 and 54-56 *)
  Definition pg_transform_op (inv t : mat num) (op : mat Z) : mat Z :=
    mround_i8 (mmul (mmul inv (mcast op)) t).

  (** pointgroup.rs 39-58 *)
  Definition pg_apply_transformation (self : point_group) (t : mat num) : res point_group :=
    match try_inverse t with
    | None => Panic PTransNotInvertible
    | Some inv =>
        Ok (PointGroup (pg_symbol self)
              (map (pg_transform_op inv t) (pg_operations self))
              (map (pg_transform_op inv t) (pg_generators self)))
    end.
End PGTrans.
