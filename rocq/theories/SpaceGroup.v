(** Model of /repo/src/spacegroup.rs.  A [SpaceGroup] is its list of operations (lines 12-14). *)
From Coq Require Import ZArith List Bool.
From Verif Require Import Num Mat Utils SymmOp.
Import ListNotations.
Open Scope Z_scope.

Section SG.
  Context {N : Num}.
  Local Open Scope F_scope.

  (** data/core.rs 8 *)
  Definition ZERO_TOL : num := flit 1 1000000.

  (** spacegroup.rs 141-152: one pair; state = (symm_ops, generated) *)
  Definition sg_pair_step (frac_tols : vec num) (st : list symmop * list symmop)
             (p : symmop * symmop) : list symmop * list symmop :=
    let '(symm_ops, generated) := st in
    let op := op_mul (fst p) (snd p) in
    if existsb (fun symm_op => is_approx_eq symm_op op frac_tols) symm_ops then st
    else let op := op_normalize op frac_tols in (symm_ops ++ [op], generated ++ [op]).

  (** spacegroup.rs 138-155 *)
  Fixpoint sg_rounds (fuel : nat) (frac_tols : vec num) (symm_ops new_ops : list symmop)
    : res (list symmop) :=
    match new_ops with
    | [] => Ok symm_ops
    | _ =>
        match fuel with
        | O => OutOfFuel
        | S fuel' =>
            let '(symm_ops', generated) :=
              fold_left (sg_pair_step frac_tols) (iproduct symm_ops new_ops) (symm_ops, []) in
            sg_rounds fuel' frac_tols symm_ops' generated
        end
    end.

  (** spacegroup.rs 22-28, 135-157 *)
  Definition from_generators (fuel : nat) (generators : list symmop) (frac_tols : vec num)
    : res (list symmop) := sg_rounds fuel frac_tols generators generators.

  (** spacegroup.rs 53 and structure.rs 161 *)
  Definition volume_ratio (t : mat num) : num :=
    fround (fabs (det t) * fofZ 100) / fofZ 100.

  (** spacegroup.rs 67-69 and structure.rs 168-170: [mult] as a count *)
  Definition unit_translations (mult : nat) : list (vec num) :=
    map (fun p => V (fofZ (fst (fst p))) (fofZ (snd (fst p))) (fofZ (snd p)))
        (iproduct (iproduct (zrange mult) (zrange mult)) (zrange mult)).

  (** spacegroup.rs 77-79: [any] entry close to 0 or to +-1 *)
  Definition sg_keeps_rotation (float_rot : mat num) : bool :=
    existsb (fun v => (fabs v <? ZERO_TOL) || (fabs (fabs v - f1) <? ZERO_TOL)) (mlist float_rot).

  (** HashMap::entry(k).or_default() read (spacegroup.rs 96-99) *)
  Definition found_get (k : mat Z) (m : list (mat Z * list (vec num))) : list (vec num) :=
    match am_get zmat_eqb k m with Some l => l | None => [] end.

  (** spacegroup.rs 90-128: one candidate translation; state = (found_vectors_mapping, new_operations) *)
  Definition sg_vec_step (inv : mat num) (frac_tols : vec num) (op : symmop) (trans_rotation : mat Z)
             (st : list (mat Z * list (vec num)) * list symmop) (v : vec num)
    : list (mat Z * list (vec num)) * list symmop :=
    let '(found, new_operations) := st in
    let trans_vec := normalize_vec (mvmul inv (vadd (translation op) v)) frac_tols in
    let seen := found_get trans_rotation found in
    if existsb (fun f => within_tols (normalize_vec (vsub trans_vec f) frac_tols) frac_tols) seen
    then st
    else
      let trans_vec := normalize_vec trans_vec frac_tols in
      (am_insert zmat_eqb trans_rotation (seen ++ [trans_vec]) found,
       new_operations ++ [SymmOp trans_rotation trans_vec]).

  (** spacegroup.rs 71-129: one operation; state = (initial_num_ops, found, new_operations) *)
  Definition sg_op_step (inv t : mat num) (frac_tols : vec num) (tvecs : list (vec num))
             (st : num * (list (mat Z * list (vec num)) * list symmop)) (op : symmop)
    : num * (list (mat Z * list (vec num)) * list symmop) :=
    let '(n0, acc) := st in
    let float_rot := mmul (mmul inv (mcast (rotation op))) t in
    if sg_keeps_rotation float_rot
    then (n0, fold_left (sg_vec_step inv frac_tols op (mround_i8 float_rot)) tvecs acc)
    else (n0 - f1, acc).

  (** spacegroup.rs 63 / structure.rs 165: [(n as f64 / d) < ratio].  With d = 0 the quotient is NaN
      or +inf and the comparison is false; written out so that it also holds in the real instance. *)
  Definition ratio_lt (n : nat) (d ratio : num) : bool :=
    if d =? f0 then false else fofZ (Z.of_nat n) / d <? ratio.

  (** spacegroup.rs 63-131 *)
  Fixpoint sg_search (fuel : nat) (inv t : mat num) (frac_tols : vec num) (ratio : num)
           (ops : list symmop) (mult : nat)
           (st : num * (list (mat Z * list (vec num)) * list symmop)) : res (list symmop) :=
    let '(n0, (found, new_operations)) := st in
    if ratio_lt (length new_operations) n0 ratio then
      match fuel with
      | O => OutOfFuel
      | S fuel' =>
          sg_search fuel' inv t frac_tols ratio ops (S mult)
            (fold_left (sg_op_step inv t frac_tols (unit_translations mult)) ops st)
      end
    else Ok new_operations.

  (** spacegroup.rs 38-133 *)
  Definition sg_apply_transformation (fuel : nat) (ops : list symmop) (t : mat num)
             (frac_tols : vec num) : res (list symmop) :=
    match try_inverse t with
    | None => Panic PTransNotInvertible
    | Some inv =>
        sg_search fuel inv t frac_tols (volume_ratio t) ops 2
          (fofZ (Z.of_nat (length ops)), ([], []))
    end.
End SG.
