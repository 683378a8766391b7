(** Model of /repo/src/symmop.rs *)
From Coq Require Import ZArith List Bool.
From Verif Require Import Num Mat Utils.
Import ListNotations.
Open Scope Z_scope.

(** symmop.rs 8-11 *)
Record symmop {N : Num} := SymmOp { rotation : mat Z; translation : vec num }.
Arguments symmop : clear implicits.
Arguments symmop {N}.
Arguments SymmOp {N} _ _.

Section SymmOp.
  Context {N : Num}.
  Local Open Scope F_scope.

  (** symmop.rs 24-27: [.iter().enumerate().all(|(i, val)| val.abs() < frac_tols[i])] *)
  Definition within_tols (d tols : vec num) : bool :=
    if fabs (vx d) <? vx tols then
      if fabs (vy d) <? vy tols then fabs (vz d) <? vz tols else false
    else false.

  (** symmop.rs 20-30; the rotations are compared first here (the source computes both and then [&&]s,
      there are no effects) *)
  Definition is_approx_eq (self op : symmop) (frac_tols : vec num) : bool :=
    if zmat_eqb (rotation self) (rotation op)
    then within_tols (normalize_vec (vsub (translation self) (translation op)) frac_tols) frac_tols
    else false.

  (** symmop.rs 37-42 *)
  Definition op_normalize (self : symmop) (frac_tols : vec num) : symmop :=
    SymmOp (rotation self) (normalize_vec (translation self) frac_tols).

  (** symmop.rs 49-60 *)
  Definition op_mul (self rhs : symmop) : symmop :=
    let new_rotation := i8_mmul (rotation self) (rotation rhs) in
    let float_rotation := mcast (rotation rhs) in
    let new_translation := vadd (mvmul float_rotation (translation self)) (translation rhs) in
    SymmOp new_rotation new_translation.

  (** symmop.rs 67-71 *)
  Definition op_apply (self : symmop) (rhs : vec num) : vec num :=
    vadd (mvmul (mcast (rotation self)) rhs) (translation self).
End SymmOp.
