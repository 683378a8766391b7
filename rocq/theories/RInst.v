(** The exact-real instance of [Num]: what /repo/src would compute without rounding.
    NaN and infinities do not exist here; [x / 0] is whatever Coq's Rdiv gives and no theorem
    relies on it. *)
From Coq Require Import ZArith Reals.
From Flocq Require Import Core.Raux.
From Verif Require Import Num.
Open Scope R_scope.

(** f64::round (used at spacegroup.rs 53, 86; structure.rs 161; pointgroup.rs 50, 56): half away from zero *)
Definition Rround (x : R) : Z := if Rle_bool 0 x then Zfloor (x + / 2) else Zceil (x - / 2).
(** f64::signum (reduce.rs 333, 346, 359); +0.0 counts as positive *)
Definition Rsignum (x : R) : R := if Rlt_bool x 0 then -1 else 1.
(** powf(1.0/3.0) (reduce.rs 215, analyzer.rs 364) for non-negative bases; a negative base gives NaN in
    f64, which the real instance does not represent (see FInst.v) *)
Definition Rcbrt (x : R) : R := if Rlt_bool 0 x then Rpower x (/ 3) else 0.

#[export] Instance RNum : Num := {|
  num := R;
  fofZ := IZR;
  fadd := Rplus; fsub := Rminus; fmul := Rmult; fdiv := Rdiv;
  fneg := Ropp; fabs := Rabs; fsqrt := R_sqrt.sqrt;
  flt := Rlt_bool; fle := Rle_bool; feq := Req_bool;
  frem1 := fun x => x - IZR (Ztrunc x);
  fround := fun x => IZR (Rround x);
  fsignum := Rsignum;
  fcbrt := Rcbrt;
  facos := Ratan.acos;
  fpi := PI;
  fto_i8 := fun x => clamp (-128) 127 (Ztrunc x);
  fto_i64 := fun x => clamp (- 2 ^ 63) (2 ^ 63 - 1) (Ztrunc x) |}.
