(** The IEEE binary64 instance of [Num] (Flocq's BinarySingleNaN, round to nearest even).
    [powf(1/3)] and [acos] are libm calls and stay abstract. *)
From Coq Require Import ZArith Bool.
From Flocq Require Import Core IEEE754.BinarySingleNaN.
From Verif Require Import Num.
Open Scope Z_scope.

Definition f64 := binary_float 53 1024.
Definition Hprec : Prec_gt_0 53 := eq_refl.
Definition Hmax : Prec_lt_emax 53 1024 := eq_refl.
#[export] Existing Instances Hprec Hmax.

(** libm oracle: f64::powf(x, 1.0/3.0) (reduce.rs 215, analyzer.rs 364) and f64::acos (structure.rs 102, 110, 118) *)
Class Libm := MkLibm { libm_cbrt : f64 -> f64; libm_acos : f64 -> f64 }.

Definition F_of_Z (z : Z) : f64 := binary_normalize 53 1024 Hprec Hmax mode_NE z 0 false.

(** [x % 1.0] (utils.rs 7): fmod is exact and keeps the sign of x; NaN for infinities. *)
Definition F_rem1 (x : f64) : f64 :=
  match x with
  | B754_finite s m e _ =>
      if 0 <=? e then B754_zero s
      else binary_normalize 53 1024 Hprec Hmax mode_NE (cond_Zopp s (Z.pos m mod 2 ^ (- e))) e s
  | B754_zero s => B754_zero s
  | _ => B754_nan
  end.

(** f64::signum *)
Definition F_signum (x : f64) : f64 :=
  match x with
  | B754_nan => B754_nan
  | _ => if Bsign x then F_of_Z (-1) else F_of_Z 1
  end.

(** [as i8] / [as i64]: truncate, saturate, NaN to 0 *)
Definition F_to_int (lo hi : Z) (x : f64) : Z :=
  match x with
  | B754_nan => 0
  | B754_infinity s => if s then lo else hi
  | _ => clamp lo hi (Btrunc x)
  end.

#[export] Instance FNum {L : Libm} : Num := {|
  num := f64;
  fofZ := F_of_Z;
  fadd := Bplus mode_NE; fsub := Bminus mode_NE; fmul := Bmult mode_NE; fdiv := Bdiv mode_NE;
  fneg := Bopp; fabs := Babs; fsqrt := Bsqrt mode_NE;
  flt := Bltb; fle := Bleb; feq := Beqb;
  frem1 := F_rem1;
  fround := Bnearbyint mode_NA;
  fsignum := F_signum;
  fcbrt := libm_cbrt;
  facos := libm_acos;
  fpi := binary_normalize 53 1024 Hprec Hmax mode_NE 7074237752028440 (-51) false;
  fto_i8 := F_to_int (-128) 127;
  fto_i64 := F_to_int (- 2 ^ 63) (2 ^ 63 - 1) |}.
