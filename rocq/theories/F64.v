(** IEEE-754 binary64 numbers and the operations used by the models.  The
    carrier and the arithmetic are those of the standard library
    ([Coq.Floats.SpecFloat]), so every definition here evaluates. *)
From Coq Require Import ZArith Bool List Floats.SpecFloat.
Import ListNotations.
Local Open Scope Z_scope.

Definition f64 := spec_float.

Definition prec64 : Z := 53.
Definition emax64 : Z := 1024.

Definition fadd : f64 -> f64 -> f64 := SFadd prec64 emax64.
Definition fsub : f64 -> f64 -> f64 := SFsub prec64 emax64.
Definition fmul : f64 -> f64 -> f64 := SFmul prec64 emax64.
Definition fdiv : f64 -> f64 -> f64 := SFdiv prec64 emax64.
Definition fsqrt : f64 -> f64 := SFsqrt prec64 emax64.
Definition fopp : f64 -> f64 := SFopp.
Definition fabs : f64 -> f64 := SFabs.

(** Comparisons: all false when an argument is NaN. *)
Definition feqb : f64 -> f64 -> bool := SFeqb.
Definition fltb : f64 -> f64 -> bool := SFltb.
Definition fleb : f64 -> f64 -> bool := SFleb.

Definition fzero : f64 := S754_zero false.
Definition fnan : f64 := S754_nan.
Definition finf : f64 := S754_infinity false.
Definition fninf : f64 := S754_infinity true.

(** Conversion of an integer (round to nearest even). *)
Definition f64_of_Z (z : Z) : f64 := binary_normalize prec64 emax64 z 0 false.
Definition fone : f64 := f64_of_Z 1.
Definition ftwo : f64 := f64_of_Z 2.

Definition is_nan64 (x : f64) : bool :=
  match x with S754_nan => true | _ => false end.

Definition is_finite64 (x : f64) : bool :=
  match x with S754_finite _ _ _ | S754_zero _ => true | _ => false end.

(** [x != 0] as numpy evaluates it: NaN counts as non-zero, both zeros do not. *)
Definition nonzero64 (x : f64) : bool :=
  match x with S754_zero _ => false | _ => true end.

(** Doubles that a Python program can hold (canonical mantissa and exponent). *)
Definition valid64 (x : f64) : bool := valid_binary prec64 emax64 x.

(** Truncation towards zero of a finite double. *)
Definition ftrunc (x : f64) : option Z :=
  match x with
  | S754_zero _ => Some 0
  | S754_finite s m e =>
      let a := if 0 <=? e then Z.pos m * 2 ^ e else Z.pos m / 2 ^ (- e) in
      Some (if s then - a else a)
  | _ => None
  end.
