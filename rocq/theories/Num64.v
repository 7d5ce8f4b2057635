(** Binary64 numbers as a type of their own (Flocq), as another reading of the numerical
    models.  [Fnum] computes on all [spec_float] triples, including ones that are not
    binary64 numbers; here every element is one.  The operations agree (Proofs_Num64.v). *)
From Coq Require Import ZArith.
From Flocq Require Import Core IEEE754.BinarySingleNaN.
From Verif Require Import F64 F64Facts Num.

Definition Bnum (exp64 ln64 : bf -> bf) : NumOps :=
  mkNum bf (Bplus mode_NE) (Bminus mode_NE) (Bmult mode_NE) (Bdiv mode_NE) Bopp Babs
        (fun z => binary_normalize prec64 emax64 _ _ mode_NE z 0 false)
        Bleb Bltb Beqb exp64 ln64 (Bsqrt mode_NE) (B754_infinity true).
