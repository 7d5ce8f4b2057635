(** Specification vocabulary for a feature that is zero in every sample (C117). *)
From Coq Require Import List Floats.SpecFloat.
From Verif Require Import F64.
Import ListNotations.

(** 0.0 or -0.0 *)
Definition zero64 (x : f64) : Prop := exists s, x = S754_zero s.

(** Column [j] of the matrix is zero. *)
Definition zero_column (j : nat) (X : list (list f64)) : Prop :=
  Forall (fun r => zero64 (nth j r fzero)) X.

(** Neither a number other than zero nor infinite. *)
Definition zero_or_nan (x : f64) : Prop := zero64 x \/ x = fnan.
