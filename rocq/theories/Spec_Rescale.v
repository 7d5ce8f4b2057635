(** Specification vocabulary for rescaling (C25, C31-C33): samples, coefficients,
    means and scales are vectors of [p] real numbers. *)
From Coq Require Import List Reals.
From Verif Require Import F64.
Import ListNotations.
Local Open Scope R_scope.

(** Sum of f(0), ..., f(p-1). *)
Definition Sum (p : nat) (f : nat -> R) : R := fold_right Rplus 0 (map f (seq 0 p)).

(** Entry number [j]. *)
Definition entry (v : list R) (j : nat) : R := nth j v 0.

(** Value of the linear model with coefficients [c] and intercept [b] at a raw sample. *)
Definition value (p : nat) (c : list R) (b : R) (x : list R) : R :=
  Sum p (fun j => entry c j * entry x j) + b.

(** Value of the model at the standardized sample: each feature is divided by its
    scale, after subtracting its mean if [centered]. *)
Definition std_value (p : nat) (centered : bool) (m s c : list R) (b : R) (x : list R) : R :=
  Sum p (fun j => entry c j * ((entry x j - if centered then entry m j else 0) / entry s j)) + b.

Definition scales_ok (p : nat) (s : list R) : Prop :=
  length s = p /\ forall j, (j < p)%nat -> entry s j <> 0.

(** A finite non-zero double, such as the scales computed by sklearn. *)
Definition proper (x : f64) : Prop := is_finite64 x = true /\ nonzero64 x = true.
