(** Specification vocabulary for the intercept of Poisson coordinate descent (C116). *)
From Coq Require Import List Reals Floats.SpecFloat.
From Verif Require Import F64 Spec_Rescale Spec_Poisson.
Import ListNotations.
Local Open Scope R_scope.

(** Weighted mean of a vector of [n] numbers. *)
Definition waverage (n : nat) (sw v : list R) : R :=
  Sum n (fun i => entry sw i * entry v i) / Sum n (fun i => entry sw i).

(** No feature is worth its penalty: the weighted covariance of every feature with the
    response is at most [n * mix * lam] in absolute value.  With unit weights this is
    [lam] at least the largest penalty of the grid, lambda_max. *)
Definition nothing_selected (n p : nat) (X : list (list R)) (y sw : list R) (lam mix : R) : Prop :=
  forall j, (j < p)%nat ->
    Rabs (Sum n (fun i => entry sw i * mat X i j * (entry y i - waverage n sw y))) <= INR n * mix * lam.

(** No coordinate update divides by zero: there is an L2 penalty, or each column has a
    non-zero entry.  (A division by zero gives NaN, see C117; the reals have no NaN.) *)
Definition no_division_by_zero (n p : nat) (X : list (list R)) (lam mix : R) : Prop :=
  0 < lam * (1 - mix) \/ forall j, (j < p)%nat -> exists i, (i < n)%nat /\ mat X i j <> 0.

(** +inf *)
Definition overflows (x : f64) : Prop := x = S754_infinity false.
