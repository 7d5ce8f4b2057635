(** Specification vocabulary for the convergence of the optimizer (C106). *)
From Coq Require Import ZArith List Bool Arith Reals.
From Verif Require Import Num Spec_Rescale Model_Lbfgs Spec_Lbfgs.
Import ListNotations.
Local Open Scope R_scope.

(** F lies above its tangents by at least mu/2 times the squared distance. *)
Definition strongly_convex (n : nat) (F : list R -> R) (G : list R -> list R) (mu : R) : Prop :=
  forall x y, length x = n -> length y = n ->
    F x + along n (G x) x y + mu / 2 * (distance n x y * distance n x y) <= F y.

(** The gradient changes by at most M times the distance. *)
Definition lipschitz (n : nat) (G : list R -> list R) (M : R) : Prop :=
  forall x y, length x = n -> length y = n -> distance n (G x) (G y) <= M * distance n x y.

(** The curvature parameter of each line search. *)
Definition curvature_tol (O : options Rnum) (alg : algorithm) : R :=
  match alg with MoreThuente => o_gtol O | _ => o_wolfe O end.

(** Bounds on what [m] correction pairs can make of a gradient: the least cosine-like
    factor and the greatest stretching. *)
Definition least (mu M : R) (m : nat) : R := Rmin 1 (mu / (M * M * 2 ^ m)).
Definition most (mu M : R) (m : nat) : R := Rmax 1 (INR (S m) * (1 + M / mu) ^ (2 * m) / mu).

(** Every accepted step lowers F by at least [gain] times the squared norm of the gradient. *)
Definition gain (O : options Rnum) (alg : algorithm) (mu M : R) : R :=
  let m := Z.to_nat (o_m O) in
  let q := least mu M m / most mu M m in
  o_ftol O * (1 - curvature_tol O alg) / M * (q * q).

(** A step from x to y lowers F by [d] times the squared norm of the gradient at x. *)
Definition lowers (n : nat) (F : list R -> R) (G : list R -> list R) (d : R) (x y : list R) : Prop :=
  F y <= F x - d * (norm n (G x) * norm n (G x)).

(** A step from x to y multiplies the distance of F to its value anywhere else, in
    particular to its minimum, by at most [q]. *)
Definition contracts (n : nat) (F : list R -> R) (q : R) (x y : list R) : Prop :=
  forall u, length u = n -> F y - F u <= q * (F x - F u).
