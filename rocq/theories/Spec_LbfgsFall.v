(** Specification vocabulary for objectives without a lower bound (C110). *)
From Coq Require Import ZArith List Bool Arith Reals.
From Verif Require Import Num Spec_Rescale Model_Lbfgs Spec_Lbfgs Spec_LbfgsBack Spec_LbfgsQuad.
Import ListNotations.
Local Open Scope R_scope.

(** F lies below its tangents: it is concave, so that it falls without bound from every point
    where the gradient is not zero.  Linear functions are an example. *)
Definition below_tangents (n : nat) (F : list R -> R) (G : list R -> list R) : Prop :=
  forall x y, length x = n -> length y = n -> F y <= F x + along n (G x) x y.

(** The points at the steps [grown t0 1], [grown t0 2], ..., [grown t0 k], none beyond [limit]. *)
Fixpoint leaps (n : nat) (x g : list R) (t0 limit : R) (k : nat) (ys : list (list R)) : Prop :=
  match k with
  | 0%nat => ys = []
  | S k' => exists ys' y, ys = ys' ++ [y] /\ steepest n x g (Rmin limit (grown t0 k)) y /\ leaps n x g t0 limit k' ys'
  end.
