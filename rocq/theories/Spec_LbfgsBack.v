(** Specification vocabulary for a line search that turns back (C107). *)
From Coq Require Import ZArith List Bool Arith Reals.
From Verif Require Import Num Spec_Rescale Model_Lbfgs Spec_Lbfgs.
Import ListNotations.
Local Open Scope R_scope.

(** The objective, with a list of the points at which it is called. *)
Definition see {N : NumOps} {St} (f : objective N St) : objective N (St * list (list N)) :=
  fun st x g => let r := f (fst st) x g in ((fst r, snd st ++ [x]), snd r).

(** x - t g, coordinate by coordinate. *)
Definition steepest (n : nat) (x g : list R) (t : R) (y : list R) : Prop :=
  length y = n /\ forall i, (i < n)%nat -> entry y i = entry x i - t * entry g i.

(** Along the step of length [t] from x to y = x - t G x: the slope is still downwards at y,
    less than half as steep as at x but too steep for the curvature condition, and the mean
    slope in between is about a third of the sum of the two. *)
Definition flattens (O : options Rnum) (n : nat) (F : list R -> R) (G : list R -> list R) (t : R) (x y : list R) : Prop :=
  let a := dot n (G x) (G x) in
  let b := dot n (G y) (G x) in
  let m := (F x - F y) / t in
  0 < b /\ o_gtol O * a < b /\ 2 * b < a /\ a + b <= 3 * m <= a + b + sqrt (a * b).
