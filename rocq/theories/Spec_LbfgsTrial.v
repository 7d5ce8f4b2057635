(** Specification vocabulary for the trials of the default line search (C109). *)
From Coq Require Import ZArith List Bool Arith Reals.
From Verif Require Import Num Spec_Rescale Model_Lbfgs Spec_Lbfgs Spec_LbfgsBack.
Import ListNotations.
Local Open Scope R_scope.

(** The sufficient decrease fails after the step [t] from x to y = x - t G x. *)
Definition insufficient (O : options Rnum) (n : nat) (F : list R -> R) (G : list R -> list R) (x : list R) (t : R) (y : list R) : Prop :=
  F x - o_ftol O * t * dot n (G x) (G x) < F y.

(** The cubic polynomial with value [f0] and slope [d0] at 0, and [ft] and [dt] at [t], has the
    slope [s] at [c], and is convex there. *)
Definition cubic_point (f0 d0 ft dt t s c : R) : Prop :=
  exists a b, f0 + d0 * t + b * t ^ 2 + a * t ^ 3 = ft /\ d0 + 2 * b * t + 3 * a * t ^ 2 = dt /\
    d0 + 2 * b * c + 3 * a * c ^ 2 = s /\ 0 < 2 * b + 6 * a * c.

(** The parabola with value [f0] and slope [d0] at 0 and value [ft] at [t] has the slope [s] at [q]. *)
Definition parabola_point (f0 d0 ft t s q : R) : Prop :=
  exists b, f0 + d0 * t + b * t ^ 2 = ft /\ d0 + 2 * b * q = s /\ 0 < b.

(** The step to try after [t] was too long: if the value at y is above the one at x, where the
    cubic that interpolates values and slopes at x and y is lowest, provided that this is
    nearer to x than where the parabola is lowest, and the mean of the two otherwise.  If the
    value at y is just not low enough, not the lowest points are taken, but those where the
    slope is ftol times the one at x.  All this at most 0.66 t, and at least min_step. *)
Definition shorter (O : options Rnum) (n : nat) (F : list R -> R) (G : list R -> list R) (x : list R) (t : R) (y : list R) (t' : R) : Prop :=
  let a := dot n (G x) (G x) in
  let s := if Rle_dec (F y) (F x) then - (o_ftol O * a) else 0 in
  exists c q, cubic_point (F x) (- a) (F y) (- dot n (G y) (G x)) t s c /\ parabola_point (F x) (- a) (F y) t s q /\
    t' = Rmax (o_min_step O) (Rmin (66 / 100 * t) (if Rlt_dec c q then c else (c + q) / 2)).

(** Trials [ys] from [x], ending with the step [t] to [y], each but the last not sufficient and followed
    by the shorter one. *)
Inductive backs (O : options Rnum) (n : nat) (F : list R -> R) (G : list R -> list R) (x : list R) : list (list R) -> R -> list R -> Prop :=
| backs_first y : steepest n x (G x) (1 / norm n (G x)) y -> backs O n F G x [y] (1 / norm n (G x)) y
| backs_next ys t y t' y' : backs O n F G x ys t y -> o_min_step O < t -> insufficient O n F G x t y ->
    shorter O n F G x t y t' -> steepest n x (G x) t' y' -> backs O n F G x (ys ++ [y']) t' y'.

(** F lies below its tangents plus M/2 times the squared distance. *)
Definition smooth (n : nat) (F : list R -> R) (G : list R -> list R) (M : R) : Prop :=
  forall x y, length x = n -> length y = n -> F y <= F x + along n (G x) x y + M / 2 * (distance n x y * distance n x y).
