(** Specification vocabulary for the optimizer on quadratic objectives (C105). *)
From Coq Require Import ZArith List Bool Arith Reals.
From Verif Require Import Num Spec_Rescale Model_Lbfgs Spec_Lbfgs.
Import ListNotations.
Local Open Scope R_scope.

(** The quadratic form u.Hv of the matrix [H]. *)
Definition form (n : nat) (H : nat -> nat -> R) (u v : list R) : R :=
  Sum n (fun i => Sum n (fun j => H i j * entry u i * entry v j)).

(** F(x) = x.Hx / 2 - b.x + c with a symmetric positive definite matrix, and its gradient
    Hx - b: least squares with independent features, for example. *)
Definition quadratic (n : nat) (F : list R -> R) (G : list R -> list R) : Prop :=
  exists (H : nat -> nat -> R) (b : nat -> R) (c : R),
    (forall i j, H i j = H j i) /\
    (forall d, length d = n -> (exists i, (i < n)%nat /\ entry d i <> 0) -> 0 < form n H d d) /\
    forall x, length x = n ->
      F x = form n H x x / 2 - Sum n (fun i => b i * entry x i) + c /\
      forall i, (i < n)%nat -> entry (G x) i = Sum n (fun j => H i j * entry x j) - b i.

(** The point [w] lies at [t] on the line through [x] with direction [d]. *)
Definition at_step (n : nat) (x d : list R) (t : R) (w : list R) : Prop :=
  length w = n /\ forall i, (i < n)%nat -> entry w i = entry x i + t * entry d i.

(** Nothing on the line through [x] and [y] is below [y]. *)
Definition lowest (n : nat) (F : list R -> R) (x y : list R) : Prop :=
  forall t w, length w = n -> (forall i, (i < n)%nat -> entry w i = entry x i + t * (entry y i - entry x i)) -> F y <= F w.

(** The step that a search tries after [k] trials have all been too short: it starts with
    [t0] and multiplies the increment by four. *)
Definition grown (t0 : R) (k : nat) : R := t0 * (4 ^ k - 1) / 3.

(** The options that the statements are about: the strong curvature condition is not
    void, the sufficient decrease allows the exact minimum, and the step bounds are not
    too close to each other. *)
Definition sensible (O : options Rnum) : Prop :=
  (o_ftol O : R) <= 1 / 2 /\ (o_ftol O : R) <= o_gtol O /\ (o_gtol O : R) < 1 /\ 5 * o_min_step O <= (o_max_step O : R) /\
  (o_min_step O : R) <= 1 /\ 0 < (o_max_step O : R).

(** What one accepted step from [x] looks like if the search starts with the step [t0]:
    - the first trial was accepted;
    - or the second one, at the minimum of the modified function of the search;
    - or the step ends at the lowest point of the line;
    - or the steps were multiplied by four until the last one met the conditions, without
      reaching the lowest point. *)
Definition quadratic_step (O : options Rnum) (n : nat) (F : list R -> R) (G : list R -> list R) (t0 : R) (x : list R)
    (q : report Rnum) : Prop :=
  let y := r_x q in
  (r_ls q = 1%Z /\ (r_step q : R) = Rmin (o_max_step O) t0) \/
  (r_ls q = 2%Z /\ along n (G y) x y = o_ftol O * along n (G x) x y) \/
  ((2 <= r_ls q)%Z /\ lowest n F x y) \/
  ((2 <= r_ls q)%Z /\ (r_step q : R) = Rmin (o_max_step O) (grown t0 (Z.to_nat (r_ls q))) /\ along n (G y) x y <= 0).

(** All steps of a run, where the first search starts with [t0] and the others with 1. *)
Fixpoint quadratic_steps (O : options Rnum) (n : nat) (F : list R -> R) (G : list R -> list R) (t0 : R) (x : list R)
    (log : list (report Rnum)) : Prop :=
  match log with
  | [] => True
  | q :: r => quadratic_step O n F G t0 x q /\ quadratic_steps O n F G 1 (r_x q) r
  end.

(** The lowest point [y] of some line of descent from [x] is at the step [t], which is out
    of reach for a search that starts with [t0]: below min_step or above max_step, or
    farther than the search can get in max_linesearch - 1 trials. *)
Definition out_of_reach (O : options Rnum) (n : nat) (F : list R -> R) (G : list R -> list R) (t0 : R) (x : list R) : Prop :=
  exists d t y, length d = n /\ dot n (G x) d < 0 /\ at_step n x d t y /\ lowest n F x y /\ 0 < t /\
    ((1 - o_ftol O) * t <= o_min_step O \/ (o_max_step O : R) <= t \/ (o_max_step O : R) < t0 \/
     grown t0 (Z.to_nat (o_max_linesearch O) - 1) < t).

(** The optimizer gave up: an LBFGSError, or a return with a warning other than that the
    number of iterations is exhausted. *)
Definition gave_up (out : outcome Rnum) : Prop :=
  out = Raises Prelude.LBFGSError \/ exists x k, out = Returned x (Some k) /\ k <> (-997)%Z.
