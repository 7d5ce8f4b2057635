(** Specification vocabulary: the rules by which More and Thuente's line search chooses its
    trial steps (C118).  A function along the line is given by its values and its slopes; 0 is
    the start. *)
From Coq Require Import ZArith List Bool Arith Reals.
From Verif Require Import Num Spec_Rescale Model_Lbfgs Spec_Lbfgs Spec_LbfgsBack.
Import ListNotations.
Local Open Scope R_scope.

(** The cubic with the values and slopes of [k] at [u] and [v] has its local minimum at [c]. *)
Definition lowest (k k' : R -> R) (u v c : R) : Prop :=
  exists a b, k u + k' u * (v - u) + b * (v - u) ^ 2 + a * (v - u) ^ 3 = k v /\ k' u + 2 * b * (v - u) + 3 * a * (v - u) ^ 2 = k' v /\
    k' u + 2 * b * (c - u) + 3 * a * (c - u) ^ 2 = 0 /\ 0 < 2 * b + 6 * a * (c - u).

(** The parabola with the value and slope of [k] at [u] and the value at [v] is lowest at [q]. *)
Definition vertex (k k' : R -> R) (u v q : R) : Prop :=
  exists b, k u + k' u * (v - u) + b * (v - u) ^ 2 = k v /\ k' u + 2 * b * (q - u) = 0 /\ 0 < b.

(** The line through the slopes at [u] and [v] vanishes at [q]. *)
Definition secant (k' : R -> R) (u v q : R) : Prop :=
  exists b, b <> 0 /\ k' u + b * (v - u) = k' v /\ k' u + b * (q - u) = 0.

(** [c] lies on the other side of [t] than [x]. *)
Definition beyond (x t c : R) : Prop := 0 < (c - t) * (t - x).

(** The minimum of the cubic beyond [t].  If there is none, liblbfgs takes an end of the
    interval allowed: the upper one if the mean slope exceeds a third of the sum of the two slopes. *)
Definition ahead (k k' : R -> R) (x t tmin tmax c : R) : Prop :=
  (lowest k k' x t c /\ beyond x t c) \/
  ((forall e, lowest k k' x t e -> ~ beyond x t e) /\ c = if Rlt_dec (k' x + k' t) (3 * ((k t - k x) / (t - x))) then tmax else tmin).

Definition nearer (t u v : R) : R := if Rlt_dec (Rabs (t - u)) (Rabs (t - v)) then u else v.
Definition farther (t u v : R) : R := if Rlt_dec (Rabs (t - v)) (Rabs (t - u)) then u else v.

(** The four cases.  [x] is the best step so far, [t] the one just tried, [y] the other end of
    the interval if [b], that is, if a minimum has been enclosed.  The flag says whether the
    choice is to be kept away from [y]. *)
Inductive pick (k k' : R -> R) (x y : R) (b : bool) (t tmin tmax : R) : R -> bool -> Prop :=
| pick_higher c q : k x < k t -> lowest k k' x t c -> vertex k k' x t q ->
    pick k k' x y b t tmin tmax (if Rlt_dec (Rabs (c - x)) (Rabs (q - x)) then c else (c + q) / 2) true
| pick_across c q : k t <= k x -> k' t * k' x < 0 -> lowest k k' x t c -> secant k' x t q ->
    pick k k' x y b t tmin tmax (farther t c q) false
| pick_flatter c q : k t <= k x -> 0 <= k' t * k' x -> Rabs (k' t) < Rabs (k' x) -> ahead k k' x t tmin tmax c -> secant k' x t q ->
    pick k k' x y b t tmin tmax (if b then nearer t c q else farther t c q) true
| pick_within c : k t <= k x -> 0 <= k' t * k' x -> Rabs (k' x) <= Rabs (k' t) -> b = true -> lowest k k' t y c ->
    pick k k' x y b t tmin tmax c false
| pick_further : k t <= k x -> 0 <= k' t * k' x -> Rabs (k' x) <= Rabs (k' t) -> b = false ->
    pick k k' x y b t tmin tmax tmax false.

(** The new interval. *)
Definition keep (k k' : R -> R) (x y : R) (b : bool) (t : R) : R * R * bool :=
  if Rlt_dec (k x) (k t) then (x, t, true)
  else if Rlt_dec (k' t * k' x) 0 then (t, x, true)
  else (t, y, b).

(** At most 0.66 of the way from [x] to [y]. *)
Definition capped (x y w : R) : R :=
  if Rlt_dec x y then Rmin (x + 66 / 100 * (y - x)) w else Rmax (x + 66 / 100 * (y - x)) w.

Definition chooses (k k' : R -> R) (x y : R) (b : bool) (t tmin tmax x' y' : R) (b' : bool) (u : R) : Prop :=
  exists w g, pick k k' x y b t tmin tmax w g /\ keep k k' x y b t = (x', y', b') /\
    u = if b' && g then capped x' y' (Rmax tmin (Rmin tmax w)) else Rmax tmin (Rmin tmax w).

Section Rules.
  (** ftol, gtol, xtol, min_step, max_step. *)
  Variables mu eta xtol lo hi : R.
  (** The objective along the line, its slope, the first step to try. *)
  Variables h h' : R -> R.
  Variable t0 : R.

  (** The line of sufficient decrease. *)
  Definition enough (t : R) : R := h 0 + mu * h' 0 * t.
  Definition acceptable (t : R) : Prop := h t <= enough t /\ Rabs (h' t) <= eta * Rabs (h' 0).
  (** The first stage is over. *)
  Definition settled (t : R) : Prop := h t <= enough t /\ Rmin mu eta * h' 0 <= h' t.
  (** In the first stage the line of sufficient decrease is subtracted if the trial
      is lower than the best step, but not enough. *)
  Definition tilt (first : bool) (x t : R) : R :=
    if first then if Rlt_dec (enough t) (h t) then if Rle_dec (h t) (h x) then mu * h' 0 else 0 else 0 else 0.
  Definition least (x y : R) (b : bool) : R := if b then Rmin x y else x.
  Definition most (x y : R) (b : bool) (t : R) : R := if b then Rmax x y else t + 4 * (t - x).
  (** Midway, if the interval has not shrunk to 0.66 of what it was two trials before. *)
  Definition halved (x y : R) (b : bool) (old u : R) : R :=
    if b then if Rle_dec (66 / 100 * old) (Rabs (y - x)) then (x + y) / 2 else u else u.
  (** The step is strictly inside the interval, which is not too small. *)
  Definition inside (x y : R) (b : bool) (t : R) : Prop :=
    b = true -> Rmin x y < t < Rmax x y /\ xtol * Rmax x y < Rmax x y - Rmin x y.
  (** It lies in the direction of descent from the best one. *)
  Definition downhill (x : R) (b : bool) (t : R) : Prop := if b then h' x <> 0 else x < t.

  (** The steps [ts] have been tried, [t] is the last; [first] is the stage, [x], [y] and [b] the interval,
      [width] and [old] the last widths. *)
  Inductive follows : list R -> bool -> R -> R -> bool -> R -> R -> R -> Prop :=
  | follows_first : follows [Rmin hi (Rmax lo t0)] true 0 0 false (hi - lo) (2 * (hi - lo)) (Rmin hi (Rmax lo t0))
  | follows_next ts first x y b width old t first' x' y' b' u t' :
      follows ts first x y b width old t -> lo < t < hi -> ~ acceptable t -> downhill x b t ->
      (first' = true <-> first = true /\ ~ settled t) ->
      chooses (fun r => h r - tilt first' x t * r) (fun r => h' r - tilt first' x t) x y b t (least x y b) (most x y b t) x' y' b' u ->
      t' = Rmin hi (Rmax lo (halved x' y' b' old u)) -> inside x' y' b' t' ->
      follows (ts ++ [t']) first' x' y' b' (if b' then Rabs (y' - x') else width) (if b' then width else old) t'.
End Rules.

(** [h] and [h'] are the values of F and its slopes on the way from [x] along -G x. *)
Definition descent_line (n : nat) (F : list R -> R) (G : list R -> list R) (x : list R) (h h' : R -> R) : Prop :=
  forall t y, steepest n x (G x) t y -> h t = F y /\ h' t = - dot n (G y) (G x).

(** From [x] to [t] the slope keeps its sign and gets flatter, but by less than half, while the
    cubic has no minimum beyond [t] and the mean slope does not suggest one. *)
Definition deceptive (h h' : R -> R) (x t : R) : Prop :=
  h t <= h x /\ 0 < h' t * h' x /\ Rabs (h' t) < Rabs (h' x) < 2 * Rabs (h' t) /\
  (forall e, lowest h h' x t e -> ~ beyond x t e) /\
  (if Rlt_dec x t then 3 * ((h t - h x) / (t - x)) <= h' x + h' t else h' x + h' t < 3 * ((h t - h x) / (t - x))).
