(** Specification vocabulary for the estimation module of the linear regressors (C119,
    C120), in real numbers. *)
From Coq Require Import List Reals.
From Verif Require Import Prelude Spec_Rescale Spec_Poisson.
Import ListNotations.
Local Open Scope R_scope.

(** The features of a support, and the samples [rows] of the data reduced to them. *)
Definition chosen (mask : list bool) : list nat := filter (fun j => nth j mask false) (seq 0 (length mask)).
Definition part (X : list (list R)) (rows : list nat) (mask : list bool) : list (list R) :=
  map (fun i => map (mat X i) (chosen mask)) rows.
Definition part_y (y : list R) (rows : list nat) : list R := map (entry y) rows.

(** Sum of squared errors. *)
Definition squared_error (k : nat) (X : list (list R)) (y c : list R) (b : R) : R :=
  Sum (length y) (fun i => (entry y i - eta k X c b i) * (entry y i - eta k X c b i)).

(** [m] is a model with [k] coefficients and the smallest sum of squared errors; without an
    intercept the intercept is 0 in all competing models. *)
Definition least_squares (has : bool) (k : nat) (X : list (list R)) (y : list R) (m : list R * R) : Prop :=
  length (fst m) = k /\ (has = false -> snd m = 0) /\
  forall c b, length c = k -> (has = false -> b = 0) ->
    squared_error k X y (fst m) (snd m) <= squared_error k X y c b.

(** A linear model on the features [S] that is 0 at the samples [rows] has no non-zero
    coefficient; [free]: it may have an intercept. *)
Definition identified (p : nat) (free : bool) (S : nat -> Prop) (X : list (list R)) (rows : list nat) : Prop :=
  forall c b, length c = p -> (free = false -> b = 0) -> (forall j, (j < p)%nat -> ~ S j -> entry c j = 0) ->
    (forall i, In i rows -> eta p X c b i = 0) -> forall j, (j < p)%nat -> entry c j = 0.

(** The response is a linear function of the features, without noise. *)
Definition noiseless (n p : nat) (X : list (list R)) (y beta : list R) (b : R) : Prop :=
  length beta = p /\ length y = n /\ forall i, (i < n)%nat -> entry y i = eta p X beta b i.

(** What a bootstrap (training rows, test rows) must provide: its training samples determine
    the model on some candidate support that contains all relevant features, and its test
    samples, at least two, distinguish the true coefficients from those of every candidate
    support. *)
Definition informative (has : bool) (n p : nat) (X : list (list R)) (beta : list R) (supports : list (list bool))
    (sp : list nat * list nat) : Prop :=
  fst sp <> [] /\ (2 <= length (snd sp))%nat /\ (forall i, In i (fst sp) -> (i < n)%nat) /\ (forall i, In i (snd sp) -> (i < n)%nat) /\
  (forall mask, In mask supports -> identified p true (fun j => nth j mask false = true \/ entry beta j <> 0) X (snd sp)) /\
  exists mask, In mask supports /\ (forall j, (j < p)%nat -> entry beta j <> 0 -> nth j mask false = true) /\
    identified p has (fun j => nth j mask false = true) X (fst sp).

(** Sum of squared distances of the entries of a vector from a number. *)
Definition distance2 (v : list R) (m : R) : R := Sum (length v) (fun i => (entry v i - m) * (entry v i - m)).
