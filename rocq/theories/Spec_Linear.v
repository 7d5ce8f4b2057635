(** Specification vocabulary for the linear regressors (C101, C102), in real numbers. *)
From Coq Require Import List Reals.
From Verif Require Import Spec_Rescale Spec_Poisson.
Import ListNotations.
Local Open Scope R_scope.

(** Column [j] of a matrix with [n] rows. *)
Definition col (n : nat) (X : list (list R)) (j : nat) : list R := map (fun i => mat X i j) (seq 0 n).

(** Population standard deviation. *)
Definition deviation (n : nat) (v : list R) : R :=
  sqrt (Sum n (fun i => (entry v i - average n v) * (entry v i - average n v)) / INR n).

(** Not all of the [n] numbers are equal. *)
Definition varies (n : nat) (v : list R) : Prop :=
  exists i k, (i < n)%nat /\ (k < n)%nat /\ entry v i <> entry v k.

(** Sum of products of feature [j] and response, about their means if there is an
    intercept. *)
Definition comoment (has : bool) (n : nat) (X : list (list R)) (y : list R) (j : nat) : R :=
  Sum n (fun i => (mat X i j - if has then average n (col n X j) else 0)
                  * (entry y i - if has then average n y else 0)).

(** [m] is the largest absolute value of f(0), ..., f(p-1). *)
Definition largest (p : nat) (f : nat -> R) (m : R) : Prop :=
  (forall j, (j < p)%nat -> Rabs (f j) <= m) /\ (exists j, (j < p)%nat /\ Rabs (f j) = m).

(** The documented objective of the Lasso and the elastic net. *)
Definition net (n p : nat) (X : list (list R)) (y : list R) (lam mix : R) (c : list R) (b : R) : R :=
  / (2 * INR n) * Sum n (fun i => (entry y i - eta p X c b i) * (entry y i - eta p X c b i))
  + penalty p lam mix c.

(** A minimizer; without an intercept it is 0 in all competing models. *)
Definition net_minimizer (has : bool) (n p : nat) X y lam mix (c : list R) (b : R) : Prop :=
  length c = p /\ (has = false -> b = 0) /\
  forall c' b', length c' = p -> (has = false -> b' = 0) -> net n p X y lam mix c b <= net n p X y lam mix c' b'.

(** The same measurements in other units: every feature is multiplied by a positive
    number and shifted. *)
Definition other_units (n p : nat) (a d : nat -> R) (X X2 : list (list R)) : Prop :=
  matrix n p X /\ matrix n p X2 /\
  (forall j, (j < p)%nat -> 0 < a j) /\
  forall i j, (i < n)%nat -> (j < p)%nat -> mat X2 i j = a j * mat X i j + d j.
Definition other_sample (p : nat) (a d : nat -> R) (x x2 : list R) : Prop :=
  length x = p /\ length x2 = p /\ forall j, (j < p)%nat -> entry x2 j = a j * entry x j + d j.
Definition other_response (n : nat) (s t : R) (y y2 : list R) : Prop :=
  length y = n /\ length y2 = n /\ 0 < s /\ forall i, (i < n)%nat -> entry y2 i = s * entry y i + t.

(** Correlation of two columns (0 if one of them is constant). *)
Definition correlation (n : nat) (u v : list R) : R :=
  Sum n (fun i => (entry u i - average n u) * (entry v i - average n v)) / INR n / (deviation n u * deviation n v).
