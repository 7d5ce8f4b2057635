(** Specification vocabulary for binary classification (C128), in real numbers. *)
From Coq Require Import List Arith Reals.
From Verif Require Import Prelude Spec_Rescale Spec_Poisson Spec_Linear Spec_Estimation Spec_Choice Spec_Units.
From Verif Require Spec_Logistic.
Import ListNotations.
Local Open Scope R_scope.

(** Mean logistic loss of responses 0 and 1 plus [lam] times the sum of the absolute
    coefficients. *)
Definition class_objective (n p : nat) X (y : list R) (lam : R) (c : list R) (b : R) : R :=
  / INR n * Sum n (fun i => ln (1 + exp (eta p X c b i)) - entry y i * eta p X c b i)
  + lam * Sum p (fun j => Rabs (entry c j)).

Definition class_minimizer (n p : nat) X y lam (m : list R * R) : Prop :=
  length (fst m) = p /\
  forall c' b', length c' = p -> class_objective n p X y lam (fst m) (snd m) <= class_objective n p X y lam c' b'.

(** All minimizers use the same features; there is only one minimizer. *)
Definition clear_classes (n p : nat) X y lam : Prop :=
  forall m m', class_minimizer n p X y lam m -> class_minimizer n p X y lam m' -> same_features p (fst m) (fst m').
Definition only_class_minimizer (n p : nat) X y lam (m : list R * R) : Prop :=
  class_minimizer n p X y lam m /\ forall m', class_minimizer n p X y lam m' -> m' = m.

(** The other class, as code and as number. *)
Definition other (v : nat) : nat := 1 - v.
Definition swapped (y : list R) : list R := map (fun v => 1 - v) y.
Definition opposite (l : list R) : list R := map Ropp l.

(** [b] makes the probabilities of the model with coefficients [c] add up to the number of
    ones: the optimal intercept for these coefficients. *)
Definition matching_intercept (n p : nat) X (y c : list R) (b : R) : Prop :=
  Sum n (fun i => / (1 + exp (- eta p X c b i))) = Sum n (entry y).

(** What an estimation bootstrap must provide for the codes [y]: rows of the data, training
    samples of which not exactly one half are ones, and for every candidate support a single
    model of maximal likelihood, found by [lm] for the classes as they are and swapped, which
    gives no scored sample the probability one half. *)
Definition decisive (n : nat) (X : list (list R)) (y : list nat) (lm : list (list R) -> list R -> list R * R) (target : nat)
    (supports : list (list bool)) (sp : list nat * list nat) : Prop :=
  let yr := part_y (map INR y) (fst sp) in
  fst sp <> [] /\ (forall i, In i (fst sp) -> (i < n)%nat) /\ (forall i, In i (scored target sp) -> (i < n)%nat) /\
  Spec_Logistic.share (map (fun i => nth i y 0%nat) (fst sp)) <> 1 / 2 /\
  forall mask, In mask supports -> existsb (fun b => b) mask = true ->
    let Xr := part X (fst sp) mask in let k := count (fun b => b) mask in let m := lm Xr yr in
    only_class_minimizer (length (fst sp)) k Xr yr 0 m /\
    class_minimizer (length (fst sp)) k Xr (swapped yr) 0 (lm Xr (swapped yr)) /\
    forall r, (r < length (scored target sp))%nat -> eta k (part X (scored target sp) mask) (fst m) (snd m) r <> 0.
