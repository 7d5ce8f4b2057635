(** Specification vocabulary for UoI_Poisson in other units of the response (C125). *)
From Coq Require Import List Reals.
From Verif Require Import Spec_Rescale Spec_Poisson Spec_Units.
Import ListNotations.
Local Open Scope R_scope.

(** The documented objective of the Poisson regressor, where feature [j] is penalized in
    units of [d j] (1, or the standard deviation if the features are standardized first). *)
Definition count_objective (d : nat -> R) (n p : nat) X y lam mix (c : list R) (b : R) : R :=
  / INR n * Sum n (fun i => exp (eta p X c b i) - entry y i * eta p X c b i)
  + penalty p lam mix (map (fun j => d j * entry c j) (seq 0 p)).

Definition count_minimizer (d : nat -> R) (n p : nat) X y lam mix (m : list R * R) : Prop :=
  length (fst m) = p /\
  forall c' b', length c' = p -> count_objective d n p X y lam mix (fst m) (snd m) <= count_objective d n p X y lam mix c' b'.

(** All minimizers use the same features; there is only one minimizer. *)
Definition clear_counts (d : nat -> R) (n p : nat) X y lam mix : Prop :=
  forall m m', count_minimizer d n p X y lam mix m -> count_minimizer d n p X y lam mix m' -> same_features p (fst m) (fst m').
Definition only_minimizer (d : nat -> R) (n p : nat) X y lam mix (m : list R * R) : Prop :=
  count_minimizer d n p X y lam mix m /\ forall m', count_minimizer d n p X y lam mix m' -> m' = m.
