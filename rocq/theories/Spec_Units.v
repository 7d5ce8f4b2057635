(** Specification vocabulary for the units of the response (C123), in real numbers. *)
From Coq Require Import List Reals.
From Verif Require Import Spec_Rescale Spec_Poisson Spec_Linear Spec_Estimation.
Import ListNotations.
Local Open Scope R_scope.

(** The samples [rows] of a matrix. *)
Definition samples (X : list (list R)) (rows : list nat) : list (list R) := map (fun i => nth i X []) rows.

(** The response in other units: multiplied by [s] and shifted by [t]. *)
Definition converted (s t : R) (y : list R) : list R := map (fun v => s * v + t) y.

(** Two vectors have their non-zero entries at the same places. *)
Definition same_features (p : nat) (c c' : list R) : Prop :=
  forall j, (j < p)%nat -> entry c j <> 0 <-> entry c' j <> 0.

(** [c] minimizes the documented objective of the Lasso and the elastic net. *)
Definition net_solution (has : bool) (n p : nat) X y lam mix (c : list R) : Prop :=
  exists b, net_minimizer has n p X y lam mix c b.

(** All minimizers select the same features. *)
Definition clear_features (has : bool) (n p : nat) X y lam mix : Prop :=
  forall c c', net_solution has n p X y lam mix c -> net_solution has n p X y lam mix c' -> same_features p c c'.

(** [m] is the only model with the smallest sum of squared errors. *)
Definition only_least_squares (has : bool) (k : nat) X y (m : list R * R) : Prop :=
  least_squares has k X y m /\ forall m', least_squares has k X y m' -> m' = m.
