(** Specification vocabulary for features without information (C124), in real numbers. *)
From Coq Require Import List Reals.
From Verif Require Import Spec_Poisson.
Import ListNotations.
Local Open Scope R_scope.

(** Feature [j] has the same value in the samples [rows]; without an intercept this value is 0. *)
Definition flat (has : bool) (X : list (list R)) (rows : list nat) (j : nat) : Prop :=
  exists v, (forall i, In i rows -> mat X i j = v) /\ (has = false -> v = 0).
