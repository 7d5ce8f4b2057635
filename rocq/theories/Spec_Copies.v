(** Specification vocabulary for copies of a feature (C132), in real numbers. *)
From Coq Require Import List Reals.
From Verif Require Import Spec_Poisson.
Import ListNotations.
Local Open Scope R_scope.

(** Features [j] and [k] are the same in all [n] samples. *)
Definition copies (n : nat) (X : list (list R)) (j k : nat) : Prop :=
  forall i, (i < n)%nat -> mat X i j = mat X i k.
