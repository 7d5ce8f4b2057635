(** Specification vocabulary for the synthetic data sets (C69, C95, C96). *)
From Coq Require Import ZArith List Bool Arith Reals Sorting.Permutation.
From Verif Require Import Num Spec_Rescale Spec_Poisson Model_Datasets.
Import ListNotations.

(** Number of informative features of the regression data sets: the requested number,
    cut off at the number of features; a negative number counts from the end. *)
Definition informative (p : nat) (k : Z) : nat :=
  if (k <? 0)%Z then Z.to_nat (Z.of_nat p + k) else Z.to_nat (Z.min k (Z.of_nat p)).
(** ... of the classification data sets: a negative number counts as 0. *)
Definition class_informative (p : nat) (k : Z) : nat :=
  Z.to_nat (Z.min (Z.max k 0) (Z.of_nat p)).

(** A set of [n] of the features 0, ..., p-1. *)
Definition features (p n : nat) (S : list nat) : Prop :=
  NoDup S /\ length S = n /\ forall j, In j S -> j < p.

(** The coefficients [c] equal the given values at the features in [S] and are zero
    elsewhere. *)
Definition supported_on (p : nat) (S : list nat) (value : nat -> R) (c : list R) : Prop :=
  length c = p /\
  (forall j, In j S -> entry c j = value j) /\
  (forall j, j < p -> ~ In j S -> entry c j = 0%R).

(** What the random generator guarantees about its draws: sizes, and that shuffling
    is a permutation. *)
Definition reg_draws_ok (n p : nat) (d : reg_draws Rnum) : Prop :=
  matrix n p (d_X d) /\ length (d_beta d) = p /\ Permutation (d_perm d) (seq 0 p) /\
  length (d_noise d) = n.
Definition class_draws_ok (n p out perms : nat) (d : class_draws Rnum) : Prop :=
  matrix n p (c_X d) /\ matrix p out (c_w d) /\ length (c_int d) = out /\
  length (c_perms d) = perms /\ Forall (fun q => Permutation q (seq 0 p)) (c_perms d).

(** Mean and variance of f(0), ..., f(n-1). *)
Definition average (n : nat) (f : nat -> R) : R := (Sum n f / INR n)%R.
Definition variance (n : nat) (f : nat -> R) : R :=
  average n (fun i => (f i - average n f) * (f i - average n f))%R.

(** The score of class [c] for sample [i]. *)
Definition score_of (p : nat) (X coef : list (list R)) (ic : list R) (c i : nat) : R :=
  (entry ic c + Sum p (fun j => mat X i j * mat coef c j))%R.
