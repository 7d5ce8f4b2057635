(** Specification vocabulary for the probabilities in binary64 (C108). *)
From Coq Require Import ZArith List Bool.
From Flocq Require Import IEEE754.BinarySingleNaN.
From Verif Require Import F64 F64Facts.
Import ListNotations.

Definition zero64 : bf := B754_zero false.
Definition of_Z (z : Z) : bf := binary_normalize prec64 emax64 _ _ mode_NE z 0 false.
Definition one64 : bf := of_Z 1.

(** 0 <= p <= 1; in particular p is not NaN. *)
Definition probability (p : bf) : Prop := Bleb zero64 p = true /\ Bleb p one64 = true.

(** What is assumed of the exponential function: its values for x <= 0 (also for minus
    infinity) are between 0 and 1, and exp(0) = 1. *)
Definition fair_exp (e : bf -> bf) : Prop :=
  (forall x, Bleb x zero64 = true -> probability (e x)) /\ (forall x, Beqb x zero64 = true -> e x = one64).
Definition increasing (e : bf -> bf) : Prop := forall x y, Bleb x y = true -> Bleb (e x) (e y) = true.
(** For predict_proba also: at least 1 (possibly infinite) for x >= 0. *)
Definition large_exp (e : bf -> bf) : Prop := forall x, Bleb zero64 x = true -> Bleb one64 (e x) = true.
(** And of the logarithm: between 0 and 1 on [1, 2]. *)
Definition fair_ln (l : bf -> bf) : Prop :=
  forall x, Bleb one64 x = true -> Bleb x (of_Z 2) = true -> probability (l x).

(** [t] is a sum of the numbers in some order and with some bracketing (numpy's pairwise
    summation is one). *)
Inductive summed : list bf -> bf -> Prop :=
| sum_one x : summed [x] x
| sum_zero l t : summed l t -> summed l (Bplus mode_NE t zero64)
| sum_two l l' r t u : summed l t -> summed r u -> (forall x, In x l' <-> In x l \/ In x r) -> length l' = (length l + length r)%nat ->
    summed l' (Bplus mode_NE t u).
