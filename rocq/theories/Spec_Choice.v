(** Specification vocabulary for the choice that the estimation module of the linear
    regressors makes (C121, C122), in real numbers. *)
From Coq Require Import String List Arith Bool Reals Permutation Sorted.
From Verif Require Import Prelude Spec_Rescale Spec_Poisson Spec_Estimation.
Import ListNotations.
Local Open Scope R_scope.

(** Sum of squared errors, on the samples [rows], of the model [m] on the features of a
    support; the support without features predicts the mean of the training response. *)
Definition model_error (X : list (list R)) (y : list R) (train rows : list nat) (mask : list bool) (m : list R * R) : R :=
  if existsb (fun b => b) mask
  then squared_error (count (fun b => b) mask) (part X rows mask) (part_y y rows) (fst m) (snd m)
  else distance2 (part_y y rows) (average (length train) (part_y y train)).

(** What a score penalizes: the error itself, or n times its logarithm plus a price for the
    [k] features. *)
Definition price (metric : string) (n k : nat) : R :=
  if String.eqb metric "BIC"%string then INR k * ln (INR n)
  else if String.eqb metric "AIC"%string then 2 * INR k
  else 2 * INR k + (if (k + 1 <? n)%nat then 2 * (INR k * INR k + INR k) / (INR n - INR k - 1) else 0).
Definition cost (metric : string) (n k : nat) (err : R) : R :=
  if String.eqb metric "r2"%string then err else INR n * ln err + price metric n k.

(** [e] has the coefficients of the model [m] at the features of the support and 0 elsewhere. *)
Definition estimate_of (p : nat) (mask : list bool) (m : list R * R) (e : list R) : Prop :=
  length e = p /\ (forall j, nth j mask false = false -> entry e j = 0) /\
  (existsb (fun b => b) mask = true -> map (entry e) (chosen mask) = fst m).

(** The middle value, or the mean of the two middle values. *)
Definition median_of (l : list R) (v : R) : Prop :=
  exists s, Permutation s l /\ StronglySorted Rle s /\
    v = if Nat.even (length l) then (entry s (length l / 2 - 1) + entry s (length l / 2)) / 2 else entry s (length l / 2).

(** The samples on which models are scored. *)
Definition scored (target : nat) (sp : list nat * list nat) : list nat := if (target =? 0)%nat then fst sp else snd sp.

(** Every feature of the first support is one of the second. *)
Definition within (mask mask' : list bool) : Prop := forall j, nth j mask false = true -> nth j mask' false = true.
