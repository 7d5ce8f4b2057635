(** Specification vocabulary for the choice that the estimation module of UoI_L1Logistic makes
    between two classes (C129), in real numbers. *)
From Coq Require Import String List Arith Bool Reals.
From Verif Require Import Prelude Spec_Rescale Spec_Poisson Spec_Linear Spec_Estimation Spec_Choice.
From Verif Require Spec_Logistic.
Import ListNotations.
Local Open Scope R_scope.

(** [v] moved into the interval from [a] to 1 - [a]. *)
Definition clamp (a v : R) : R := Rmin (Rmax v a) (1 - a).

(** Probability of the second class for the [i]-th of the samples [rows]: that of the logistic
    model [m] on the features of a support, or the share of the second class among the training
    samples. *)
Definition chance (X : list (list R)) (z train rows : list nat) (mask : list bool) (m : list R * R) (i : nat) : R :=
  if existsb (fun b => b) mask
  then / (1 + exp (- eta (count (fun b => b) mask) (part X rows mask) (fst m) (snd m) i))
  else clamp Spec_Logistic.tiny (Spec_Logistic.share (map (fun r => nth r z 0%nat) train)).

(** The predicted class: the more probable one; if both are, the first one, except that the
    model without features then predicts the second one. *)
Definition guess X z train rows mask m i : nat :=
  let v := chance X z train rows mask m i in
  if existsb (fun b => b) mask then (if Rlt_dec (1 / 2) v then 1 else 0)%nat else (if Rle_dec (1 / 2) v then 1 else 0)%nat.

(** Number of correct predictions. *)
Definition hits X (z train rows : list nat) mask m : nat :=
  length (filter (fun i => Nat.eqb (guess X z train rows mask m i) (nth (nth i rows 0) z 0))%nat (seq 0 (length rows))).

(** Mean logarithm of the probability given to the true class, moved into the interval from
    [eps] to 1 - [eps]. *)
Definition class_merit (eps : R) X (z train rows : list nat) mask m : R :=
  / INR (length rows) * Sum (length rows) (fun i =>
    let v := chance X z train rows mask m i in ln (clamp eps (if Nat.eqb (nth (nth i rows 0%nat) z 0%nat) 1 then v else 1 - v))).

(** What is minimized: minus the share of correct predictions, minus the mean log-probability,
    or an information criterion that counts features only. *)
Definition class_cost (metric : string) (eps : R) X (z train rows : list nat) mask m : R :=
  if String.eqb metric "acc" then - (INR (hits X z train rows mask m) / INR (length rows))
  else if String.eqb metric "log" then - class_merit eps X z train rows mask m
  else price metric (length rows) (count (fun b => b) mask) - 2 * (INR (length rows) * class_merit eps X z train rows mask m).
