(** Specification vocabulary for the choice that the estimation module of UoI_Poisson makes
    (C127), in real numbers. *)
From Coq Require Import String List Arith Bool Reals.
From Verif Require Import Prelude Spec_Rescale Spec_Poisson Spec_Linear Spec_Estimation Spec_Choice.
Import ListNotations.
Local Open Scope R_scope.

(** Mean log-likelihood (without the factorials) of counts [y] if their expectations are exp (e i). *)
Definition mean_likelihood (n : nat) (y : list R) (e : nat -> R) : R :=
  / INR n * Sum n (fun i => entry y i * e i - exp (e i)).

(** That of the model [m] on the features of a support, for the samples [rows]; the support
    without features predicts the mean of the training response. *)
Definition count_merit (X : list (list R)) (y : list R) (train rows : list nat) (mask : list bool) (m : list R * R) : R :=
  mean_likelihood (length rows) (part_y y rows)
    (if existsb (fun b => b) mask then eta (count (fun b => b) mask) (part X rows mask) (fst m) (snd m)
     else fun _ => ln (average (length train) (part_y y train))).

(** Parameters in use: the features and the intercept, if it is not zero. *)
Definition count_parameters (y : list R) (train : list nat) (mask : list bool) (m : list R * R) : nat :=
  (count (fun b => b) mask +
   (if Req_EM_T (if existsb (fun b => b) mask then snd m else ln (average (length train) (part_y y train))) 0 then 0 else 1))%nat.

Definition count_cost (metric : string) (n k : nat) (merit : R) : R :=
  if String.eqb metric "log"%string then - merit else price metric n k - 2 * (INR n * merit).
