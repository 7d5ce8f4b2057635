(** Specification vocabulary for the scores (C28-C30). *)
From Coq Require Import ZArith List Bool String Reals.
From Verif Require Import Prelude F64 Num Model_Fit Spec_Fit Model_Scores.
Import ListNotations.

(** [c] is the information criterion called [metric]. *)
Definition named_criterion {N : NumOps} (metric : string) (ll : N) (k n : Z) (c : N) : Prop :=
  (metric = "BIC"%string /\ c = BIC ll k n) \/
  (metric = "AIC"%string /\ c = AIC ll k) \/
  (metric = "AICc"%string /\ c = AICc ll k n).

(** Number of selected features of a support. *)
Definition support_size (mask : list bool) : Z :=
  Z.of_nat (List.length (filter (fun b => b) mask)).

(** The rows a score is computed on. *)
Definition scored_rows (target : nat) (sp : split) : list nat :=
  match target with O => fst sp | _ => snd sp end.

(** [c] is the criterion of a model [e] estimated on the training rows of [sp] for
    the features in [mask] (for no feature: of the intercept-only model).  [ll e mask rows]
    is the log-likelihood of the model on those rows; [extra e] counts parameters
    besides the selected features. *)
Definition estimated_criterion {S E} {N : NumOps} (sol : solver S E)
    (ll : E -> list bool -> list nat -> N) (extra : E -> Z)
    (metric : string) (target : nat) (mask : list bool) (sp : split) (c : N) : Prop :=
  exists e, (if existsb (fun b => b) mask then est_fit sol mask (fst sp) else null_fit sol (fst sp)) = Ok e /\
    let rows := scored_rows target sp in
    named_criterion metric (ll e mask rows) (support_size mask + extra e)
                    (Z.of_nat (List.length rows)) c.

(** Responses on some rows. *)
Definition rows_of {N : NumOps} (y : list N) (rows : list nat) : list N :=
  map (fun i => nth i y nzero) rows.

(** Mean over the samples of the best log-likelihood (up to terms in y) that a
    Poisson model can reach: its mean equals the count. *)
Definition saturated (y : list R) : R :=
  (fold_right Rplus 0 (map (fun v => if Req_EM_T v 0 then 0 else v * ln v - v) y)
   / INR (List.length y))%R.

(** Log-likelihoods of the estimated models: normal for the linear regressors; the
    number of rows times minus sklearn's mean log loss for the logistic model; the
    number of rows times the mean Poisson log-likelihood. *)
Definition linear_ll {E} {N : NumOps} (y : list N) (pred : E -> list bool -> list nat -> list N)
    (e : E) (mask : list bool) (rows : list nat) : N :=
  ll_normal (rows_of y rows) (pred e mask rows).
Definition logistic_ll {E} exp64 ln64 (log_loss : E -> list bool -> list nat -> result (Fnum exp64 ln64))
    (e : E) (mask : list bool) (rows : list nat) : Fnum exp64 ln64 :=
  fmul (f64_of_Z (Z.of_nat (List.length rows)))
       (fopp (match log_loss e mask rows with Ok v => v | Raise _ => fnan end)).
Definition poisson_ll {E} exp64 ln64 (y : list (Fnum exp64 ln64))
    (pred : E -> list bool -> list nat -> result (list (Fnum exp64 ln64)))
    (e : E) (mask : list bool) (rows : list nat) : Fnum exp64 ln64 :=
  fmul (f64_of_Z (Z.of_nat (List.length rows)))
       (match pred e mask rows with
        | Ok p => ll_poisson (N := Fnum exp64 ln64) (rows_of (N := Fnum exp64 ln64) y rows) p
        | Raise _ => fnan
        end).
(** A non-zero Poisson intercept is a parameter. *)
Definition icpt_params {E} (icpt : E -> f64) (e : E) : Z := if nonzero64 (icpt e) then 1 else 0.

(** Sum and mean of the squared residuals, and the log-likelihood of independent
    normal residuals with variance [s] up to the additive constant n/2 * ln(2 pi). *)
Definition square_sum (y p : list R) : R :=
  fold_right (fun a t => (fst a - snd a) * (fst a - snd a) + t)%R 0%R (combine y p).
Definition mean_square (y p : list R) : R := (square_sum y p / INR (List.length y))%R.
Definition gauss (y p : list R) (s : R) : R :=
  (- INR (List.length y) / 2 * ln s - square_sum y p / (2 * s))%R.
