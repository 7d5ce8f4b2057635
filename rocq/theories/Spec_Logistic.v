(** Specification vocabulary for the logistic models (C35-C38, C44), in real numbers. *)
From Coq Require Import List Reals Arith.
From Verif Require Import Spec_Rescale Spec_Poisson.
Import ListNotations.
Local Open Scope R_scope.

(** Weighted logistic loss for labels -1/+1, mean over samples, plus half the squared norm. *)
Definition logistic_loss (n p : nat) (X : list (list R)) (y sw : list R) (l2 : R) (c : list R) (b : R) : R :=
  / INR n * Sum n (fun i => entry sw i * ln (1 + exp (- (entry y i * eta p X c b i))))
  + l2 / 2 * Sum p (fun j => entry c j * entry c j).

(** Parameters of a model with several classes: row [c] holds the coefficients of
    class [c], followed by its intercept if rows are one longer than [p]. *)
Definition coefs (q : nat) (w : list R) (c j : nat) : R := entry w (c * q + j).
Definition class_eta (p q : nat) (X : list (list R)) (w : list R) (i c : nat) : R :=
  Sum p (fun j => mat X i j * coefs q w c j) + if Nat.ltb p q then coefs q w c p else 0.

(** Weighted multinomial loss; [Y] holds one row of class indicators per sample. *)
Definition multi_loss (n p q k : nat) (X Y : list (list R)) (sw : list R) (l2 : R) (w : list R) : R :=
  / INR n * Sum n (fun i => entry sw i *
      Sum k (fun c => mat Y i c * (ln (Sum k (fun d => exp (class_eta p q X w i d))) - class_eta p q X w i c)))
  + l2 / 2 * Sum k (fun c => Sum p (fun j => coefs q w c j * coefs q w c j)).

(** Number of labels equal to [c]. *)
Definition count (c : nat) (y : list nat) : nat := length (filter (Nat.eqb c) y).
(** Number of classes below [k] without a label. *)
Definition absent (k : nat) (y : list nat) : nat := length (filter (fun c => Nat.eqb (count c y) 0) (seq 0 k)).

(** Labels 0/1 as -1/+1. *)
Definition signs (y : list nat) : list R := map (fun v => if Nat.eqb v 1 then 1 else -1) y.
(** Fraction of ones. *)
Definition share (y : list nat) : R := INR (count 1 y) / INR (length y).
(** L1-penalized logistic objective: mean loss plus [lam] times the sum of the absolute
    coefficients. *)
Definition l1_logistic (n p : nat) (X : list (list R)) (s : list R) (lam : R) (c : list R) (b : R) : R :=
  logistic_loss n p X s (repeat 1 n) 0 c b + lam * Sum p (fun j => Rabs (entry c j)).
(** Mean product of feature [j] with the residuals of the intercept-only model. *)
Definition null_score (n : nat) (X : list (list R)) (y : list nat) (j : nat) : R :=
  / INR n * Sum n (fun i => (INR (nth i y 0%nat) - share y) * mat X i j).
(** [A] is the largest of [f 0], ..., [f (m - 1)]. *)
Definition is_max (m : nat) (f : nat -> R) (A : R) : Prop :=
  (forall j, (j < m)%nat -> f j <= A) /\ exists j, (j < m)%nat /\ A = f j.

(** The constant 1e-10 used for classes without a label. *)
Definition tiny : R := / 10000000000.
(** Class indicator. *)
Definition ind (v c : nat) : R := if Nat.eqb v c then 1 else 0.
(** [v] is [w] with the coefficients (not the intercepts) multiplied by the mask. *)
Definition masks (p q k : nat) (m : list (list R)) (w v : list R) : Prop :=
  length v = length w /\
  forall c j, (c < k)%nat -> (j < q)%nat -> coefs q v c j = if Nat.ltb j p then mat m c j * coefs q w c j else coefs q w c j.
