(** Specification vocabulary for the Poisson regressor (C34, C37, C39-C43), in real
    numbers: sums over samples and features written out. *)
From Coq Require Import List Reals.
From Verif Require Import Spec_Rescale.
Import ListNotations.
Local Open Scope R_scope.

(** Entry (i, j) of a matrix given by its rows. *)
Definition mat (X : list (list R)) (i j : nat) : R := entry (nth i X []) j.

(** A matrix with [n] rows and [p] columns. *)
Definition matrix (n p : nat) (X : list (list R)) : Prop :=
  length X = n /\ Forall (fun r => length r = p) X.

(** Linear predictor of sample [i]. *)
Definition eta (p : nat) (X : list (list R)) (c : list R) (b : R) (i : nat) : R :=
  b + Sum p (fun j => mat X i j * entry c j).

(** Elastic net penalty lam * (mix * |c|_1 + (1 - mix) / 2 * |c|_2^2). *)
Definition penalty (p : nat) (lam mix : R) (c : list R) : R :=
  lam * (mix * Sum p (fun j => Rabs (entry c j))
         + (1 - mix) / 2 * Sum p (fun j => entry c j * entry c j)).

(** Penalized weighted least squares with working response [z] and weights [w]. *)
Definition quad (n p : nat) (X : list (list R)) (w z : list R) (lam mix : R) (c : list R) (b : R) : R :=
  / (2 * INR n) * Sum n (fun i => entry w i * (entry z i - eta p X c b i) * (entry z i - eta p X c b i))
  + penalty p lam mix c.

(** Weighted Poisson loss, mean over samples, plus half the squared norm. *)
Definition poisson_loss (n p : nat) (X : list (list R)) (y sw : list R) (l2 : R) (c : list R) (b : R) : R :=
  / INR n * Sum n (fun i => entry sw i * (exp (eta p X c b i) - entry y i * eta p X c b i))
  + l2 / 2 * Sum p (fun j => entry c j * entry c j).

(** The vector [c] with entry [j] replaced. *)
Definition upd (c : list R) (j : nat) (v : R) : list R :=
  firstn j c ++ v :: skipn (S j) c.

(** The documented objective: weighted Poisson loss plus elastic net penalty. *)
Definition objective (n p : nat) (X : list (list R)) (y sw : list R) (lam mix : R) (c : list R) (b : R) : R :=
  / INR n * Sum n (fun i => entry sw i * (exp (eta p X c b i) - entry y i * eta p X c b i))
  + penalty p lam mix c.

(** Mean of a vector of [n] numbers. *)
Definition average (n : nat) (v : list R) : R := Sum n (fun i => entry v i) / INR n.

(** Sample weights; all ones when none are given. *)
Definition sample_weights (n : nat) (sw : option (list R)) : list R :=
  match sw with Some s => s | None => repeat 1 n end.

(** A minimizer of an objective with an L1 term [c * (|w_0| + ... + |w_{e-1}|)]. *)
Definition l1_minimizer (f : list R -> R) (c : R) (e len : nat) (w : list R) : Prop :=
  length w = len /\
  forall w', length w' = len ->
    f w + c * Sum e (fun j => Rabs (entry w j)) <= f w' + c * Sum e (fun j => Rabs (entry w' j)).
