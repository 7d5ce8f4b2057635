(** Specification vocabulary for the reconstruction of data from the components of UoI_NMF (C112). *)
From Coq Require Import List Arith Reals.
From Verif Require Import Prelude Spec_Rescale Spec_Poisson Spec_Nmf.
Import ListNotations.
Local Open Scope R_scope.

(** Squared distance of [b] from the combination of the columns of [A] with the weights [w]. *)
Definition residual (k p : nat) (A : list (list R)) (b w : list R) : R :=
  Sum p (fun j => (entry b j - Sum k (fun c => mat A j c * entry w c)) * (entry b j - Sum k (fun c => mat A j c * entry w c))).

(** What scipy.optimize.nnls promises: when it returns, the weights are non-negative and no other
    non-negative weights come closer to [b]. *)
Definition least_squares (k p : nat) (nnreg : list (list R) -> list R -> result (list R)) : Prop :=
  forall A b w, nnreg A b = Ok w -> length w = k /\ (forall c, 0 <= entry w c) /\
    forall v, length v = k -> (forall c, 0 <= entry v c) -> residual k p A b w <= residual k p A b v.

(** Sum of the squares of all entries, and of all differences, of matrices with [n] rows and [p] columns. *)
Definition total2 (n p : nat) (X : list (list R)) : R := Sum n (fun i => Sum p (fun j => mat X i j * mat X i j)).
Definition distance2 (n p : nat) (X Y : list (list R)) : R :=
  Sum n (fun i => Sum p (fun j => (mat X i j - mat Y i j) * (mat X i j - mat Y i j))).

(** No component is a combination of the others. *)
Definition independent (k p : nat) (C : list (list R)) : Prop :=
  forall a : nat -> R, (forall j, (j < p)%nat -> Sum k (fun c => a c * mat C c j) = 0) -> forall c, (c < k)%nat -> a c = 0.
