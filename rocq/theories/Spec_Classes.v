(** Specification vocabulary for bootstraps that do not contain every class (C115). *)
From Coq Require Import ZArith List Bool Arith Permutation.
From Verif Require Import Prelude F64 Model_Fit Model_Labels Spec_Fit.
Import ListNotations.

(** Every class of [y] occurs among the rows. *)
Definition sees_all (y : list label) (rows : list nat) : Prop :=
  forall l, In l y -> exists i, In i rows /\ nth_error y i = Some l.
(** Exactly two classes occur among the rows. *)
Definition sees_two (y : list label) (rows : list nat) : Prop :=
  exists a b, a <> b /\ (exists i, In i rows /\ nth_error y i = Some a) /\ (exists i, In i rows /\ nth_error y i = Some b) /\
    forall i, In i rows -> nth_error y i = Some a \/ nth_error y i = Some b.

(** The drawn rows are rows of the data. *)
Definition valid_rows {Rng} (draw : bool -> Rng -> result (split * Rng)) (n : nat) : Prop :=
  forall sel r sp r', draw sel r = Ok (sp, r') -> Forall (fun i => i < n) (fst sp).

(** The solver returns as many numbers as it is asked for. *)
Definition right_number {S} (search : S -> nat -> list nat -> nat -> result (S * list f64)) : Prop :=
  forall s r tr m s' v, search s r tr m = Ok (s', v) -> length v = m.
Definition right_number_est {E} (search : list bool -> list nat -> nat -> result E) (coef : E -> list f64) : Prop :=
  forall mask tr m e, search mask tr m = Ok e -> length (coef e) = m.

(** Each class of [y] has its list of row numbers in [rows]. *)
Definition grouped (y : list label) (rows : list (list nat)) : Prop :=
  forall l, In l y -> exists c, In c rows /\ forall i, In i c -> nth_error y i = Some l.
