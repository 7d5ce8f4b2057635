(** Specification of the intersection step (C05-C09), independent of the model's
    functions: masks are described pointwise by counting bootstraps. *)
From Coq Require Import ZArith List Bool.
From Verif Require Import F64 Model_Intersection.
Import ListNotations.

(** The array really has the announced shape. *)
Definition well_shaped (c : coefs3) : Prop :=
  Forall (fun boot => length boot = c_reg c /\
                      Forall (fun row => length row = c_feat c) boot) (c_data c).

(** Coefficient of feature [j] at regularization parameter [r] in bootstrap [b]. *)
Definition coef_at (c : coefs3) (b r j : nat) : f64 :=
  nth j (nth r (nth b (c_data c) []) []) fzero.

(** Number of bootstraps in which the coefficient is not zero. *)
Definition times_selected (c : coefs3) (r j : nat) : nat :=
  length (filter (fun b => nonzero64 (coef_at c b r j)) (seq 0 (length (c_data c)))).

(** [mask] is the support for threshold [t] and regularization parameter [r]. *)
Definition is_support (c : coefs3) (t : Z) (r : nat) (mask : list bool) : Prop :=
  length mask = c_feat c /\
  forall j, j < c_feat c ->
    (nth j mask false = true <-> (t <= Z.of_nat (times_selected c r j))%Z).

(** Strict lexicographic order on masks, False before True. *)
Inductive lex_lt : list bool -> list bool -> Prop :=
| lex_here a b : lex_lt (false :: a) (true :: b)
| lex_next x a b : lex_lt a b -> lex_lt (x :: a) (x :: b)
| lex_nil x b : lex_lt [] (x :: b).

Fixpoint increasing (l : list (list bool)) : Prop :=
  match l with
  | [] => True
  | a :: r => Forall (lex_lt a) r /\ increasing r
  end.
