(** Specification vocabulary for PycLasso (C68). *)
From Coq Require Import String List Bool Arith Reals.
From Verif Require Import Prelude Num Model_Pyc.
Import ListNotations.

(** The names that set_params knows. *)
Definition settable (k : string) : Prop :=
  k = "alphas"%string \/ k = "fit_intercept"%string \/ k = "max_iter"%string.

(** The value given to the name [k] by the call, the last one if there are several;
    [d] if there is none. *)
Fixpoint given {V} (k : string) (kwargs : list (string * V)) (d : V) : V :=
  match kwargs with
  | [] => d
  | (k', v) :: r => given k r (if String.eqb k' k then v else d)
  end.

(** What a successful call of fit on [o] computes. *)
Definition solves {N : NumOps} {V} (is_None is_False : V -> bool)
    (pycasso : option (list (list N) -> list N -> V -> V -> V -> V -> result (list (list N) * list N)))
    (o : pyc N V) (X : list (list N)) (y : list N) (s : list (list N) * list N) : Prop :=
  is_None (alphas o) = false /\ is_False (fit_intercept o) = false /\
  exists solver, pycasso = Some solver /\
    solver X y (fit_intercept o) (alphas o) (max_iter o) (tol o) = Ok s.

(** [h] contains a successful fit; the last one was made in state [o1] on the data
    [X], [y] and found [s]. *)
Definition last_fit {N : NumOps} {V} (is_None is_False : V -> bool) pycasso (o : pyc N V)
    (h : list (@pyc_op N V)) (s : list (list N) * list N) : Prop :=
  exists h1 X y h2, h = h1 ++ PFit X y :: h2 /\
    solves is_None is_False pycasso (pyc_after is_None is_False pycasso o h1) X y s /\
    forall g1 X' y' g2, h2 = g1 ++ PFit X' y' :: g2 ->
      forall s', ~ solves is_None is_False pycasso
        (pyc_after is_None is_False pycasso o (h1 ++ PFit X y :: g1)) X' y' s'.

(** No fit in [h] succeeds. *)
Definition never_fitted {N : NumOps} {V} (is_None is_False : V -> bool) pycasso (o : pyc N V)
    (h : list (@pyc_op N V)) : Prop :=
  forall h1 X y h2 s, h = h1 ++ PFit X y :: h2 ->
    ~ solves is_None is_False pycasso (pyc_after is_None is_False pycasso o h1) X y s.
