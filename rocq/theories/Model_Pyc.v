(** Model of [PycLasso], src/pyuoi/linear_model/lasso.py:14-115, and of the selection
    sweep of UoI_Lasso with solver='pyc', lasso.py:255-270.

    The pycasso library is a parameter: it may be missing, its solver may raise.
    [V] is the type of Python values of parameters, of which only the tests
    [is None] and [is False] matter.  The attribute solver, which fit also sets and
    nothing reads, is left out. *)
From Coq Require Import String List Bool Arith.
From Verif Require Import Prelude Num.
Import ListNotations.

Section Pyc.
  Context {N : NumOps} {V : Type}.
  Variables is_None is_False : V -> bool.
  Notation mat := (list (list N)).

  (** pycasso.Solver(X, y, useintercept, lambdas, max_ite, prec) followed by train();
      the result holds one row of coefficients and one intercept per lambda.  None:
      the library is not installed (lasso.py:6-9). *)
  Variable pycasso : option (mat -> list N -> V -> V -> V -> V -> result (mat * list N)).

  Record pyc := mkPyc {
    max_iter : V; tol : V; fit_intercept : V; alphas : V;
    isfitted : bool;
    solution : option (mat * list N)             (* coef_ and intercept_, once set *)
  }.

  (** lasso.py:38-53. *)
  Definition pyc_init (alphas fit_intercept max_iter tol : V) : result pyc :=
    if is_False fit_intercept then Raise ValueError
    else Ok (mkPyc max_iter tol fit_intercept alphas false None).

  (** lasso.py:55-63; the keyword arguments in the order of the call. *)
  Fixpoint set_params (kwargs : list (string * V)) (o : pyc) : pyc * result unit :=
    match kwargs with
    | [] => (o, Ok tt)
    | (key, v) :: r =>
        if String.eqb key "alphas"
        then set_params r (mkPyc (max_iter o) (tol o) (fit_intercept o) v (isfitted o) (solution o))
        else if String.eqb key "fit_intercept"
        then set_params r (mkPyc (max_iter o) (tol o) v (alphas o) (isfitted o) (solution o))
        else if String.eqb key "max_iter"
        then set_params r (mkPyc v (tol o) (fit_intercept o) (alphas o) (isfitted o) (solution o))
        else (o, Raise ValueError)
    end.

  (** lasso.py:65-81.  np.matmul needs matching widths. *)
  Definition predict (X : mat) (o : pyc) : result mat :=
    if isfitted o then
      match solution o with
      | None => Raise AttributeError
      | Some (coef, ic) =>
          if forallb (fun x => forallb (fun c => Nat.eqb (length c) (length x)) coef) X
          then Ok (map (fun x => map2 nadd (map (ndot x) coef) ic) X)
          else Raise ValueError
      end
    else Raise NotFittedError.

  (** lasso.py:83-115. *)
  Definition pyc_fit (X : mat) (y : list N) (o : pyc) : pyc * result unit :=
    if is_None (alphas o) then (o, Raise OtherError)
    else if is_False (fit_intercept o) then (o, Raise ValueError)
    else match pycasso with
         | None => (o, Raise AttributeError)          (* None.Solver *)
         | Some solver =>
             match solver X y (fit_intercept o) (alphas o) (max_iter o) (tol o) with
             | Raise e => (o, Raise e)
             | Ok r => (mkPyc (max_iter o) (tol o) (fit_intercept o) (alphas o) true (Some r), Ok tt)
             end
         end.

  (** lasso.py:255-265: set the whole path, fit, return coef_. *)
  Definition pyc_sweep (path : V) (X : mat) (y : list N) (o : pyc) : pyc * result mat :=
    match set_params [("alphas"%string, path)] o with
    | (o, Raise e) => (o, Raise e)
    | (o, Ok _) =>
        match pyc_fit X y o with
        | (o, Raise e) => (o, Raise e)
        | (o, Ok _) => (o, match solution o with
                           | Some s => Ok (fst s)
                           | None => Raise AttributeError
                           end)
        end
    end.

  (** base.py:280-283, applied between bootstraps to the selection model. *)
  Definition pyc_reset (o : pyc) : pyc :=
    mkPyc (max_iter o) (tol o) (fit_intercept o) (alphas o) (isfitted o)
      (match solution o with
       | None => None
       | Some (c, ic) => Some (map (map (fun v => nmul v nzero)) c, map (fun v => nmul v nzero) ic)
       end).

  (** Calls on one object. *)
  Inductive pyc_op :=
  | PSet (kwargs : list (string * V))
  | PFit (X : mat) (y : list N)
  | PPredict (X : mat).

  Definition pyc_step (o : pyc) (c : pyc_op) : pyc :=
    match c with
    | PSet kw => fst (set_params kw o)
    | PFit X y => fst (pyc_fit X y o)
    | PPredict _ => o
    end.
  Definition pyc_after (o : pyc) (h : list pyc_op) : pyc := fold_left pyc_step h o.
End Pyc.
Arguments pyc : clear implicits.
