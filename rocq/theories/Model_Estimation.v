(** The estimation module of the linear regressors with its numbers:
    src/pyuoi/linear_model/base.py:363-401, 412-442 for UoI_Lasso and UoI_ElasticNet in a
    single process, the functions _score_predictions, _fit_intercept_no_features and
    _fit_intercept it calls (575-667) and the calls around it (141-160, 212-218, 537-565).

    The candidate supports are an argument ([select], applied to the data after _pre_fit),
    and so are the index sets of the bootstraps ([splits], training and test rows) and
    scikit-learn's LinearRegression ([ols]).  One response; dense matrices as lists of
    rows.  Model_Fit.v has the same steps for binary64 numbers and several processes with
    all numerical work left open. *)
From Coq Require Import ZArith List Bool Arith String.
From Coq Require Import List.
From Verif Require Import Prelude F64 Num Model_Fit Model_Scores Model_Rescale Model_Poisson Model_Linear.
Import ListNotations.

Section Estimation.
  Context {N : NumOps}.

  (** X[rows] and X[:, support]. *)
  Definition matrix_rows (X : list (list N)) (rows : list nat) : list (list N) :=
    map (fun i => nth i X []) rows.
  Definition masked_columns (mask : list bool) (X : list (list N)) : list (list N) := map (pick mask) X.

  (** estimates[ii, support] = values, into a row of zeros (base.py:378-379). *)
  Fixpoint spread_values (mask : list bool) (values : list N) : list N :=
    match mask with
    | [] => []
    | true :: m => match values with
                   | v :: vs => v :: spread_values m vs
                   | [] => nzero :: spread_values m []
                   end
    | false :: m => nzero :: spread_values m values
    end.

  (** sklearn.metrics.r2_score for one output: NaN below two samples; 1 for exact
      predictions and 0 for others if the response is constant. *)
  Definition r2_score (yt yp : list N) : N :=
    if List.length yt <? 2 then ndiv nzero nzero
    else
      let num := nsum (map nsquare (map2 nsub yt yp)) in
      let den := nsum (map nsquare (map (fun v => nsub v (nmean yt)) yt)) in
      if nnonzero den then nsub none (ndiv num den)
      else if nnonzero num then nzero else none.

  (** LinearRegression: [ols X y] gives coef_ and intercept_; predict. *)
  Definition solver_ls := list (list N) -> list N -> list N * N.
  Definition ls_predict (m : list N * N) (X : list (list N)) : list N :=
    map (decision (fst m) (snd m)) X.

  (** base.py:363-401: the estimate and the score of one support in one bootstrap.  The
      model without features (660-667) predicts the mean of the training response. *)
  Definition estimate_support (ols : solver_ls) (metric : string) (target p : nat)
      (X : list (list N)) (y : list N) (sp : split) (mask : list bool) : result (list N * N) :=
    let yr := take_rows y (fst sp) in
    if existsb (fun b => b) mask then
      let m := ols (masked_columns mask (matrix_rows X (fst sp))) yr in
      let* s := linear_score r2_score metric target y
                  (fun rows => ls_predict m (masked_columns mask (matrix_rows X rows))) mask sp in
      Ok (spread_values mask (fst m), s)
    else
      let* s := linear_score r2_score metric target y
                  (fun rows => repeat (nmean yr) (List.length rows)) (repeat false p) sp in
      Ok (repeat nzero p, s).

  (** np.argmax of one row and np.median of one column, as in Model_Fit.v. *)
  Definition nan (v : N) : bool := negb (neqb v v).
  Fixpoint argmax_from (i : nat) (best : N) (besti : nat) (l : list N) : nat :=
    match l with
    | [] => besti
    | v :: r => if nleb v best then argmax_from (S i) best besti r
                else if nan v then i
                else argmax_from (S i) v i r
    end.
  Definition argmax (l : list N) : result nat :=
    match l with
    | [] => Raise ValueError
    | v :: r => Ok (if nan v then 0 else argmax_from 1 v 0 r)
    end.
  Fixpoint insert_sorted (x : N) (l : list N) : list N :=
    match l with
    | [] => [x]
    | y :: r => if nleb x y then x :: y :: r else y :: insert_sorted x r
    end.
  Definition sorted (l : list N) : list N := fold_right insert_sorted [] l.
  Definition median (l : list N) : N :=
    if existsb nan l || (List.length l =? 0) then ndiv nzero nzero
    else
      let s := sorted l in
      let h := List.length l / 2 in
      if Nat.even (List.length l)
      then ndiv (nadd (nth (h - 1) s nzero) (nth h s nzero)) (nofZ 2)
      else nth h s nzero.

  (** base.py:430-442: the estimate of the best support of one bootstrap, and the median
      over the bootstraps. *)
  Definition best_estimate (out : list (list N * N)) : result (list N) :=
    rmap (fun k => nth k (map fst out) []) (argmax (map snd out)).
  Definition bagged (p : nat) (best : list (list N)) : list N :=
    map (fun j => median (map (fun e => nth j e nzero) best)) (seq 0 p).

  (** base.py:363-442. *)
  Definition estimation_module (ols : solver_ls) (metric : string) (target p : nat) (has : bool)
      (X : list (list N)) (y : list N) (supports : list (list bool)) (splits : list split)
    : result (list N * N) :=
    let* best := mapM (fun sp =>
                   let* out := mapM (estimate_support ols metric target p X y sp) supports in
                   best_estimate out) splits in
    let coef := bagged p best in
    Ok (coef, linear_intercept has p X y coef).

  (** base.py:179-445 around it. *)
  Definition regressor_fit (standardize has : bool) (metric : string) (target p : nat) (ols : solver_ls)
      (select : list (list N) -> list N -> list (list bool)) (splits : list split)
      (X : list (list N)) (y : list N) : result (list N * N) :=
    let D := linear_pre standardize has p X y in
    let* r := if constant_response (snd D)
              then Ok (repeat nzero p, linear_intercept has p (fst D) (snd D) (repeat nzero p))
              else estimation_module ols metric target p has (fst D) (snd D)
                     (select (fst D) (snd D)) splits in
    Ok (linear_post standardize has (fit_scaler (columns p X)) (nmean y) (column_scale y) (fst r) (snd r)).
End Estimation.
