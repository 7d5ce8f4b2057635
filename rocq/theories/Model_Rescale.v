(** Model of standardization and of mapping the coefficients back to the original
    scale: [_pre_fit] and [_post_fit] of src/pyuoi/linear_model/base.py,
    poisson.py and logistic.py.  Matrices are lists of rows; X itself only enters
    through one sample at a time. *)
From Coq Require Import ZArith List Bool.
From Verif Require Import Prelude F64 Num Model_Mpi Model_Fit.
Import ListNotations.

Section Rescale.
  Context {N : NumOps}.

  (** sklearn's StandardScaler after fit: mean_ and scale_ (the latter with zeros
      replaced by ones). *)
  Record scaler := mkScaler { mean_ : list N; scale_ : list N }.

  Definition column_scale (l : list N) : N :=
    let m := nmean l in
    let var := nmean (map (fun v => nsquare (nsub v m)) l) in
    if neqb var nzero then none else nsqrt var.
  Definition fit_scaler (columns : list (list N)) : scaler :=
    mkScaler (map nmean columns) (map column_scale columns).

  (** transform of one sample. *)
  Definition transform (s : scaler) (with_mean : bool) (x : list N) : list N :=
    map2 ndiv (if with_mean then map2 nsub x (mean_ s) else x) (scale_ s).

  (** base.py:141-154: how X is standardized by the base class;
      poisson.py:310-315, 613-617 and logistic.py:438-441: [StandardScaler()] always
      centers. *)
  Definition base_transform (standardize fit_intercept : bool) (s : scaler) (x : list N) : list N :=
    if standardize then transform s fit_intercept x else x.
  Definition centering_transform (standardize : bool) (s : scaler) (x : list N) : list N :=
    if standardize then transform s true x else x.

  (** base.py:156-160, one row of coef_. *)
  Definition base_post (standardize : bool) (s : scaler) (coef : list N) : list N :=
    if standardize then map2 ndiv coef (scale_ s) else coef.

  (** base.py:555-565 (the response scaler has one mean and one scale). *)
  Definition linear_post (standardize fit_intercept : bool) (sX : scaler) (y_mean y_scale : N)
      (coef : list N) (intercept : N) : list N * N :=
    let c := base_post standardize sX coef in
    if standardize then
      let c := map (fun v => nmul v y_scale) c in
      (c, if fit_intercept
          then nadd (nmul intercept y_scale) (nsub y_mean (ndot (mean_ sX) c))
          else intercept)
    else (c, intercept).

  (** base.py:717-722, one class. *)
  Definition glm_post (standardize fit_intercept : bool) (sX : scaler)
      (coef : list N) (intercept : N) : list N * N :=
    let c := base_post standardize sX coef in
    (c, if standardize && fit_intercept
        then nadd intercept (ndot (map2 nmul (mean_ sX) (scale_ sX)) c)
        else intercept).

  (** poisson.py:317-323 and 624-632. *)
  Definition poisson_post (standardize fit_intercept : bool) (sX : scaler)
      (coef : list N) (intercept : N) : list N * N :=
    if standardize then
      (map2 ndiv coef (scale_ sX),
       if fit_intercept
       then nsub intercept (nsum (map2 ndiv (map2 nmul (mean_ sX) coef) (scale_ sX)))
       else intercept)
    else (coef, intercept).

  (** logistic.py:453-458, one class. *)
  Definition masked_post (standardize : bool) (sX : scaler) (coef : list N) (intercept : N)
    : list N * N :=
    (base_post standardize sX coef, intercept).

  (** base.py:537-553, 213-218, 651-657, 555-565: the model returned by the linear
      regressors for a constant response [y].  [xbar] is the column mean of the
      (standardized) design matrix. *)
  Definition linear_constant_fit (standardize fit_intercept : bool) (sX : scaler)
      (xbar y : list N) (n_features : nat) : list N * N :=
    let y_mean := nmean y in
    let y_scale := column_scale y in
    let y' := if standardize
              then map (fun v => ndiv (if fit_intercept then nsub v y_mean else v) y_scale) y
              else y in
    let coef := repeat nzero n_features in
    let intercept := if fit_intercept then nsub (nmean y') (ndot xbar coef) else nzero in
    linear_post standardize fit_intercept sX y_mean y_scale coef intercept.

  (** Prediction on a raw sample: X.dot(coef_) + intercept_. *)
  Definition decision (coef : list N) (intercept : N) (x : list N) : N :=
    nadd (ndot x coef) intercept.
End Rescale.
Arguments scaler : clear implicits.

(** The [_post_fit] methods on the arrays of [fit]: coef_ has shape (output_dim,
    n_features), one row per class; the linear and Poisson models squeeze it.
    numpy raises ValueError when the shapes do not match. *)
Section PostNd.
  Variables exp64 ln64 : f64 -> f64.
  Notation N := (Fnum exp64 ln64).

  Definition squeeze_nd (c : nd) : nd :=
    mkNd (filter (fun k => negb (Nat.eqb k 1)) (nd_shape c)) (nd_dtype c) (nd_data c).

  Definition post_rows (p : nat) (f : list f64 -> f64 -> list f64 * f64) (squeeze : bool)
      (c ic : nd) : result (nd * nd) :=
    match nd_shape c with
    | [n; p'] =>
        if Nat.eqb p' p && Nat.eqb (length (nd_data c)) (n * p) && Nat.eqb (length (nd_data ic)) n
        then
          let rs := map2 f (chunks p n (floats_of_nd c)) (floats_of_nd ic) in
          let c' := nd_of_floats [n; p] (concat (map fst rs)) in
          Ok (if squeeze then squeeze_nd c' else c', nd_of_floats (nd_shape ic) (map snd rs))
        else Raise ValueError
    | _ => Raise ValueError
    end.

  Definition linear_post_nd standardize fit_intercept (sX : scaler N) ym ys : nd -> nd -> result (nd * nd) :=
    post_rows (length (scale_ sX)) (linear_post (N := N) standardize fit_intercept sX ym ys) true.
  Definition glm_post_nd standardize fit_intercept (sX : scaler N) : nd -> nd -> result (nd * nd) :=
    post_rows (length (scale_ sX)) (glm_post (N := N) standardize fit_intercept sX) false.
  (** poisson.py:624-632 squeezes before [coef_ /= scale_]: with one feature coef_ has
      no axis left and numpy refuses the division in place. *)
  Definition poisson_post_nd standardize fit_intercept (sX : scaler N) (c ic : nd) : result (nd * nd) :=
    let* r := post_rows (length (scale_ sX)) (poisson_post (N := N) standardize fit_intercept sX) true c ic in
    if standardize && Nat.eqb (length (nd_shape (fst r))) 0 then Raise ValueError
    else Ok r.
End PostNd.
