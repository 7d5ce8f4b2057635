(** The regularization grids of UoI_Lasso and UoI_ElasticNet and the data that fit hands
    on: src/pyuoi/linear_model/lasso.py:247-255, elasticnet.py:131-182 and the methods
    _pre_fit and _post_fit around the body of base.py:179-445.

    The selection and estimation in between are an argument ([core]).  One response;
    dense matrices as lists of rows. *)
From Coq Require Import ZArith List Bool Arith.
From Verif Require Import Prelude F64 Num Model_Fit Model_Refit Model_Rescale Model_Poisson.
Import ListNotations.

Section Linear.
  Context {N : NumOps}.

  (** sklearn.linear_model._coordinate_descent._alpha_grid (0.20 to 1.3) for dense X and a
      single response, with _preprocess_data(normalize=False); np.finfo(float).resolution. *)
  Definition resolution : N := ndiv none (nofZ (10 ^ 15)).
  Definition centered_rows (p : nat) (X : list (list N)) : list (list N) :=
    map (fun r => map2 nsub r (map nmean (columns p X))) X.
  Definition centered (y : list N) : list N := map (fun v => nsub v (nmean y)) y.
  Definition alpha_max (has : bool) (p : nat) (X : list (list N)) (y : list N) (mix : N) : N :=
    let Xy := tmatvec p (if has then centered_rows p X else X) (if has then centered y else y) in
    ndiv (nmaxl (map (fun v => nsqrt (nsquare v)) Xy)) (nmul (nofnat (length y)) mix).
  Definition alpha_grid (has : bool) (p : nat) (X : list (list N)) (y : list N) (mix eps : N) (num : nat)
    : result (list N) :=
    if neqb mix nzero then Raise ValueError
    else
      let m := alpha_max has p X y mix in
      if nleb m resolution then Ok (repeat resolution num)
      else Ok (rev (logspace (log10 (nmul m eps)) (log10 m) num)).

  (** lasso.py:247-255; elasticnet.py:131-182 on a fresh object. *)
  Definition lasso_grid (has : bool) (p : nat) (X : list (list N)) (y : list N) (eps : N) (num : nat) : result (list N) :=
    alpha_grid has p X y none eps num.
  Definition elastic_reg_params (has : bool) (p : nat) (X : list (list N)) (y : list N) (eps : N) (num : nat)
      (alphas : list N) : result (list (reg_param N N)) :=
    rmap (pairs alphas) (mapM (fun a => alpha_grid has p X y a eps num) alphas).

  (** ** fit from raw data to coefficients for raw data *)

  (** base.py:141-154 and 537-553. *)
  Definition linear_pre (standardize has : bool) (p : nat) (X : list (list N)) (y : list N)
    : list (list N) * list N :=
    (map (base_transform standardize has (fit_scaler (columns p X))) X,
     if standardize then map (fun v => ndiv (if has then nsub v (nmean y) else v) (column_scale y)) y else y).
  Definition linear_fit (standardize has : bool) (p : nat) (core : list (list N) * list N -> list N * N)
      (X : list (list N)) (y : list N) : list N * N :=
    let r := core (linear_pre standardize has p X y) in
    linear_post standardize has (fit_scaler (columns p X)) (nmean y) (column_scale y) (fst r) (snd r).

  (** poisson.py:613-632; y is not touched. *)
  Definition poisson_uoi_fit (standardize has : bool) (p : nat) (core : list (list N) * list N -> list N * N)
      (X : list (list N)) (y : list N) : list N * N :=
    let sX := fit_scaler (columns p X) in
    let r := core (map (centering_transform standardize sX) X, y) in
    poisson_post standardize has sX (fst r) (snd r).

  (** logistic.py:200-211 and base.py:717-722, one class; y is encoded, not scaled. *)
  Definition logistic_uoi_fit {Y : Type} (standardize has : bool) (p : nat) (core : list (list N) * Y -> list N * N)
      (X : list (list N)) (y : Y) : list N * N :=
    let sX := fit_scaler (columns p X) in
    let r := core (map (base_transform standardize has sX) X, y) in
    glm_post standardize has sX (fst r) (snd r).
End Linear.
