(** The selection module of the linear regressors with its numbers:
    src/pyuoi/linear_model/base.py:222-330 and 447-481 for UoI_Lasso (lasso.py:247-270) and
    UoI_ElasticNet (elasticnet.py:131-182) in a single process, on a fresh object.

    The index sets of the bootstraps ([splits]) and the solvers of scikit-learn or pycasso
    ([net]: data, penalty, mixing weight to coef_) are arguments; a solver that starts at the
    previous solution is not described (the theorems assume that it finds a minimizer).  At
    least two features and two rows of supports: for other shapes see C08, C72 and C73. *)
From Coq Require Import ZArith List Bool Arith String.
From Coq Require Import List.
From Verif Require Import Prelude F64 Num Model_Intersection Model_Fit Model_Scores Model_Refit Model_Rescale Model_Poisson
  Model_Linear Model_Estimation.
Import ListNotations.

Section Selection.
  Context {N : NumOps}.

  Definition solver_net := list (list N) -> list N -> N -> N -> list N.

  (** set_params with the entries of reg_params, and fit: scikit-learn's Lasso has the mixing weight 1. *)
  Definition apply_params (net : solver_net) (X : list (list N)) (y : list N) (q : reg_param N N) : list N :=
    match q with
    | RegAlpha l => net X y l none
    | RegPair l mix => net X y l mix
    | RegC l => net X y l none
    end.

  (** base.py:447-481, on the training rows of one bootstrap (272-298). *)
  Definition selection_sweep (net : solver_net) (X : list (list N)) (y : list N) (params : list (reg_param N N))
      (sp : split) : list (list N) :=
    map (apply_params net (matrix_rows X (fst sp)) (take_rows y (fst sp))) params.

  (** utils.py:131-134 for coefficients of any kind, as in Model_Intersection.v. *)
  Definition stable_rows (p nreg : nat) (coefs : list (list (list N))) (t : Z) : list (list bool) :=
    map (fun r =>
           map (fun j => (t <=? Z.of_nat (count (fun b => nnonzero (nth j (nth r b []) nzero)) coefs))%Z)
               (seq 0 p))
        (seq 0 nreg).

  (** base.py:222-330 after get_reg_params; utils.py:131-145. *)
  Definition selection_module (net : solver_net) (p : nat) (ts : list Z) (params : list (reg_param N N))
      (splits : list split) (X : list (list N)) (y : list N) : list (list bool) :=
    usort row_cmp
      (flat_map (stable_rows p (List.length params) (map (selection_sweep net X y params) splits)) ts).

  (** With get_reg_params.  If it raises, fit raises the same ValueError as it does for an
      empty list of supports. *)
  Definition select_with (params : result (list (reg_param N N))) (net : solver_net) (p : nat) (ts : list Z)
      (splits : list split) (X : list (list N)) (y : list N) : list (list bool) :=
    match params with
    | Ok q => selection_module net p ts q splits X y
    | Raise _ => []
    end.
  Definition lasso_select (has : bool) (p : nat) (eps : N) (num : nat) (net : solver_net) (ts : list Z)
      (splits : list split) (X : list (list N)) (y : list N) : list (list bool) :=
    select_with (rmap (map RegAlpha) (lasso_grid has p X y eps num)) net p ts splits X y.
  Definition elastic_select (has : bool) (p : nat) (eps : N) (num : nat) (alphas : list N) (net : solver_net) (ts : list Z)
      (splits : list split) (X : list (list N)) (y : list N) : list (list bool) :=
    select_with (elastic_reg_params has p X y eps num alphas) net p ts splits X y.

  (** UoI_Lasso.fit and UoI_ElasticNet.fit: base.py:179-445.  [ts] are the selection
      thresholds, [sel] and [est] the bootstraps of the two modules. *)
  Definition lasso_fit (standardize has : bool) (eps : N) (num : nat) (ts : list Z) (metric : string) (target p : nat)
      (net : solver_net) (ols : solver_ls) (sel est : list split) (X : list (list N)) (y : list N) : result (list N * N) :=
    regressor_fit standardize has metric target p ols (lasso_select has p eps num net ts sel) est X y.
  Definition elastic_fit (standardize has : bool) (eps : N) (num : nat) (alphas : list N) (ts : list Z) (metric : string) (target p : nat)
      (net : solver_net) (ols : solver_ls) (sel est : list split) (X : list (list N)) (y : list N) : result (list N * N) :=
    regressor_fit standardize has metric target p ols (elastic_select has p eps num alphas net ts sel) est X y.
End Selection.
