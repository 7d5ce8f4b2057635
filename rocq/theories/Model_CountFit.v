(** UoI_Poisson.fit with its numbers in a single process, on a fresh object:
    src/pyuoi/linear_model/base.py:179-445 and 447-481 with the methods of
    src/pyuoi/linear_model/poisson.py:506-698.

    The index sets of the bootstraps and the two Poisson objects are arguments: [sel_lm] is
    the penalized one of the selection module, [est_lm] the one of the estimation module
    (both take data, alpha and l1_ratio and give coef_ and intercept_; poisson.py:85-120 and
    180-376 are in Model_Poisson.v).  One response; dense matrices as lists of rows.  At least
    two features and two rows of supports: for other shapes see C08, C72 and C73. *)
From Coq Require Import ZArith List Bool Arith String.
From Coq Require Import List.
From Verif Require Import Prelude F64 Num Model_Intersection Model_Fit Model_Scores Model_Refit Model_Rescale Model_Poisson
  Model_Linear Model_Estimation Model_Selection.
Import ListNotations.

Section CountFit.
  Context {N : NumOps}.

  Definition solver_glm := list (list N) -> list N -> N -> N -> list N * N.

  (** base.py:222-330 with poisson.py:506-548; only coef_ is kept (base.py:478-481). *)
  Definition count_select (p : nat) (eps : N) (num : nat) (alphas : list N) (sel_lm : solver_glm) (ts : list Z)
      (splits : list split) (X : list (list N)) (y : list N) : list (list bool) :=
    selection_module (fun X y l mix => fst (sel_lm X y l mix)) p ts (poisson_reg_params p X y eps num alphas) splits X y.

  (** base.py:363-401: the estimate and the score of one support in one bootstrap.
      _estimation_lm has alpha=0. and l1_ratio=1. (poisson.py:496-504).  The model without
      features (poisson.py:659-698) predicts one number, which numpy broadcasts. *)
  Definition estimate_count (est_lm : solver_glm) (metric : string) (target p : nat)
      (X : list (list N)) (y : list N) (sp : split) (mask : list bool) : result (list N * N) :=
    let yr := take_rows y (fst sp) in
    if existsb (fun b => b) mask then
      let m := est_lm (masked_columns mask (matrix_rows X (fst sp))) yr nzero none in
      let* s := poisson_score metric target y
                  (fun rows => predict_mean (mkPoisson (Some (fst m)) (Some (snd m))) (masked_columns mask (matrix_rows X rows)))
                  (snd m) mask sp in
      Ok (spread_values mask (fst m), s)
    else
      let b := no_features_intercept yr in
      let* s := poisson_score metric target y (fun rows => Ok (repeat (nexp b) (List.length rows))) b (repeat false p) sp in
      Ok (repeat nzero p, s).

  (** base.py:363-442 with poisson.py:634-649. *)
  Definition count_module (est_lm : solver_glm) (metric : string) (target p : nat) (has : bool)
      (X : list (list N)) (y : list N) (supports : list (list bool)) (splits : list split) : result (list N * N) :=
    let* best := mapM (fun sp =>
                   let* out := mapM (estimate_count est_lm metric target p X y sp) supports in
                   best_estimate out) splits in
    let coef := bagged p best in
    Ok (coef, uoi_poisson_intercept has X y coef).

  (** base.py:179-445 around it, with poisson.py:613-632. *)
  Definition count_fit (standardize has : bool) (eps : N) (num : nat) (alphas : list N) (ts : list Z) (metric : string) (target p : nat)
      (sel_lm est_lm : solver_glm) (sel est : list split) (X : list (list N)) (y : list N) : result (list N * N) :=
    let sX := fit_scaler (columns p X) in
    let Xs := map (centering_transform standardize sX) X in
    let* r := if constant_response y
              then Ok (repeat nzero p, uoi_poisson_intercept has Xs y (repeat nzero p))
              else count_module est_lm metric target p has Xs y
                     (count_select p eps num alphas sel_lm ts sel Xs y) est in
    Ok (poisson_post standardize has sX (fst r) (snd r)).
End CountFit.
