(** UoI_L1Logistic.fit for two classes with its numbers in a single process, on a fresh
    object: src/pyuoi/linear_model/base.py:179-445, 447-481 and 717-807 with the methods of
    src/pyuoi/linear_model/logistic.py:109-211 (multi_class='auto', shared_support=True).

    The index sets of the bootstraps and the solvers are arguments: [sel_lm] is the
    penalized MaskedCoefLogisticRegression of the selection module (data, codes, C), [est_lm]
    the one of the estimation module (data, codes; C=np.inf, logistic.py:147-152), and
    [refit] is fit_intercept_fixed_coef (logistic.py:214-225).  The fits themselves are in
    Model_LogisticFit.v.  Every training set must contain both classes (for others see
    C115), so that the classes_ of the inner models are 0 and 1.  At least two features and
    two rows of supports: for other shapes see C08, C72 and C73. *)
From Coq Require Import ZArith List Bool Arith String.
From Coq Require Import List.
From Verif Require Import Prelude F64 Num Model_Intersection Model_Fit Model_Scores Model_Refit Model_Rescale Model_Poisson
  Model_Linear Model_Estimation Model_Selection.
From Verif Require Model_Logistic Model_Labels.
Import ListNotations.

Section ClassFit.
  Context {N : NumOps}.

  Definition solver_C := list (list N) -> list N -> N -> list N * N.
  Definition solver_ml := list (list N) -> list N -> list N * N.
  Definition refitter := list (list N) -> list N -> list nat -> N.

  (** The codes of LabelEncoder as numbers (logistic.py:200, base.py:206-207). *)
  Definition numbers (y : list nat) : list N := map nofnat y.

  (** logistic.py:153-179 on a fresh object. *)
  Definition class_Cs (has : bool) (p : nat) (eps : N) (num : nat) (X : list (list N)) (y : list nat) : result (list N) :=
    rmap (fun a => Model_Logistic.C_grid a eps num) (Model_Logistic.alpha_max 1 p has X y).

  (** base.py:222-330; base.py:724-735 leaves the supports of one output as they are. *)
  Definition class_select (p : nat) (sel_lm : solver_C) (ts : list Z) (Cs : list N)
      (splits : list split) (X : list (list N)) (y : list nat) : list (list bool) :=
    selection_module (fun X y c _ => fst (sel_lm X y c)) p ts (map RegAlpha Cs) splits X (numbers y).

  (** base.py:363-401: the estimate and the score of one support in one bootstrap; [clip] is
      the clipping in sklearn's log_loss. *)
  Definition estimate_class (est_lm : solver_ml) (clip : N) (metric : string) (target p : nat)
      (X : list (list N)) (y : list Model_Labels.label) (sp : split) (mask : list bool) : result (list N * N) :=
    let codes := Model_Labels.codes y in
    if existsb (fun b => b) mask then
      let m := est_lm (masked_columns mask (matrix_rows X (fst sp))) (take_rows (numbers codes) (fst sp)) in
      let decide rows := map (Model_Labels.decision_function [fst m] [snd m]) (masked_columns mask (matrix_rows X rows)) in
      let* s := Model_Labels.logistic_score clip y (fun rows => map Model_Labels.predicted_index (decide rows))
                  (fun rows => Model_Labels.Proba2 2 (map (Model_Labels.predict_proba false 2) (decide rows)))
                  metric target mask sp in
      Ok (spread_values mask (fst m), s)
    else
      let b := Model_Logistic.binary_intercept (map (fun i => nth i codes 0) (fst sp)) in
      let* s := Model_Labels.logistic_score clip y (fun rows => repeat (Model_Logistic.binary_predict b) (List.length rows))
                  (fun rows => Model_Labels.Proba1 (repeat (Model_Logistic.binary_proba b) (List.length rows)))
                  metric target (repeat false p) sp in
      Ok (repeat nzero p, s).

  (** logistic.py:188-198. *)
  Definition class_intercept (refit : refitter) (has : bool) (X : list (list N)) (coef : list N) (y : list nat) : N :=
    if has then refit X coef y else nzero.

  (** base.py:363-442. *)
  Definition class_module (est_lm : solver_ml) (refit : refitter) (clip : N) (metric : string) (target p : nat) (has : bool)
      (X : list (list N)) (y : list Model_Labels.label) (supports : list (list bool)) (splits : list split) : result (list N * N) :=
    let* best := mapM (fun sp =>
                   let* out := mapM (estimate_class est_lm clip metric target p X y sp) supports in
                   best_estimate out) splits in
    let coef := bagged p best in
    Ok (coef, class_intercept refit has X coef (Model_Labels.codes y)).

  (** base.py:179-445 around it, with base.py:141-160 and 717-722. *)
  Definition class_fit (standardize has : bool) (eps : N) (num : nat) (ts : list Z) (clip : N) (metric : string) (target p : nat)
      (sel_lm : solver_C) (est_lm : solver_ml) (refit : refitter) (sel est : list split)
      (X : list (list N)) (y : list Model_Labels.label) : result (list N * N) :=
    let codes := Model_Labels.codes y in
    let sX := fit_scaler (columns p X) in
    let Xs := map (base_transform standardize has sX) X in
    let* r := if constant_response (numbers codes)
              then Ok (repeat nzero p, class_intercept refit has Xs (repeat nzero p) codes)
              else let* Cs := class_Cs has p eps num Xs codes in
                   class_module est_lm refit clip metric target p has Xs y
                     (class_select p sel_lm ts Cs sel Xs codes) est in
    Ok (glm_post standardize has sX (fst r) (snd r)).
End ClassFit.
