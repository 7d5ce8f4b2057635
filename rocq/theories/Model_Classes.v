(** Bootstraps that do not contain every class: the selection and estimation solvers of
    UoI_L1Logistic see the classes of their training rows only.
    src/pyuoi/linear_model/logistic.py:197-207 (the outer encoding), 371-404 (the inner one),
    src/pyuoi/linear_model/base.py:469-488 (rows of coefficients), 374-382 (estimates, in
    Model_Fit).  The numbers found by the solvers are arguments; what matters here is how many
    there are.  Also the number of samples per class that scikit-learn's train_test_split puts
    into the training part with [stratify] (StratifiedShuffleSplit and _approximate_mode). *)
From Coq Require Import ZArith List Bool Arith.
From Verif Require Import Prelude F64 Model_Mpi Model_Fit Model_Labels.
Import ListNotations.

(** base.py:287-288 [y_rep = y[idxs_train]] after logistic.py:200. *)
Definition boot_labels (y : list label) (train : list nat) : list label :=
  map (fun i => of_code (nth i (codes y) 0)) train.
(** logistic.py:381, 391: the number of classes that the inner fit finds. *)
Definition boot_classes (y : list label) (train : list nat) : nat :=
  length (masked_classes (boot_labels y train)).

(** logistic.py:391-398 and 429-430: the inner fit refuses a single class; otherwise coef_ has
    one row (two classes, not multinomial) or one row per class. *)
Definition inner_rows (multinomial : bool) (k : nat) : result nat :=
  if k <? 2 then Raise ValueError else Ok (output_dim multinomial k).

Section Logistic.
  Context {S E : Type}.
  (** The solvers: numbers for [rows * width] coefficients. *)
  Variable search : S -> nat -> list nat -> nat -> result (S * list f64).
  Variable search_est : list bool -> list nat -> nat -> result E.
  Variables (multinomial : bool) (d : dims) (y : list label).

  (** base.py:474-478: set_params, fit, and the assignment of coef_.ravel() to a row of
      [coefs]. *)
  Definition logistic_lm (s : S) (r : nat) (train : list nat) : result (S * list f64) :=
    let* k := inner_rows multinomial (boot_classes y train) in
    let* x := search s r train (k * n_feat d) in
    let* row := assign_row (n_coef d) (snd x) in
    Ok (fst x, row).
  (** base.py:469-481. *)
  Definition logistic_sweep : S -> list nat -> list nat -> result (S * list (list f64)) := base_sweep logistic_lm.
  (** base.py:377 (the columns of the support only) and 381. *)
  Definition logistic_est (mask : list bool) (train : list nat) : result E :=
    let* k := inner_rows multinomial (boot_classes y train) in
    search_est mask train (k * if shared d then count (fun b => b) mask else n_feat d).
  (** The solvers of UoI_L1Logistic; the other parts are those of [sol]. *)
  Definition logistic_solver (sol : solver S E) : solver S E :=
    mkSolver S E (reset sol) logistic_sweep logistic_est (est_coef sol) (null_fit sol) (score sol) (null_score sol) (fit_int sol).
End Logistic.

(** sklearn.utils._approximate_mode: the expected number of draws per class, rounded down, plus
    zero or one ([extra], decided by the largest remainders and the random state).  Versions
    differ in the order of the operations ([divide_first]). *)
Definition expected_draws (divide_first : bool) (total n_draws c : Z) : f64 :=
  if divide_first then fmul (fdiv (f64_of_Z c) (f64_of_Z total)) (f64_of_Z n_draws)
  else fdiv (f64_of_Z (n_draws * c)) (f64_of_Z total).
Definition class_draws (divide_first : bool) (total n_draws c : Z) (extra : bool) : result nat :=
  match ftrunc (expected_draws divide_first total n_draws c) with
  | Some z => Ok (Z.to_nat z + if extra then 1 else 0)
  | None => Raise ValueError
  end.
(** StratifiedShuffleSplit._iter_indices: for each class the rows in a random order ([perm])
    and the first [class_draws] of them; a class with a single row is refused.  The whole is
    shuffled once more. *)
Definition stratified_train (divide_first : bool) (n_train : Z) (extra : nat -> bool)
    (perm : nat -> list nat) (shuffle : list nat -> list nat) (rows : list (list nat)) : result (list nat) :=
  let total := Z.of_nat (length (concat rows)) in
  if existsb (fun c => length c <? 2) rows then Raise ValueError
  else if (n_train <? Z.of_nat (length rows))%Z then Raise ValueError
  else
    let* parts := mapM (fun i => let* k := class_draws divide_first total n_train (Z.of_nat (length (nth i rows []))) (extra i) in
                                 Ok (firstn k (perm i))) (seq 0 (length rows)) in
    Ok (shuffle (concat parts)).
