(** Model of the scoring code: src/pyuoi/utils.py:31-137, the constructors'
    validation and [_score_predictions] of src/pyuoi/linear_model/base.py and
    src/pyuoi/linear_model/poisson.py. *)
From Coq Require Import ZArith List Bool String.
From Verif Require Import Prelude F64 Num Model_Fit.
Import ListNotations.
Local Open Scope string_scope.

Section Scores.
  Context {N : NumOps}.

  (** utils.py:70-88. *)
  Definition BIC (ll : N) (n_features n_samples : Z) : N :=
    nsub (nmul (nofZ n_features) (nln (nofZ n_samples))) (nmul (nofZ 2) ll).

  (** utils.py:91-110. *)
  Definition AIC (ll : N) (n_features : Z) : N :=
    nsub (nofZ (2 * n_features)) (nmul (nofZ 2) ll).

  (** utils.py:113-137. *)
  Definition AICc (ll : N) (n_features n_samples : Z) : N :=
    let a := AIC ll n_features in
    if (n_features + 1 <? n_samples)%Z
    then nadd a (ndiv (nofZ (2 * (n_features * n_features + n_features)))
                      (nofZ (n_samples - n_features - 1)))
    else a.

  (** utils.py:31-67, model 'normal'.  [y_true] and [y_pred] of equal length. *)
  Definition ll_normal (y_true y_pred : list N) : N :=
    let rss := nmean (map (fun r => nmul r r) (map2 nsub y_true y_pred)) in
    nmul (ndiv (nofZ (- Z.of_nat (List.length y_true))) (nofZ 2)) (nadd (nofZ 1) (nln rss)).

  (** utils.py:31-67, model 'poisson'. *)
  Definition ll_poisson (y_true y_pred : list N) : N :=
    if negb (nany y_pred)
    then if nany y_true then nneginf else nzero
    else nmean (map2 (fun yt yp => nsub (nmul yt (nln yp)) yp) y_true y_pred).

  Definition log_likelihood_glm (model : string) (y_true y_pred : list N) : result N :=
    if model =? "normal" then Ok (ll_normal y_true y_pred)
    else if model =? "poisson" then Ok (ll_poisson y_true y_pred)
    else Raise ValueError.

  (** [y[boot_idxs[target]]]: target 0 is the train split, 1 the test split. *)
  Definition target_rows (target : nat) (sp : split) : list nat :=
    if Nat.eqb target 0 then fst sp else snd sp.
  Definition take_rows (l : list N) (rows : list nat) : list N :=
    map (fun i => nth i l nzero) rows.

  (** The criterion named by an information-criterion metric: base.py:627-640,
      794-805, poisson.py:597-608. *)
  Definition criterion (metric : string) (ll : N) (k n : Z) : result N :=
    if metric =? "BIC" then Ok (BIC ll k n)
    else if metric =? "AIC" then Ok (AIC ll k)
    else if metric =? "AICc" then Ok (AICc ll k n)
    else Raise ValueError.

  (** base.py:575-642 [AbstractUoILinearRegressor._score_predictions].  [predict]
      gives the model's predictions for rows of X; [r2] is sklearn's r2_score. *)
  Definition linear_score (r2 : list N -> list N -> N) (metric : string) (target : nat)
      (y : list N) (predict : list nat -> list N) (support : list bool) (sp : split)
    : result N :=
    let rows := target_rows target sp in
    let yt := take_rows y rows in
    let yp := predict rows in
    if negb (Nat.eqb (List.length yt) (List.length yp)) then Raise ValueError
    else if metric =? "r2" then Ok (r2 yt yp)
    else
      let ll := ll_normal yt yp in
      let k := Z.of_nat (count (fun b => b) support) in
      let n := Z.of_nat (List.length yt) in
      rmap nopp (criterion metric ll k n).

  (** base.py:741-807 [AbstractUoIGeneralizedLinearRegressor._score_predictions]
      (logistic).  [accuracy] and [log_loss] are sklearn's functions applied to the
      model's predictions on the given rows. *)
  Definition glm_score (accuracy log_loss : list nat -> result N) (metric : string)
      (target : nat) (support : list bool) (sp : split) : result N :=
    let rows := target_rows target sp in
    if metric =? "acc" then accuracy rows
    else
      let* l := log_loss rows in
      let ll := nopp l in
      if metric =? "log" then Ok ll
      else
        let k := Z.of_nat (count (fun b => b) support) in
        let n := Z.of_nat (List.length rows) in
        rmap nopp (criterion metric (nmul (nofZ n) ll) k n).

  (** poisson.py:550-611 [UoI_Poisson._score_predictions].  [predict] is
      predict_mean; the intercept counts as a feature when it is non-zero. *)
  Definition poisson_score (metric : string) (target : nat) (y : list N)
      (predict : list nat -> result (list N)) (intercept : N) (support : list bool) (sp : split)
    : result N :=
    let rows := target_rows target sp in
    let yt := take_rows y rows in
    let* yp := predict rows in
    let ll := ll_poisson yt yp in
    if metric =? "log" then Ok ll
    else
      let k := (Z.of_nat (count (fun b => b) support)
                + if nnonzero intercept then 1 else 0)%Z in
      let n := Z.of_nat (List.length yt) in
      rmap nopp (criterion metric (nmul (nofZ n) ll) k n).
End Scores.

(** ** Constructor validation *)

(** base.py:495, 507-535: [AbstractUoILinearRegressor.__init__].  [None]: the
    argument estimation_target was not given. *)
Definition linear_metrics : list string := ["r2"; "AIC"; "AICc"; "BIC"].
Definition linear_default (metric : string) : nat := if metric =? "r2" then 1 else 0.

(** base.py:673, 684-715. *)
Definition glm_metrics : list string := ["log"; "BIC"; "AIC"; "AICc"; "acc"].
Definition glm_default (metric : string) : nat :=
  if metric =? "log" then 1 else if metric =? "acc" then 1 else 0.

Definition init_metric (metrics : list string) (default : string -> nat)
    (metric : string) (target : option string) : result (string * nat) :=
  if negb (existsb (String.eqb metric) metrics) then Raise ValueError
  else match target with
       | None => Ok (metric, default metric)
       | Some t => if t =? "train" then Ok (metric, 0)
                   else if t =? "test" then Ok (metric, 1)
                   else Raise ValueError
       end.
Definition init_linear := init_metric linear_metrics linear_default.
Definition init_glm := init_metric glm_metrics glm_default.
