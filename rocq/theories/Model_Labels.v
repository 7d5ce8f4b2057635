(** Class labels: what MaskedCoefLogisticRegression and UoI_L1Logistic do with the names of the
    classes and with weights, src/pyuoi/linear_model/logistic.py:197-211, 344-436, 541-584, the
    scores of src/pyuoi/linear_model/base.py:741-807, and the parts of scikit-learn (0.24 to
    1.3) these rely on: LabelEncoder, LabelBinarizer, log_loss, accuracy_score,
    compute_class_weight, decision_function, predict and predict_proba.

    A label is an integer or a string; the labels of one data set are all of one kind
    (np.asarray makes them so).  A string is never equal to a code (numpy compares
    an integer array with a string elementwise as False).  Left out: labels of other
    types, multi-label targets, standardization (Model_Rescale), sparse X. *)
From Coq Require Import String ZArith List Bool Arith.
From Verif Require Import Prelude Num Model_Mpi Model_Poisson Model_Fit Model_Scores Model_Logistic Model_LogisticFit.
Import ListNotations.

Inductive label := LInt (z : Z) | LStr (s : string).
Definition label_eqb (a b : label) : bool :=
  match a, b with
  | LInt x, LInt y => Z.eqb x y
  | LStr x, LStr y => String.eqb x y
  | _, _ => false
  end.
(** The order of np.sort: integers by value, strings by code points. *)
Definition label_leb (a b : label) : bool :=
  match a, b with
  | LInt x, LInt y => Z.leb x y
  | LStr x, LStr y => String.leb x y
  | LInt _, LStr _ => true
  | LStr _, LInt _ => false
  end.

(** np.unique: sorted, without repetitions. *)
Fixpoint insert_label (l : label) (c : list label) : list label :=
  match c with
  | [] => [l]
  | h :: r => if label_leb l h then l :: c else h :: insert_label l r
  end.
Definition unique_labels (y : list label) : list label :=
  fold_right (fun l c => if existsb (label_eqb l) c then c else insert_label l c) [] y.

(** The position of a label among the classes. *)
Fixpoint label_index (l : label) (c : list label) : option nat :=
  match c with
  | [] => None
  | h :: r => if label_eqb l h then Some O else option_map S (label_index l r)
  end.

(** LabelEncoder.fit_transform, logistic.py:199-200 and 442-443. *)
Definition encode (c : list label) (l : label) : nat :=
  match label_index l c with Some i => i | None => O end.
Definition codes (y : list label) : list nat := map (encode (unique_labels y)) y.
(** A code as a label. *)
Definition of_code (c : nat) : label := LInt (Z.of_nat c).

(** classes_ after fit.  UoI_L1Logistic: line 201.  MaskedCoefLogisticRegression: line 444 is
    overwritten by line 381, where y is encoded already. *)
Definition uoi_classes (y : list label) : list label := unique_labels y.
Definition masked_classes (y : list label) : list label := unique_labels (map of_code (codes y)).

(** Lines 202-207 and 445-450. *)
Definition output_dim (multinomial : bool) (n_classes : nat) : nat :=
  if Nat.ltb 2 n_classes then n_classes else if multinomial then 2 else 1.

Section Labels.
  Context {N : NumOps}.

  (** ** Predictions of a fitted classifier, one sample *)

  (** LinearClassifierMixin.decision_function: a number if coef_ has one row. *)
  Inductive decision := D1 (v : N) | D2 (row : list N).
  Definition decision_function (coef : list (list N)) (intercept : list N) (x : list N) : decision :=
    let row := map2 (fun c b => nadd (ndot x c) b) coef intercept in
    match row with [v] => D1 v | _ => D2 row end.
  (** LinearClassifierMixin.predict: classes_[...]. *)
  Definition predicted_index (d : decision) : nat :=
    match d with D1 v => if nltb nzero v then 1 else 0 | D2 row => nargmax row end.
  Definition predict (classes : list label) (d : decision) : label :=
    nth (predicted_index d) classes (LInt 0).
  (** LogisticRegression.predict_proba for the solver 'lbfgs'; extmath.softmax has the
      formula of utils.softmax. *)
  Definition predict_proba (multinomial : bool) (n_classes : nat) (d : decision) : list N :=
    if negb multinomial && Nat.leb n_classes 2 then
      match d with
      | D1 v => [nsub none (expit v); expit v]
      | D2 row => let e := map expit row in map (fun p => ndiv p (nsum e)) e
      end
    else match d with D1 v => softmax [nopp v; v] | D2 row => softmax row end.

  (** ** Scores *)

  (** What predict_proba returns: a vector (only LogisticInterceptFitterNoFeatures with
      output_dim 1, line 283) or a matrix with the given number of columns. *)
  Inductive proba := Proba1 (p : list N) | Proba2 (columns : nat) (rows : list (list N)).
  Definition samples (P : proba) : nat := match P with Proba1 p => length p | Proba2 _ rows => length rows end.
  Definition columns (P : proba) : nat := match P with Proba1 _ => 2 | Proba2 k _ => k end.

  Definition clip (eps v : N) : N := nmin2 (nmax2 v eps) (nsub none eps).
  Definition clipped (eps : N) (P : proba) : list (list N) :=
    match P with
    | Proba1 p => map (fun v => let c := clip eps v in [nsub none c; c]) p
    | Proba2 _ rows => map (map (clip eps)) rows
    end.

  (** LabelBinarizer().fit(classes).transform(y) for codes y, and the second column that
      log_loss adds for two classes.  A code that is not among the classes gives zeros. *)
  Definition binarized (classes : list label) (c : nat) : list N :=
    let hit l := if label_eqb l (of_code c) then none else nzero in
    if Nat.eqb (length classes) 2 then let v := hit (nth 1 classes (LInt 0)) in [nsub none v; v]
    else map hit classes.

  (** sklearn.metrics.log_loss(y, P, labels=classes); [eps] is 1e-15 or, in later
      versions, the machine epsilon. *)
  Definition log_loss (eps : N) (classes : list label) (P : proba) (y : list nat) : result N :=
    if negb (Nat.eqb (samples P) (length y)) then Raise ValueError
    else if Nat.eqb (length classes) 1 then Raise ValueError
    else if negb (Nat.eqb (length classes) (columns P)) then Raise ValueError
    else
      let normalized := map (fun r => map (fun p => ndiv p (nsum r)) r) (clipped eps P) in
      Ok (nmean (map2 (fun t p => nopp (nsum (map2 (fun a b => nmul a (nln b)) t p)))
                      (map (binarized classes) y) normalized)).

  (** sklearn.metrics.accuracy_score of codes. *)
  Definition accuracy (y pred : list nat) : N :=
    nmean (map2 (fun a b => if Nat.eqb a b then none else nzero) y pred).

  (** base.py:741-807 for UoI_L1Logistic: [pred] and [prob] are the predictions of the
      estimation model for rows of X; y has been encoded (logistic.py:200). *)
  Definition logistic_score (eps : N) (y : list label) (pred : list nat -> list nat) (prob : list nat -> proba)
      (metric : string) (target : nat) (support : list bool) (sp : split) : result N :=
    let at_rows rows := map (fun i => nth i (codes y) 0) rows in
    glm_score (fun rows => Ok (accuracy (at_rows rows) (pred rows)))
      (fun rows => log_loss eps (uoi_classes y) (prob rows) (at_rows rows)) metric target support sp.

  (** ** Weights *)

  (** The argument class_weight: None, 'balanced', a dictionary, anything else. *)
  Inductive class_weight := CWNone | CWBalanced | CWDict (d : list (label * N)) | CWOther.

  (** sklearn.utils.compute_class_weight(class_weight, classes, y) for classes = the sorted
      values of y.  A key that is not a class raises (in versions from 1.2 only if
      some class has no weight). *)
  Definition compute_class_weight (cw : class_weight) (classes : list label) (y : list label) : result (list N) :=
    match cw with
    | CWNone => Ok (map (fun _ => none) classes)
    | CWBalanced => Ok (map (fun l => ndiv (nofnat (length y))
        (nofnat (length classes * count (label_eqb l) y))) classes)
    | CWDict d =>
        foldM (fun w kv => match label_index (fst kv) classes with
                           | Some i => Ok (lset i (snd kv) w)
                           | None => Raise ValueError
                           end) d (map (fun _ => none) classes)
    | CWOther => Raise ValueError
    end.

  (** Lines 550-584: the sample weights handed to the losses, for encoded labels [y]. *)
  Definition weights (multi : bool) (cw : class_weight) (y : list nat) (sw : option (list N)) : result (list N) :=
    let* sw := match sw with
               | Some s => if Nat.eqb (length s) (length y) then Ok s else Raise ValueError
               | None => Ok (map (fun _ => none) y)
               end in
    let weighted ls := let classes := unique_labels ls in
                 let* w := compute_class_weight cw classes ls in
                 Ok (map2 (fun s l => nmul s (nth (encode classes l) w nzero)) sw ls) in
    if multi then weighted (map of_code y)
    else match cw with
         | CWDict _ => weighted (map of_code y)
         | CWBalanced => weighted (map (fun v => LInt (if Nat.eqb v 1 then 1 else -1)%Z) y)
         | _ => Ok sw
         end.

  (** ** MaskedCoefLogisticRegression.fit, lines 365-434, without standardization *)

  (** A constructor argument that must be a number. *)
  Inductive number := Num (v : N) | NotNumber.
  (** not isinstance(v, numbers.Number) or v < 0 *)
  Definition rejected (v : number) : bool := match v with Num v => nltb v nzero | NotNumber => true end.

  (** What fit leaves in the object; classes_ is None if it was not assigned. *)
  Record masked := mkMasked { mk_classes : option (list label); mk_result : fitted N }.

  (** [coef_mask] and the warm start come as rows, one per class (one row if binary, where
      the code takes the mask as a vector). *)
  Definition masked_fit (l2 has multinomial : bool) (p : nat) (C tol max_iter : number) (mi : Z)
      (cw : class_weight) (X : list (list N)) (y : list label) (sw : option (list N))
      (mask coef : option (list (list N))) (opt : (list N -> N * list N) -> list N -> list N)
      (fuel lsfuel : nat) : option masked :=
    let raises e := Some (mkMasked (Some (masked_classes y)) (FitRaises e)) in
    if rejected C || rejected max_iter || rejected tol then Some (mkMasked None (FitRaises ValueError))
    else
      let k := length (masked_classes y) in
      if Nat.ltb k 2 then raises ValueError
      else
        let multi := multinomial || Nat.ltb 2 k in
        match weights multi cw (codes y) sw, C, tol with
        | Raise e, _, _ => raises e
        | Ok w, Num C, Num tol =>
            option_map (mkMasked (Some (masked_classes y)))
              (if multi then fit_multi l2 has k p C tol mi X (codes y) w mask coef opt fuel lsfuel
               else fit_binary l2 has p C tol mi X (codes y) w (option_map (@concat N) mask)
                      (option_map (@concat N) coef) opt fuel lsfuel)
        | _, _, _ => raises ValueError
        end.
End Labels.
Arguments decision : clear implicits.
Arguments proba : clear implicits.
Arguments class_weight : clear implicits.
Arguments number : clear implicits.
Arguments masked : clear implicits.
