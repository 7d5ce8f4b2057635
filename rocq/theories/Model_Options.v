(** Model of the constructors of the estimators: which argument ends up where.
    src/pyuoi/linear_model/base.py:85-122, 501-535, 680-715; lasso.py:204-249;
    elasticnet.py:92-129; logistic.py:111-152, 330-342; poisson.py:51-65, 464-506;
    decomposition/CUR.py:50-62, 270-279; NMF.py:59-76, 83-159, 408-442; and of
    sklearn's BaseEstimator.get_params, set_params and clone (scikit-learn >= 0.24, as
    required by requirements.txt), which these classes inherit.

    Python values are symbols: two of them are the same object only if they are the
    same symbol.  Computed values stay symbolic too: len(alphas), the RandomState
    made from the seed, the thresholds and the logger; their computation is assumed to
    succeed here (the thresholds are the subject of C01-C03, the logger of C66, C67).
    MPI is left out except for storing comm. *)
From Coq Require Import String List Bool Arith.
From Verif Require Import Prelude Num Model_Scores Model_Fit Model_Rescale.
Import ListNotations.
Local Open Scope string_scope.

Inductive pyv :=
| PNone | PBool (b : bool) | PStr (s : string)
| PObj (n : nat)                                   (* any other object *)
| VLen (v : pyv)                                   (* a number computed from v: len(alphas), max(n_boots // 2, 1) *)
| VRng (comm seed : pyv)                           (* base.py:105-114 *)
| VThresholds (stability n_boots : pyv)            (* base.py:117-118 *)
| VLogger (logger comm : pyv)                      (* base.py:122, NMF.py:159 *)
| VTarget (n : nat)                                (* 0: train, 1: test *)
| VDefault (cls name : string).                    (* a default or a constant in the code *)

Definition truthy (v : pyv) : bool := match v with PNone | PBool false => false | _ => true end.

(** Attributes of an object, the last assignment first. *)
Definition attrs := list (string * pyv).
Fixpoint find (n : string) (l : attrs) : option pyv :=
  match l with
  | [] => None
  | (k, v) :: r => if k =? n then Some v else find n r
  end.

(** Arguments by name. *)
Definition args := string -> pyv.
Definition kw (names : list string) (a : args) : attrs := map (fun n => (n, a n)) names.
(** A call with some keyword arguments, the others have their defaults. *)
Definition call (given : attrs) (defaults : args) : args :=
  fun n => match find n given with Some v => v | None => defaults n end.

(** ** The solvers created by the constructors *)
Record model := mkModel { m_class : string; m_attrs : attrs }.

(** sklearn's Lasso, ElasticNet and LinearRegression, pyuoi's Poisson (poisson.py:51-60),
    and PycLasso (lasso.py:38-53) store their arguments; only those given differ from
    the defaults. *)
Definition new_model (cls : string) (given : attrs) : model := mkModel cls given.

(** ** Objects *)
Record obj := mkObj {
  o_attrs : attrs;
  o_sel : option model;                            (* _selection_lm *)
  o_est : option model                             (* _estimation_lm *)
}.

(** base.py:85-122 *)
Definition base_defaults : args := fun n =>
  if existsb (String.eqb n) ["fit_intercept"; "standardize"; "shared_support"] then PBool true
  else if existsb (String.eqb n) ["max_iter"; "tol"; "random_state"; "comm"; "logger"] then PNone
  else VDefault "base" n.
Definition base_init (a : args) : attrs :=
  ([("_logger", VLogger (a "logger") (a "comm")); ("n_supports_", PNone);
    ("selection_thresholds_", VThresholds (a "stability_selection") (a "n_boots_sel"));
    ("random_state", VRng (a "comm") (a "random_state"))]
   ++ kw ["comm"; "tol"; "max_iter"; "shared_support"; "standardize"; "fit_intercept";
          "stability_selection"; "n_boots_est"; "n_boots_sel"; "estimation_frac"; "selection_frac"] a)%list.

(** base.py:517-535, 697-715: the checks of estimation_score and estimation_target. *)
Definition check_score (init : string -> option string -> result (string * nat)) (a : args)
  : result (string * nat) :=
  match a "estimation_score" with
  | PStr m => match a "estimation_target" with
              | PNone => init m None
              | PStr t => init m (Some t)
              | _ => rmap (fun _ => (m, 0)) (init m (Some ""))    (* not 'train' or 'test' *)
              end
  | _ => Raise ValueError
  end.
Definition scored (r : string * nat) (l : attrs) : attrs :=
  (("_estimation_target", VTarget (snd r)) :: ("__estimation_score", PStr (fst r)) :: l).

(** base.py:501-535 *)
Definition regressor_init (a : args) : result attrs :=
  let l := base_init (call (kw ["n_boots_sel"; "n_boots_est"; "selection_frac"; "estimation_frac";
     "stability_selection"; "fit_intercept"; "standardize"; "max_iter"; "tol"; "random_state";
     "comm"; "logger"] a) base_defaults) in
  let* r := check_score init_linear a in Ok (scored r l).
(** base.py:680-715 *)
Definition glm_defaults : args := base_defaults.
Definition glm_init (a : args) : result attrs :=
  let l := base_init (call (kw ["n_boots_sel"; "n_boots_est"; "selection_frac"; "estimation_frac";
     "stability_selection"; "random_state"; "fit_intercept"; "standardize"; "shared_support";
     "max_iter"; "tol"; "comm"; "logger"] a) base_defaults) in
  let* r := check_score init_glm a in Ok (scored r l).

(** lasso.py:204-249.  [pycasso]: is the library installed?  Without it 'pyc' raises
    ImportError (OtherError here). *)
Definition lasso_sel (pycasso : bool) (a : args) : result (option model) :=
  match a "solver" with
  | PStr s =>
      if s =? "cd" then
        Ok (Some (new_model "Lasso" (kw ["max_iter"; "tol"; "warm_start"; "random_state"; "fit_intercept"] a)))
      else if s =? "pyc" then
        if negb pycasso then Raise OtherError
        else match a "fit_intercept" with
             | PBool false => Raise ValueError                     (* lasso.py:43-45 *)
             | _ => Ok (Some (new_model "PycLasso" (kw ["fit_intercept"; "max_iter"; "tol"] a)))
             end
      else Ok None
  | _ => Ok None
  end.
Definition lasso_init (pycasso : bool) (a : args) : result obj :=
  let* l := regressor_init (call (kw ["n_boots_sel"; "n_boots_est"; "selection_frac"; "estimation_frac";
     "estimation_target"; "stability_selection"; "copy_X"; "fit_intercept"; "standardize"; "random_state";
     "comm"; "estimation_score"; "max_iter"; "tol"; "logger"] a) base_defaults) in
  let l := (kw ["tol"; "solver"; "eps"; "n_lambdas"] a ++ l)%list in
  let* s := lasso_sel pycasso a in
  Ok (mkObj l s (Some (new_model "LinearRegression" (kw ["fit_intercept"] a)))).

(** elasticnet.py:92-129 *)
Definition elasticnet_init (a : args) : result obj :=
  let* l := regressor_init (call (kw ["n_boots_sel"; "n_boots_est"; "selection_frac"; "estimation_frac";
     "stability_selection"; "estimation_score"; "estimation_target"; "copy_X"; "fit_intercept";
     "standardize"; "random_state"; "comm"; "max_iter"; "tol"; "logger"] a) base_defaults) in
  let l := ((("lambdas", PNone) :: kw ["eps"; "warm_start"] a)
            ++ ("n_alphas", VLen (a "alphas")) :: kw ["alphas"; "n_lambdas"] a ++ l)%list in
  Ok (mkObj l
    (Some (new_model "ElasticNet" (kw ["fit_intercept"; "max_iter"; "tol"; "copy_X"; "warm_start"; "random_state"] a)))
    (Some (new_model "LinearRegression" (kw ["fit_intercept"] a)))).

(** logistic.py:330-342: multi_class must be 'multinomial' or 'auto'. *)
Definition masked_logistic (given : attrs) (multi_class : pyv) : result model :=
  match multi_class with
  | PStr s => if (s =? "multinomial") || (s =? "auto")
              then Ok (new_model "MaskedCoefLogisticRegression" given) else Raise ValueError
  | _ => Raise ValueError
  end.
(** logistic.py:111-152 *)
Definition logistic_init (a : args) : result obj :=
  let* l := glm_init (call (kw ["n_boots_sel"; "n_boots_est"; "selection_frac"; "estimation_frac";
     "stability_selection"; "estimation_score"; "estimation_target"; "random_state"; "fit_intercept";
     "standardize"; "shared_support"; "comm"; "logger"] a) glm_defaults) in
  let l := (("solver", PStr "lbfgs") :: kw ["tol"; "eps"; "multi_class"] a
            ++ ("Cs", PNone) :: kw ["n_C"] a ++ l)%list in
  let* s := masked_logistic (("penalty", PStr "l1")
     :: kw ["max_iter"; "warm_start"; "multi_class"; "fit_intercept"; "tol"] a) (a "multi_class") in
  let* e := masked_logistic (("C", VDefault "numpy" "inf")
     :: kw ["multi_class"; "fit_intercept"; "max_iter"; "tol"] a) (a "multi_class") in
  Ok (mkObj l (Some s) (Some e)).

(** poisson.py:464-506 *)
Definition poisson_init (a : args) : result obj :=
  let* l := glm_init (call (kw ["n_boots_sel"; "n_boots_est"; "selection_frac"; "estimation_frac";
     "stability_selection"; "estimation_score"; "estimation_target"; "copy_X"; "fit_intercept";
     "random_state"; "comm"; "logger"] a) glm_defaults) in
  let l := ((("lambdas", PNone) :: kw ["eps"; "warm_start"] a)
            ++ ("n_alphas", VLen (a "alphas")) :: kw ["alphas"; "n_lambdas"] a ++ l)%list in
  Ok (mkObj l
    (Some (new_model "Poisson" (kw ["fit_intercept"; "standardize"; "max_iter"; "tol"; "warm_start"; "solver"] a)))
    (Some (new_model "Poisson" (("alpha", VDefault "poisson" "0") :: ("l1_ratio", VDefault "poisson" "1")
       :: ("warm_start", PBool false) :: kw ["fit_intercept"; "max_iter"; "tol"; "solver"] a)))).

(** NMF.py:83-159, 59-76.  The checks of the arguments are the subject of C64 and left
    out; here everything is accepted.  ranks is assigned only when it is not None;
    random_state and logger are not stored under these names. *)
Definition nmf_base_init (a : args) : attrs :=
  (("use_dissimilarity", a "use_dissimilarity")
   :: ("_logger", VLogger (a "logger") PNone) :: ("comm", PNone) :: ("_rand", VRng PNone (a "random_state"))
   :: map (fun n => (n, match a n with PNone => VDefault "nmf" n | v => v end)) ["cons_meth"; "nnreg"; "cluster"; "nmf"]
   ++ match a "ranks" with PNone => [] | v => [("ranks", v)] end
   ++ [("components_", PNone); ("n_boots", a "n_boots")])%list.

(** NMF.py:408-442.  The arguments of the solvers that are created. *)
Definition nmf_init (a : args) : obj :=
  mkObj (nmf_base_init (call (kw ["n_boots"; "ranks"; "random_state"; "use_dissimilarity"; "logger"] a)
           (fun n => match n with
                     | "nmf" => VDefault "UoI_NMF" "nmf" | "cluster" => VDefault "UoI_NMF" "cluster"
                     | "cons_meth" => VDefault "numpy" "mean" | _ => PNone end)))
        (Some (new_model "NMF" (kw ["nmf_init"; "nmf_solver"; "nmf_beta_loss"; "nmf_tol"; "nmf_max_iter"] a)))
        (Some (new_model "DBSCAN" (("min_samples", match a "db_min_samples" with PNone => VLen (a "n_boots") | v => v end)
           :: kw ["db_eps"; "db_metric"; "db_metric_params"; "db_algorithm"] a))).

(** ** Classes *)
Inductive cls := UoI_Lasso | UoI_ElasticNet | UoI_L1Logistic | UoI_Poisson
| UoI_NMF_Base | UoI_NMF | UoI_CUR | CUR | PoissonGLM.

(** The names of the constructor's parameters. *)
Definition signature (c : cls) : list string :=
  match c with
  | UoI_Lasso => ["n_boots_sel"; "n_boots_est"; "selection_frac"; "estimation_frac"; "n_lambdas";
      "stability_selection"; "estimation_score"; "estimation_target"; "eps"; "warm_start"; "copy_X";
      "fit_intercept"; "standardize"; "max_iter"; "tol"; "random_state"; "comm"; "logger"; "solver"]
  | UoI_ElasticNet => ["n_boots_sel"; "n_boots_est"; "selection_frac"; "estimation_frac"; "n_lambdas";
      "alphas"; "stability_selection"; "estimation_score"; "estimation_target"; "warm_start"; "eps";
      "copy_X"; "fit_intercept"; "standardize"; "max_iter"; "tol"; "random_state"; "comm"; "logger"]
  | UoI_L1Logistic => ["n_boots_sel"; "n_boots_est"; "selection_frac"; "estimation_frac"; "n_C";
      "stability_selection"; "estimation_score"; "estimation_target"; "multi_class"; "shared_support";
      "warm_start"; "eps"; "fit_intercept"; "standardize"; "max_iter"; "tol"; "random_state"; "comm"; "logger"]
  | UoI_Poisson => ["n_boots_sel"; "n_boots_est"; "n_lambdas"; "alphas"; "selection_frac";
      "estimation_frac"; "stability_selection"; "estimation_score"; "estimation_target"; "solver";
      "warm_start"; "eps"; "tol"; "copy_X"; "fit_intercept"; "standardize"; "max_iter"; "random_state";
      "comm"; "logger"]
  | UoI_NMF_Base => ["n_boots"; "ranks"; "nmf"; "cluster"; "nnreg"; "cons_meth"; "use_dissimilarity";
      "random_state"; "logger"]
  | UoI_NMF => ["n_boots"; "ranks"; "nmf_init"; "nmf_solver"; "nmf_beta_loss"; "nmf_tol"; "nmf_max_iter";
      "db_eps"; "db_min_samples"; "db_metric"; "db_metric_params"; "db_algorithm"; "db_leaf_size";
      "use_dissimilarity"; "random_state"; "logger"; "nmf"; "cluster"; "nnreg"; "cons_meth"]
  | UoI_CUR => ["n_boots"; "max_k"; "boots_frac"; "stability_selection"; "algorithm"; "n_iter"; "tol";
      "random_state"]
  | CUR => ["max_k"; "algorithm"; "n_iter"; "tol"; "random_state"]
  | PoissonGLM => ["alpha"; "l1_ratio"; "fit_intercept"; "standardize"; "max_iter"; "tol"; "warm_start"; "solver"]
  end.

(** cls(...); CUR.py:50-62, 270-279 and poisson.py:51-65 store all arguments. *)
Definition construct (pycasso : bool) (c : cls) (a : args) : result obj :=
  match c with
  | UoI_Lasso => lasso_init pycasso a
  | UoI_ElasticNet => elasticnet_init a
  | UoI_L1Logistic => logistic_init a
  | UoI_Poisson => poisson_init a
  | UoI_NMF_Base => Ok (mkObj (nmf_base_init a) None None)
  | UoI_NMF => Ok (nmf_init a)
  | UoI_CUR | CUR | PoissonGLM => Ok (mkObj (kw (rev (signature c)) a) None None)
  end.

(** ** Reading attributes *)

(** getattr; estimation_score is a property (base.py:571-573, 737-739). *)
Definition getattr (o : obj) (n : string) : result pyv :=
  match find (if n =? "estimation_score" then "__estimation_score" else n) (o_attrs o) with
  | Some v => Ok v
  | None => Raise AttributeError
  end.
Definition setattr (n : string) (v : pyv) (o : obj) : obj := mkObj ((n, v) :: o_attrs o) (o_sel o) (o_est o).

(** BaseEstimator.get_params(deep=False): one getattr per parameter. *)
Definition get_params (c : cls) (o : obj) : result attrs :=
  mapM (fun n => rmap (fun v => (n, v)) (getattr o n)) (signature c).

(** BaseEstimator.set_params for names without "__": without arguments it returns at
    once, otherwise it calls get_params first. *)
Fixpoint assign (valid : attrs) (kwargs : attrs) (o : obj) : obj * result unit :=
  match kwargs with
  | [] => (o, Ok tt)
  | (k, v) :: r => match find k valid with
                   | Some _ => assign valid r (setattr k v o)
                   | None => (o, Raise ValueError)
                   end
  end.
Definition sk_set_params (c : cls) (kwargs : attrs) (o : obj) : obj * result unit :=
  match kwargs with
  | [] => (o, Ok tt)
  | _ => match get_params c o with
         | Raise e => (o, Raise e)
         | Ok valid => assign valid kwargs o
         end
  end.

(** set_params of the classes; the factorizations (NMF.py:78-81) run [__initialize] again
    with the result of get_params. *)
Definition set_params (c : cls) (kwargs : attrs) (o : obj) : obj * result unit :=
  match sk_set_params c kwargs o with
  | (o, Raise e) => (o, Raise e)
  | (o, Ok _) =>
      match c with
      | UoI_NMF_Base | UoI_NMF =>
          match get_params c o with
          | Raise e => (o, Raise e)
          | Ok p => (mkObj (nmf_base_init (call p (fun _ => PNone)) ++ o_attrs o)%list (o_sel o) (o_est o), Ok tt)
          end
      | _ => (o, Ok tt)
      end
  end.

(** sklearn.base.clone: the class called with get_params (the parameters are copied). *)
Definition clone (pycasso : bool) (c : cls) (o : obj) : result obj :=
  let* p := get_params c o in construct pycasso c (call p (fun _ => PNone)).

(** ** What the attributes do *)

(** poisson.py:613-617: how UoI_Poisson transforms a sample before fitting, and
    poisson.py:624-632: what it does with the coefficients afterwards. *)
Definition attr_true (o : obj) (n : string) : bool :=
  match getattr o n with Ok v => truthy v | Raise _ => false end.
Definition poisson_design {N : NumOps} (o : obj) (s : scaler N) (x : list N) : list N :=
  centering_transform (attr_true o "standardize") s x.
Definition poisson_rescale {N : NumOps} (o : obj) (s : scaler N) (coef : list N) (ic : N) : list N * N :=
  poisson_post (attr_true o "standardize") (attr_true o "fit_intercept") s coef ic.

(** base.py:280-283, 475: the selection sweep reads _selection_lm, which must exist.
    [sweep0] is what happens when it does. *)
Definition lasso_solver {S E} (o : obj) (sol : solver S E) : solver S E :=
  mkSolver S E (reset sol)
    (fun s regs tr => match o_sel o with Some _ => sweep sol s regs tr | None => Raise AttributeError end)
    (est_fit sol) (est_coef sol) (null_fit sol) (score sol) (null_score sol) (fit_int sol).
