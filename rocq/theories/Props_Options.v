(** Constructor options, get_params, set_params and clone: C70, C97. *)
From Coq Require Import String List Bool Arith ZArith Reals Lra.
From Verif Require Import Prelude F64 Num Model_Scores Model_Mpi Model_Fit Spec_Fit Model_Rescale Spec_Rescale
  Model_Options Spec_Options Proofs_Options Proofs_FitFind Proofs_OptionsFit.
Import ListNotations.
Local Open Scope string_scope.

(** C70: the arguments of the constructors that are ignored altogether. *)
Theorem C70_ignored : forall c n, In n (signature c) -> (ignored c n <-> In n (without_effect c)).
Proof. exact ignored_iff. Qed.
Print Assumptions C70_ignored.

(** What the attributes of an estimator are, by name (None: there is no such
    attribute). *)
Theorem C70_attributes : forall pyc c a o n, linear_cls c = true -> construct pyc c a = Ok o ->
  In n ("shared_support" :: signature c) -> getattr o n = of_option (attribute c a n).
Proof. exact attribute_ok. Qed.
Print Assumptions C70_attributes.

Theorem C70_nmf_attributes : forall pyc c a o n, nmf_cls c = true -> construct pyc c a = Ok o ->
  In n (signature c) -> getattr o n = of_option (nmf_attribute c a n).
Proof. exact nmf_attribute_ok. Qed.
Print Assumptions C70_nmf_attributes.

Example C70_nmf_ex :
  let a := change "ranks" PNone base_args in
  exists o, construct false UoI_NMF_Base a = Ok o /\ getattr o "ranks" = Raise AttributeError /\
    getattr o "cluster" = Ok (PObj 0) /\ getattr (nmf_init base_args) "ranks" = Ok (PObj 2) /\
    getattr (nmf_init base_args) "cluster" = Ok (VDefault "UoI_NMF" "cluster").
Proof. eexists. repeat split; reflexivity. Qed.

(** UoI_Poisson: self.standardize is always True, self.max_iter and self.tol always
    None; the solver used for selection gets the argument standardize in addition, the
    one used for estimation does not. *)
Theorem C70_poisson : forall pyc a o, construct pyc UoI_Poisson a = Ok o ->
  getattr o "standardize" = Ok (PBool true) /\ getattr o "max_iter" = Ok PNone /\ getattr o "tol" = Ok PNone /\
  exists s e, o_sel o = Some s /\ o_est o = Some e /\
    (forall n, In n ["fit_intercept"; "standardize"; "max_iter"; "tol"; "warm_start"; "solver"] ->
       find n (m_attrs s) = Some (a n)) /\
    (forall n, In n ["fit_intercept"; "max_iter"; "tol"; "solver"] -> find n (m_attrs e) = Some (a n)) /\
    find "standardize" (m_attrs e) = None.
Proof. exact poisson_reach. Qed.
Print Assumptions C70_poisson.

(** So the data are standardized, and the coefficients scaled back, also with
    standardize=False. *)
Theorem C70_poisson_standardizes : forall pyc a o (m s x c : list R) b p,
  construct pyc UoI_Poisson a = Ok o ->
  List.length m = p -> List.length s = p -> List.length x = p -> List.length c = p ->
  (forall j, j < p -> entry (poisson_design (N := Rnum) o (mkScaler (N := Rnum) m s) x) j
                      = ((entry x j - entry m j) / entry s j)%R) /\
  (forall j, j < p -> entry (fst (poisson_rescale (N := Rnum) o (mkScaler (N := Rnum) m s) c b)) j
                      = (entry c j / entry s j)%R).
Proof. exact poisson_standardizes. Qed.
Print Assumptions C70_poisson_standardizes.

(** UoI_Poisson(estimation_score='acc') is accepted. *)
Theorem C70_acc_accepted : forall pyc a,
  a "estimation_score" = PStr "acc" -> a "estimation_target" = PNone ->
  exists o, construct pyc UoI_Poisson a = Ok o /\ getattr o "estimation_score" = Ok (PStr "acc").
Proof. exact poisson_acc_accepted. Qed.
Print Assumptions C70_acc_accepted.

(** But scoring raises ValueError as soon as the predictions are there, and no rank of
    any run ever returns from fit. *)
Theorem C70_acc_raises : forall (N : NumOps) target (y : list N) pred ic support sp yp,
  pred (target_rows target sp) = Ok yp ->
  poisson_score "acc" target y pred ic support sp = Raise ValueError.
Proof. exact @acc_raises. Qed.
Print Assumptions C70_acc_raises.

Theorem C70_acc_never_fits : forall S E Rng env d (sol : nat -> solver S E)
    (draw : bool -> Rng -> result (split * Rng)) post
    (N : NumOps) (to : N -> f64) (target : nat) (y : list N)
    (pred : nat -> E -> list nat -> result (list N)) (ic : nat -> E -> N) n R s0 F,
  1 <= n_boots_sel d -> 1 <= n_boots_est d -> (forall i, shapes_ok d (sol i)) ->
  (forall i e mask sp, score (sol i) e mask sp
     = rmap to (poisson_score (N := N) "acc" target y (pred i e) (ic i e) mask sp)) ->
  (forall i e sp, null_score (sol i) e sp
     = rmap to (poisson_score (N := N) "acc" target y (pred i e) (ic i e) (repeat false (n_coef d)) sp)) ->
  ~ returned env d sol draw post n false R s0 F.
Proof. exact acc_never. Qed.
Print Assumptions C70_acc_never_fits.

(** UoI_Lasso: which solver is used.  Without a string nothing is created either; with
    'pyc' the library must be there and fit_intercept must not be False. *)
Theorem C70_lasso_solver : forall pyc a o s, construct pyc UoI_Lasso a = Ok o -> a "solver" = PStr s ->
  (s = "cd" /\ exists m, o_sel o = Some m /\ m_class m = "Lasso") \/
  (s = "pyc" /\ pyc = true /\ a "fit_intercept" <> PBool false /\
   exists m, o_sel o = Some m /\ m_class m = "PycLasso") \/
  (s <> "cd" /\ s <> "pyc" /\ o_sel o = None).
Proof. exact lasso_solver_cases. Qed.
Print Assumptions C70_lasso_solver.

Theorem C70_pyc_errors : forall pyc a,
  a "solver" = PStr "pyc" -> a "estimation_score" = PStr "r2" -> a "estimation_target" = PNone ->
  (pyc = false -> construct pyc UoI_Lasso a = Raise OtherError) /\
  (pyc = true -> a "fit_intercept" = PBool false -> construct pyc UoI_Lasso a = Raise ValueError).
Proof. exact lasso_solver_errors. Qed.
Print Assumptions C70_pyc_errors.

(** An unknown solver: no rank ever returns from fit; a single process raises
    AttributeError; but a constant response is fitted all the same. *)
Theorem C70_unknown_solver : forall S E Rng env d (sol : nat -> solver S E)
    (draw : bool -> Rng -> result (split * Rng)) post pyc a o s,
  construct pyc UoI_Lasso a = Ok o -> a "solver" = PStr s -> s <> "cd" -> s <> "pyc" ->
  1 <= n_boots_sel d -> 1 <= n_reg d -> (forall i, shapes_ok d (sol i)) ->
  (forall n R s0 F, ~ returned env d (fun i => lasso_solver o (sol i)) draw post n false R s0 F) /\
  (forall rng s0, (forall sel rr, is_ok (draw sel rr) = true) ->
     fit env d (lasso_solver o (sol 0)) draw post 1 0 false rng s0 = Done (Raise AttributeError)) /\
  (forall n i rng s0, fit env d (lasso_solver o (sol i)) draw post n i true rng s0
                      = fit env d (sol i) draw post n i true rng s0).
Proof. exact unknown_solver. Qed.
Print Assumptions C70_unknown_solver.

(** Arguments: all zero objects but for the strings. *)
Example C70_ex :
  let a := change "solver" (PStr "sag") base_args in
  exists o, construct false UoI_Lasso a = Ok o /\ o_sel o = None /\
    fit ex_np ex_dims (lasso_solver o ex_solver) ex_draw ex_post 1 0 false 0 tt = Done (Raise AttributeError) /\
    shapes_ok ex_dims ex_solver.
Proof. eexists. split; [reflexivity|]. split; [reflexivity|]. split; [reflexivity|exact ex_shapes]. Qed.
Example C70_poisson_ex :
  let a := change "standardize" (PBool false) (change "estimation_score" (PStr "acc") base_args) in
  exists o, construct false UoI_Poisson a = Ok o /\ getattr o "standardize" = Ok (PBool true) /\
    getattr o "estimation_score" = Ok (PStr "acc") /\
    construct false UoI_Poisson a = construct false UoI_Poisson (change "copy_X" (PObj 7) a) /\
    construct false UoI_Poisson a <> construct false UoI_Poisson (change "eps" (PObj 7) a).
Proof. eexists. repeat split; try reflexivity. intro H. vm_compute in H. discriminate H. Qed.

(** C97: get_params and clone raise AttributeError, set_params does so as soon as an
    argument is given, leaving the object alone.  This holds however many other
    attributes have been assigned since construction (by fit, for example). *)
Theorem C97_broken : forall pyc c a o o', plain_cls c = false -> construct pyc c a = Ok o -> used c o o' ->
  get_params c o' = Raise AttributeError /\ clone pyc c o' = Raise AttributeError /\
  (forall kwargs, kwargs <> [] -> set_params c kwargs o' = (o', Raise AttributeError)) /\
  set_params c [] o' = (o', if nmf_cls c then Raise AttributeError else Ok tt).
Proof. exact params_broken. Qed.
Print Assumptions C97_broken.

(** The other classes behave as scikit-learn requires. *)
Theorem C97_works : forall pyc c a o, plain_cls c = true -> construct pyc c a = Ok o ->
  get_params c o = Ok (kw (signature c) a) /\ clone pyc c o = Ok o /\
  forall kwargs, (forall k v, In (k, v) kwargs -> In k (signature c)) ->
    exists o', set_params c kwargs o = (o', Ok tt) /\ get_params c o' = Ok (kw (signature c) (updated kwargs a)) /\
      clone pyc c o' = construct pyc c (updated kwargs a).
Proof. exact plain_params. Qed.
Print Assumptions C97_works.

(** An unknown name: the arguments before it have been assigned already. *)
Theorem C97_unknown : forall pyc c a o before k v after, plain_cls c = true -> construct pyc c a = Ok o ->
  (forall k v, In (k, v) before -> In k (signature c)) -> ~ In k (signature c) ->
  exists o', set_params c (before ++ (k, v) :: after)%list o = (o', Raise ValueError) /\
    get_params c o' = Ok (kw (signature c) (updated before a)).
Proof. exact plain_unknown. Qed.
Print Assumptions C97_unknown.

Example C97_unknown_ex :
  exists o o', construct false PoissonGLM base_args = Ok o /\
    set_params PoissonGLM [("alpha", PObj 3); ("lambda", PObj 4); ("tol", PObj 5)] o = (o', Raise ValueError) /\
    getattr o' "alpha" = Ok (PObj 3) /\ getattr o' "tol" = Ok (PObj 0).
Proof. eexists. eexists. repeat split; reflexivity. Qed.

Example C97_ex :
  (exists o, construct false UoI_ElasticNet base_args = Ok o /\
    used UoI_ElasticNet o (setattr "coef_" (PObj 5) o)) /\
  get_params UoI_NMF (nmf_init base_args) = Raise AttributeError /\
  (exists o, construct false CUR base_args = Ok o /\
     fst (set_params CUR [("tol", PNone); ("max_k", PObj 3)] o) <> o).
Proof.
  split; [|split; [reflexivity|]].
  - eexists. split; [reflexivity|]. exists [("coef_", PObj 5)]. split; [reflexivity|].
    intros n v [E|[]]. injection E as <- <-. split; [cbn; intuition discriminate|discriminate].
  - eexists. split; [reflexivity|]. intro H. vm_compute in H. discriminate H.
Qed.
