(** Proofs about constructor options (C70, C97). *)
From Coq Require Import String List Bool Arith Lia ZArith Reals.
From Verif Require Import Prelude Num Model_Scores Model_Mpi Model_Fit Model_Rescale Model_Options Spec_Options.
Import ListNotations.
Local Open Scope string_scope.

(** ** Inversion of the constructors *)
Definition regressor_attrs (a : args) (r : string * nat) : attrs :=
  scored r (base_init (call (kw ["n_boots_sel"; "n_boots_est"; "selection_frac"; "estimation_frac";
     "stability_selection"; "fit_intercept"; "standardize"; "max_iter"; "tol"; "random_state";
     "comm"; "logger"] a) base_defaults)).
Lemma regressor_inv a l : regressor_init a = Ok l -> exists r, l = regressor_attrs a r.
Proof.
  unfold regressor_init. destruct (check_score init_linear a) as [r|e]; [|discriminate]. cbn [bind]. intro E.
  exists r. now injection E as <-.
Qed.
Definition glm_attrs (a : args) (r : string * nat) : attrs :=
  scored r (base_init (call (kw ["n_boots_sel"; "n_boots_est"; "selection_frac"; "estimation_frac";
     "stability_selection"; "random_state"; "fit_intercept"; "standardize"; "shared_support";
     "max_iter"; "tol"; "comm"; "logger"] a) base_defaults)).
Lemma glm_inv a l : glm_init a = Ok l -> exists r, l = glm_attrs a r.
Proof.
  unfold glm_init. destruct (check_score init_glm a) as [r|e]; [|discriminate]. cbn [bind]. intro E.
  exists r. now injection E as <-.
Qed.

Lemma score_arg init a r : (forall m t r, init m t = Ok r -> fst r = m) ->
  check_score init a = Ok r -> a "estimation_score" = PStr (fst r).
Proof.
  intros H. unfold check_score. destruct (a "estimation_score") as [| |s| | | | | | |]; try discriminate.
  destruct (a "estimation_target"); try (intro E; apply H in E; now subst).
  all: destruct (init s (Some "")) as [q|e] eqn:Q; cbn; intro E; [|discriminate]; injection E as <-; reflexivity.
Qed.
Lemma init_fst ms df m t r : init_metric ms df m t = Ok r -> fst r = m.
Proof.
  unfold init_metric. destruct (negb _); [discriminate|]. destruct t as [t|].
  - destruct (t =? "train"); [intro E; now injection E as <-|].
    destruct (t =? "test"); [intro E; now injection E as <-|discriminate].
  - intro E; now injection E as <-.
Qed.

Ltac each_name H := cbn [signature In] in H;
  repeat (destruct H as [<-|H]; [|]); try (now destruct H).

Lemma lasso_inv pyc a o : lasso_init pyc a = Ok o -> exists r s,
  a "estimation_score" = PStr (fst r) /\ lasso_sel pyc a = Ok s /\
  o = mkObj (kw ["tol"; "solver"; "eps"; "n_lambdas"] a ++ regressor_attrs a r)%list s
        (Some (new_model "LinearRegression" (kw ["fit_intercept"] a))).
Proof.
  unfold lasso_init. set (a' := call _ _). unfold regressor_init.
  destruct (check_score init_linear a') as [r|e] eqn:R; [|discriminate]. cbn [bind].
  destruct (lasso_sel pyc a) as [s|e]; [|discriminate]. cbn [bind]. intro E. exists r, s.
  apply (score_arg _ a' r (init_fst _ _)) in R. split; [exact R|]. split; [reflexivity|]. now injection E as <-.
Qed.
Lemma elasticnet_inv a o : elasticnet_init a = Ok o -> exists r,
  a "estimation_score" = PStr (fst r) /\
  o_attrs o = ((("lambdas", PNone) :: kw ["eps"; "warm_start"] a)
            ++ ("n_alphas", VLen (a "alphas")) :: kw ["alphas"; "n_lambdas"] a ++ regressor_attrs a r)%list /\
  o_sel o = Some (new_model "ElasticNet" (kw ["fit_intercept"; "max_iter"; "tol"; "copy_X"; "warm_start"; "random_state"] a)) /\
  o_est o = Some (new_model "LinearRegression" (kw ["fit_intercept"] a)).
Proof.
  unfold elasticnet_init. set (a' := call _ _). unfold regressor_init.
  destruct (check_score init_linear a') as [r|e] eqn:R; [|discriminate]. cbn [bind]. intro E. exists r.
  apply (score_arg _ a' r (init_fst _ _)) in R. split; [exact R|]. injection E as <-. split; [reflexivity|]. now split.
Qed.
Definition passed_glm (names : list string) (a : args) := call (kw names a) glm_defaults.
Definition logistic_names := ["n_boots_sel"; "n_boots_est"; "selection_frac"; "estimation_frac";
     "stability_selection"; "estimation_score"; "estimation_target"; "random_state"; "fit_intercept";
     "standardize"; "shared_support"; "comm"; "logger"].
Definition poisson_names := ["n_boots_sel"; "n_boots_est"; "selection_frac"; "estimation_frac";
     "stability_selection"; "estimation_score"; "estimation_target"; "copy_X"; "fit_intercept";
     "random_state"; "comm"; "logger"].
Lemma logistic_inv a o : logistic_init a = Ok o -> exists r,
  a "estimation_score" = PStr (fst r) /\
  o_attrs o = (("solver", PStr "lbfgs") :: kw ["tol"; "eps"; "multi_class"] a
            ++ ("Cs", PNone) :: kw ["n_C"] a ++ glm_attrs (passed_glm logistic_names a) r)%list /\
  o_sel o = Some (new_model "MaskedCoefLogisticRegression" (("penalty", PStr "l1")
     :: kw ["max_iter"; "warm_start"; "multi_class"; "fit_intercept"; "tol"] a)) /\
  o_est o = Some (new_model "MaskedCoefLogisticRegression" (("C", VDefault "numpy" "inf")
     :: kw ["multi_class"; "fit_intercept"; "max_iter"; "tol"] a)).
Proof.
  unfold logistic_init. fold logistic_names. fold (passed_glm logistic_names a). unfold glm_init.
  destruct (check_score init_glm (passed_glm logistic_names a)) as [r|e] eqn:R; [|discriminate]. cbn [bind].
  unfold masked_logistic.
  destruct (a "multi_class"); try discriminate. destruct (_ || _)%bool; [|discriminate]. cbn [bind]. intro E. exists r.
  apply (score_arg _ (passed_glm logistic_names a) r (init_fst _ _)) in R. split; [exact R|]. injection E as <-.
  split; [reflexivity|]. now split.
Qed.
Lemma poisson_inv a o : poisson_init a = Ok o -> exists r,
  a "estimation_score" = PStr (fst r) /\
  o_attrs o = ((("lambdas", PNone) :: kw ["eps"; "warm_start"] a)
            ++ ("n_alphas", VLen (a "alphas")) :: kw ["alphas"; "n_lambdas"] a
            ++ glm_attrs (passed_glm poisson_names a) r)%list /\
  o_sel o = Some (new_model "Poisson" (kw ["fit_intercept"; "standardize"; "max_iter"; "tol"; "warm_start"; "solver"] a)) /\
  o_est o = Some (new_model "Poisson" (("alpha", VDefault "poisson" "0") :: ("l1_ratio", VDefault "poisson" "1")
       :: ("warm_start", PBool false) :: kw ["fit_intercept"; "max_iter"; "tol"; "solver"] a)).
Proof.
  unfold poisson_init. fold poisson_names. fold (passed_glm poisson_names a). unfold glm_init.
  destruct (check_score init_glm (passed_glm poisson_names a)) as [r|e] eqn:R; [|discriminate]. cbn [bind]. intro E. exists r.
  apply (score_arg _ (passed_glm poisson_names a) r (init_fst _ _)) in R. split; [exact R|]. injection E as <-.
  split; [reflexivity|]. now split.
Qed.

(** ** Attributes *)
Lemma attribute_ok pyc c a o n : linear_cls c = true -> construct pyc c a = Ok o ->
  In n ("shared_support" :: signature c) -> getattr o n = of_option (attribute c a n).
Proof.
  intros HL H Hn. destruct c; try discriminate; cbn [construct] in H.
  - apply lasso_inv in H as (r & s & R & _ & ->). cbn [signature In] in Hn.
    repeat (destruct Hn as [<-|Hn]; [first [reflexivity | cbn; now rewrite R]|]). destruct Hn.
  - apply elasticnet_inv in H as (r & R & E & _). cbn [signature In] in Hn. unfold getattr. rewrite E.
    repeat (destruct Hn as [<-|Hn]; [first [reflexivity | cbn; now rewrite R]|]). destruct Hn.
  - apply logistic_inv in H as (r & R & E & _). cbn [signature In] in Hn. unfold getattr. rewrite E.
    repeat (destruct Hn as [<-|Hn]; [first [reflexivity | cbn; now rewrite R]|]). destruct Hn.
  - apply poisson_inv in H as (r & R & E & _). cbn [signature In] in Hn. unfold getattr. rewrite E.
    repeat (destruct Hn as [<-|Hn]; [first [reflexivity | cbn; now rewrite R]|]). destruct Hn.
Qed.

(** ** Ignored arguments *)
Lemma agree_sig pyc c a a' : (forall n, In n (signature c) -> ~ In n (without_effect c) -> a n = a' n) ->
  construct pyc c a = construct pyc c a'.
Proof.
  intro H. destruct c; cbn [signature without_effect] in H.
  all: match type of H with forall n, In n ?l -> ~ In n ?w -> _ =>
         let f := eval vm_compute in (filter (fun n => negb (existsb (String.eqb n) w)) l) in
         assert (K : Forall (fun n => a n = a' n) f);
           [repeat (constructor; [apply H; [cbn; tauto|cbn; intuition discriminate]|]); constructor|]
       end; clear H.
  all: repeat match goal with K : Forall _ (_ :: _) |- _ => inversion_clear K end.
  all: try match goal with K : Forall _ [] |- _ => clear K end.
  all: cbn [construct]; unfold lasso_init, elasticnet_init, logistic_init, poisson_init, regressor_init, glm_init,
    lasso_sel, masked_logistic, check_score, scored, base_init, nmf_base_init, nmf_init, kw, call, signature, rev, new_model;
    cbn [find map app String.eqb Ascii.eqb Bool.eqb].
  all: repeat match goal with E : ?x = ?y |- _ => rewrite E in *; clear E end; reflexivity.
Qed.

Definition base_args : args := fun n =>
  match n with
  | "estimation_score" => PStr "AIC" | "estimation_target" => PNone
  | "solver" => PStr "cd" | "multi_class" => PStr "auto" | "fit_intercept" => PBool true
  | "ranks" => PObj 2 | _ => PObj 0
  end.
Definition other_value (n : string) : pyv :=
  match n with
  | "estimation_score" => PStr "BIC" | "estimation_target" => PStr "test"
  | "solver" => PStr "lbfgs" | "multi_class" => PStr "multinomial" | _ => PObj 1
  end.
Lemma ignored_iff c n : In n (signature c) -> (ignored c n <-> In n (without_effect c)).
Proof.
  intro Hn. split.
  - intro H. specialize (H true base_args (change n (other_value n) base_args)).
    assert (A : forall m, m <> n -> base_args m = change n (other_value n) base_args m).
    { intros m Hm. unfold change. destruct (String.eqb_spec m n); [contradiction|reflexivity]. }
    specialize (H A). clear A. revert H.
    destruct c; cbn [signature In] in Hn;
      repeat (destruct Hn as [<-|Hn];
        [first [intros _; cbn; tauto | let E := fresh in intro E; exfalso; vm_compute in E; discriminate E]|]);
      destruct Hn.
  - intros Hw pyc a a' H. apply agree_sig. intros m Hm Hm2. apply H. intros ->. contradiction.
Qed.

(** ** get_params, set_params, clone *)
Lemma mapM_getattr o l : (forall n, In n l -> exists v, getattr o n = Ok v) \/
  mapM (fun n => rmap (fun v => (n, v)) (getattr o n)) l = Raise AttributeError.
Proof.
  induction l as [|n l IH]; [left; intros n []|]. cbn [mapM].
  destruct (getattr o n) as [v|e] eqn:G.
  - destruct IH as [IH|IH].
    + left. intros m [<-|Hm]; [now exists v|now apply IH].
    + right. cbn [rmap bind]. now rewrite IH.
  - right. unfold getattr in G. destruct (find _ _) in G; [discriminate|]. injection G as <-. reflexivity.
Qed.
Lemma no_logger pyc c a o : plain_cls c = false -> construct pyc c a = Ok o -> find "logger" (o_attrs o) = None.
Proof.
  intros Hc H. destruct c; try discriminate; cbn [construct] in H.
  - apply lasso_inv in H as (r & s & _ & _ & ->). reflexivity.
  - apply elasticnet_inv in H as (r & _ & -> & _). reflexivity.
  - apply logistic_inv in H as (r & _ & -> & _). reflexivity.
  - apply poisson_inv in H as (r & _ & -> & _). reflexivity.
  - injection H as <-. unfold nmf_base_init. cbn [o_attrs]. destruct (a "ranks"); reflexivity.
  - injection H as <-. unfold nmf_init, nmf_base_init. cbn [o_attrs]. destruct (call _ _ "ranks"); reflexivity.
Qed.
Lemma nmf_attribute_ok pyc c a o n : nmf_cls c = true -> construct pyc c a = Ok o -> In n (signature c) ->
  getattr o n = of_option (nmf_attribute c a n).
Proof.
  intros Hc H Hn. destruct c; try discriminate; cbn [construct] in H; injection H as <-; cbn [signature In] in Hn.
  - repeat (destruct Hn as [<-|Hn];
      [unfold getattr, nmf_base_init; cbn; destruct (a "ranks"); cbn;
         first [reflexivity|destruct (a "nmf"); reflexivity|destruct (a "cluster"); reflexivity
               |destruct (a "nnreg"); reflexivity|destruct (a "cons_meth"); reflexivity]|]); destruct Hn.
  - repeat (destruct Hn as [<-|Hn];
      [unfold getattr, nmf_init, nmf_base_init, call, kw; cbn; destruct (a "ranks"); cbn; reflexivity|]); destruct Hn.
Qed.
Lemma logger_param c : plain_cls c = false -> In "logger" (signature c).
Proof. destruct c; intro H; try discriminate; cbn; tauto. Qed.
Lemma find_app n (l l' : attrs) : (forall v, ~ In (n, v) l) -> find n (l ++ l')%list = find n l'.
Proof.
  induction l as [|[k v] l IH]; intro H; [reflexivity|]. cbn. destruct (String.eqb_spec k n) as [->|_].
  - destruct (H v). now left.
  - apply IH. intros w Hw. apply (H w). now right.
Qed.
Lemma params_raise pyc c a o o' : plain_cls c = false -> construct pyc c a = Ok o -> used c o o' ->
  get_params c o' = Raise AttributeError.
Proof.
  intros Hc H (new & E & Hnew). unfold get_params.
  destruct (mapM_getattr o' (signature c)) as [G|G]; [exfalso|exact G].
  destruct (G "logger" (logger_param c Hc)) as [v Hv]. unfold getattr in Hv. cbn [String.eqb Ascii.eqb Bool.eqb] in Hv.
  rewrite E, find_app in Hv.
  - rewrite (no_logger pyc c a o Hc H) in Hv. discriminate.
  - intros w Hw. apply (Hnew _ _) in Hw as [Hw _]. apply Hw. now apply logger_param.
Qed.
Lemma params_broken pyc c a o o' : plain_cls c = false -> construct pyc c a = Ok o -> used c o o' ->
  get_params c o' = Raise AttributeError /\ clone pyc c o' = Raise AttributeError /\
  (forall kwargs, kwargs <> [] -> set_params c kwargs o' = (o', Raise AttributeError)) /\
  set_params c [] o' = (o', if nmf_cls c then Raise AttributeError else Ok tt).
Proof.
  intros Hc H Hu. pose proof (params_raise pyc c a o o' Hc H Hu) as G.
  split; [exact G|]. split; [unfold clone; now rewrite G|]. split.
  - intros [|k l] Hk; [contradiction|]. unfold set_params, sk_set_params. now rewrite G.
  - unfold set_params, sk_set_params. destruct c; try reflexivity; now rewrite G.
Qed.

(** The classes that store their arguments. *)
Lemma find_kw a l n : find n (kw l a) = if existsb (String.eqb n) l then Some (a n) else None.
Proof.
  induction l as [|k l IH]; [reflexivity|]. cbn. rewrite (String.eqb_sym n k).
  destruct (String.eqb_spec k n) as [->|_]; [reflexivity|exact IH].
Qed.
Lemma existsb_sig n l : In n l -> existsb (String.eqb n) l = true.
Proof. intro H. apply existsb_exists. exists n. split; [exact H|apply String.eqb_refl]. Qed.
Definition holds (c : cls) (o : obj) (a : args) : Prop :=
  forall n, In n (signature c) -> getattr o n = Ok (a n).
Lemma holds_params c o a : holds c o a -> get_params c o = Ok (kw (signature c) a).
Proof.
  unfold holds, get_params. induction (signature c) as [|n l IH]; intro H; [reflexivity|].
  cbn [mapM kw map]. rewrite (H n (or_introl eq_refl)). cbn [rmap bind].
  rewrite IH by (intros m Hm; apply H; now right). reflexivity.
Qed.
Lemma plain_names c n : plain_cls c = true -> In n (signature c) -> (n =? "estimation_score") = false.
Proof.
  intros Hc Hn. destruct (String.eqb_spec n "estimation_score") as [->|_]; [|reflexivity]. exfalso.
  destruct c; try discriminate; cbn in Hn; intuition discriminate.
Qed.
Lemma plain_holds pyc c a o : plain_cls c = true -> construct pyc c a = Ok o -> holds c o a.
Proof.
  intros Hc H n Hn. assert (E : o_attrs o = kw (rev (signature c)) a).
  { destruct c; try discriminate; now injection H as <-. }
  unfold getattr. rewrite E, (plain_names c n Hc Hn), find_kw, existsb_sig; [reflexivity|]. now apply in_rev in Hn.
Qed.
Lemma holds_set c o a k v : plain_cls c = true -> In k (signature c) -> holds c o a ->
  holds c (setattr k v o) (change k v a).
Proof.
  intros Hc Hk H n Hn. unfold getattr, setattr, change. cbn [o_attrs find].
  rewrite (plain_names c n Hc Hn), (String.eqb_sym n k). destruct (String.eqb_spec k n) as [->|_]; [reflexivity|].
  specialize (H n Hn). unfold getattr in H. now rewrite (plain_names c n Hc Hn) in H.
Qed.
Lemma assign_ok c a0 kwargs : plain_cls c = true -> (forall k v, In (k, v) kwargs -> In k (signature c)) ->
  forall o a, holds c o a -> exists o', assign (kw (signature c) a0) kwargs o = (o', Ok tt) /\ holds c o' (updated kwargs a).
Proof.
  intros Hc. induction kwargs as [|[k v] l IH]; intros Hk o a Ho.
  - exists o. now split.
  - cbn [assign]. rewrite find_kw, existsb_sig by (apply (Hk k v); now left).
    destruct (IH (fun k' v' h => Hk k' v' (or_intror h)) (setattr k v o) (change k v a)) as (o' & E & H').
    { apply holds_set; [exact Hc|apply (Hk k v); now left|exact Ho]. }
    exists o'. now split.
Qed.
Lemma construct_ext pyc c a a' : plain_cls c = true -> (forall n, In n (signature c) -> a n = a' n) ->
  construct pyc c a = construct pyc c a'.
Proof. intros Hc H. apply agree_sig. intros n Hn _. now apply H. Qed.
Lemma plain_params pyc c a o : plain_cls c = true -> construct pyc c a = Ok o ->
  get_params c o = Ok (kw (signature c) a) /\ clone pyc c o = Ok o /\
  forall kwargs, (forall k v, In (k, v) kwargs -> In k (signature c)) ->
    exists o', set_params c kwargs o = (o', Ok tt) /\ get_params c o' = Ok (kw (signature c) (updated kwargs a)) /\
      clone pyc c o' = construct pyc c (updated kwargs a).
Proof.
  intros Hc H. pose proof (plain_holds pyc c a o Hc H) as Ho.
  assert (CL : forall o a, holds c o a -> clone pyc c o = construct pyc c a).
  { intros o1 a1 H1. unfold clone. rewrite (holds_params _ _ _ H1). cbn [bind]. apply construct_ext; [exact Hc|].
    intros n Hn. unfold call. now rewrite find_kw, existsb_sig. }
  split; [now apply holds_params|]. split; [now rewrite (CL o a Ho)|].
  intros kwargs Hk. destruct (assign_ok c a kwargs Hc Hk o a Ho) as (o' & E & H').
  exists o'. split; [|split; [now apply holds_params|now apply CL]].
  unfold set_params, sk_set_params. rewrite (holds_params _ _ _ Ho).
  destruct kwargs as [|kv l].
  - cbn in E. injection E as <-. destruct c; try discriminate; reflexivity.
  - rewrite E. destruct c; try discriminate; reflexivity.
Qed.
Lemma assign_unknown c a0 before k v after : plain_cls c = true ->
  (forall k v, In (k, v) before -> In k (signature c)) -> ~ In k (signature c) ->
  forall o a, holds c o a -> exists o', assign (kw (signature c) a0) (before ++ (k, v) :: after)%list o = (o', Raise ValueError) /\
    holds c o' (updated before a).
Proof.
  intros Hc. induction before as [|[k' v'] l IH]; intros Hb Hk o a Ho.
  - exists o. split; [|exact Ho]. cbn [assign app]. rewrite find_kw.
    destruct (existsb (String.eqb k) (signature c)) eqn:E; [|reflexivity].
    apply existsb_exists in E as (x & Hx & Ex). apply String.eqb_eq in Ex as ->. contradiction.
  - cbn [assign app]. rewrite find_kw, existsb_sig by (apply (Hb k' v'); now left).
    apply (IH (fun x y h => Hb x y (or_intror h)) Hk).
    apply holds_set; [exact Hc|apply (Hb k' v'); now left|exact Ho].
Qed.
Lemma plain_unknown pyc c a o before k v after : plain_cls c = true -> construct pyc c a = Ok o ->
  (forall k v, In (k, v) before -> In k (signature c)) -> ~ In k (signature c) ->
  exists o', set_params c (before ++ (k, v) :: after)%list o = (o', Raise ValueError) /\
    get_params c o' = Ok (kw (signature c) (updated before a)).
Proof.
  intros Hc H Hb Hk. pose proof (plain_holds pyc c a o Hc H) as Ho.
  destruct (assign_unknown c a before k v after Hc Hb Hk o a Ho) as (o' & E & H').
  exists o'. split; [|now apply holds_params].
  assert (S : sk_set_params c (before ++ (k, v) :: after)%list o = (o', Raise ValueError)).
  { unfold sk_set_params. rewrite (holds_params _ _ _ Ho), E. now destruct before. }
  unfold set_params. rewrite S. destruct c; try discriminate; reflexivity.
Qed.

(** ** UoI_Poisson, UoI_Lasso *)
Lemma poisson_reach pyc a o : construct pyc UoI_Poisson a = Ok o ->
  getattr o "standardize" = Ok (PBool true) /\ getattr o "max_iter" = Ok PNone /\ getattr o "tol" = Ok PNone /\
  exists s e, o_sel o = Some s /\ o_est o = Some e /\
    (forall n, In n ["fit_intercept"; "standardize"; "max_iter"; "tol"; "warm_start"; "solver"] ->
       find n (m_attrs s) = Some (a n)) /\
    (forall n, In n ["fit_intercept"; "max_iter"; "tol"; "solver"] -> find n (m_attrs e) = Some (a n)) /\
    find "standardize" (m_attrs e) = None.
Proof.
  intro H. split; [exact (attribute_ok pyc UoI_Poisson a o "standardize" eq_refl H ltac:(cbn; tauto))|].
  split; [exact (attribute_ok pyc UoI_Poisson a o "max_iter" eq_refl H ltac:(cbn; tauto))|].
  split; [exact (attribute_ok pyc UoI_Poisson a o "tol" eq_refl H ltac:(cbn; tauto))|].
  cbn [construct] in H. apply poisson_inv in H as (r & _ & _ & Es & Ee). eexists; eexists.
  split; [exact Es|]. split; [exact Ee|].
  split; [|split; [|reflexivity]]; intros n Hn; cbn [In] in Hn;
    repeat (destruct Hn as [<-|Hn]; [reflexivity|]); destruct Hn.
Qed.
Lemma poisson_acc_accepted pyc a : a "estimation_score" = PStr "acc" -> a "estimation_target" = PNone ->
  exists o, construct pyc UoI_Poisson a = Ok o /\ getattr o "estimation_score" = Ok (PStr "acc").
Proof.
  intros H1 H2. cbn [construct]. unfold poisson_init, glm_init, check_score.
  fold poisson_names.
  change (call (kw poisson_names a) glm_defaults "estimation_score") with (a "estimation_score").
  change (call (kw poisson_names a) glm_defaults "estimation_target") with (a "estimation_target").
  rewrite H1, H2. eexists. split; [reflexivity|]. reflexivity.
Qed.
Lemma lasso_solver_cases pyc a o s : construct pyc UoI_Lasso a = Ok o -> a "solver" = PStr s ->
  (s = "cd" /\ exists m, o_sel o = Some m /\ m_class m = "Lasso") \/
  (s = "pyc" /\ pyc = true /\ a "fit_intercept" <> PBool false /\ exists m, o_sel o = Some m /\ m_class m = "PycLasso") \/
  (s <> "cd" /\ s <> "pyc" /\ o_sel o = None).
Proof.
  intros H Hs. cbn [construct] in H. apply lasso_inv in H as (r & m & _ & E & ->). cbn [o_sel].
  unfold lasso_sel in E. rewrite Hs in E. destruct (String.eqb_spec s "cd") as [->|N1].
  { left. injection E as <-. split; [reflexivity|]. eexists; split; reflexivity. }
  right. destruct (String.eqb_spec s "pyc") as [->|N2].
  - left. destruct pyc; [|discriminate]. cbn [negb] in E. split; [reflexivity|]. split; [reflexivity|].
    split; [intro F; rewrite F in E; discriminate|].
    destruct (a "fit_intercept") as [|[|]| | | | | | | |]; try discriminate; injection E as <-; eexists; split; reflexivity.
  - right. injection E as <-. repeat split; assumption.
Qed.
Lemma lasso_solver_errors pyc a : a "solver" = PStr "pyc" -> a "estimation_score" = PStr "r2" -> a "estimation_target" = PNone ->
  (pyc = false -> construct pyc UoI_Lasso a = Raise OtherError) /\
  (pyc = true -> a "fit_intercept" = PBool false -> construct pyc UoI_Lasso a = Raise ValueError).
Proof.
  intros H1 H2 H3. cbn [construct]. unfold lasso_init, regressor_init, check_score, lasso_sel.
  change (call (kw _ a) base_defaults "estimation_score") with (a "estimation_score").
  change (call (kw _ a) base_defaults "estimation_target") with (a "estimation_target").
  rewrite H1, H2, H3. split.
  - now intros ->.
  - intros -> F. now rewrite F.
Qed.
