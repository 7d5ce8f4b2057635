(** The Poisson regressor: C34 (linear and Poisson intercepts), C37 (Poisson loss),
    C39-C43, C78, C79. *)
From Coq Require Import ZArith List Bool Arith Reals Lra Lia.
From Verif Require Import Prelude F64 Num Model_Rescale Model_Refit Spec_Rescale Model_Poisson Spec_Poisson
  Proofs_Rescale Proofs_Poisson Proofs_PoissonOpt Proofs_PoissonFit Proofs_PoissonMore.
Import ListNotations.
Local Open Scope R_scope.

(** A data set with 3 samples and 2 features, used by the examples. *)
Example data_ex : matrix 3 2 [[1; 1]; [2; 0]; [0; 1]] /\ length [1; 6; 3] = 3%nat.
Proof. exact (conj lost_matrix eq_refl). Qed.

(** C34, linear regressors: residuals sum to zero and the squared error is minimal. *)
Theorem C34_linear_residuals : forall n p X y coef,
  matrix n p X -> (0 < n)%nat -> length y = n -> length coef = p ->
  Sum n (fun i => entry y i - eta p X coef (linear_intercept (N := Rnum) true p X y coef) i) = 0.
Proof. exact linear_residual. Qed.
Print Assumptions C34_linear_residuals.

Theorem C34_linear_best : forall n p X y coef b,
  matrix n p X -> (0 < n)%nat -> length y = n -> length coef = p ->
  Sum n (fun i => Rsqr (entry y i - eta p X coef (linear_intercept (N := Rnum) true p X y coef) i))
  <= Sum n (fun i => Rsqr (entry y i - eta p X coef b i)).
Proof. exact linear_best. Qed.
Print Assumptions C34_linear_best.

Example C34_linear_ex :
  linear_intercept (N := Rnum) true 2 [[1; 1]; [2; 0]; [0; 1]] [1; 6; 3] [1; 0] = 7 / 3.
Proof.
  unfold linear_intercept, nmean, nsum, columns, column, ndot, nofnat. cbn. lra.
Qed.

(** C34, Poisson: predicted and observed totals agree and the loss is minimal. *)
Theorem C34_poisson_totals : forall n p X y coef,
  matrix n p X -> (0 < n)%nat -> length y = n -> length coef = p -> 0 < Sum n (fun i => entry y i) ->
  Sum n (fun i => exp (eta p X coef (uoi_poisson_intercept (N := Rnum) true X y coef) i)) = Sum n (fun i => entry y i).
Proof. exact poisson_intercept_total. Qed.
Print Assumptions C34_poisson_totals.

Theorem C34_poisson_best : forall n p X y coef b,
  matrix n p X -> (0 < n)%nat -> length y = n -> length coef = p -> 0 < Sum n (fun i => entry y i) ->
  let b0 := uoi_poisson_intercept (N := Rnum) true X y coef in
  Sum n (fun i => exp (eta p X coef b0 i) - entry y i * eta p X coef b0 i)
  <= Sum n (fun i => exp (eta p X coef b i) - entry y i * eta p X coef b i).
Proof. exact poisson_intercept_best. Qed.
Print Assumptions C34_poisson_best.

Example C34_poisson_ex : 0 < Sum 3 (fun i => entry [1; 6; 3] i).
Proof. unfold Sum, entry. cbn. lra. Qed.

(** C37, Poisson: the loss is the documented one ([c] alone: no intercept), and each
    entry of the gradient is the derivative of the loss. *)
Theorem C37_poisson_loss : forall n p X y l2 sw c b,
  matrix n p X -> (0 < n)%nat -> length y = n -> match sw with Some s => length s = n | None => True end ->
  length c = p ->
  fst (poisson_loss_and_grad (N := Rnum) p X y l2 sw c) = poisson_loss n p X y (sample_weights n sw) l2 c 0 /\
  fst (poisson_loss_and_grad (N := Rnum) p X y l2 sw (c ++ [b])) = poisson_loss n p X y (sample_weights n sw) l2 c b.
Proof. exact poisson_loss_parts. Qed.
Print Assumptions C37_poisson_loss.

Theorem C37_poisson_gradient : forall n p X y l2 sw,
  matrix n p X -> (0 < n)%nat -> length y = n -> match sw with Some s => length s = n | None => True end ->
  forall w j, length w = p \/ length w = S p -> (j < length w)%nat ->
  derivable_pt_lim (fun t => fst (poisson_loss_and_grad (N := Rnum) p X y l2 sw (upd w j t))) (entry w j)
    (entry (snd (poisson_loss_and_grad (N := Rnum) p X y l2 sw w)) j).
Proof. exact poisson_gradient. Qed.
Print Assumptions C37_poisson_gradient.

Example C37_poisson_ex :
  entry (snd (poisson_loss_and_grad (N := Rnum) 2 [[1; 1]; [2; 0]; [0; 1]] [1; 6; 3] 0 None [0; 0; 0])) 0 = - 10 / 3.
Proof.
  refine (eq_trans (grad_coef 3 2 _ [1; 6; 3] 0 None lost_matrix ltac:(lia) eq_refl I [0; 0; 0] 0 (or_intror eq_refl) ltac:(lia)) _).
  unfold Sum, eta, Sum, mat, entry, icpt, weights. cbn [seq map fold_right nth firstn repeat Nat.ltb Nat.leb length last INR].
  rewrite !Rmult_0_r, !Rplus_0_r, exp_0. unfold lostX. cbn [nth]. field.
Qed.

(** C39: the working response and weights, the sweep, one coordinate, soft threshold. *)
Theorem C39_working : forall n p X y coef b i,
  matrix n p X -> length y = n -> length coef = p -> (i < n)%nat ->
  let mu := exp (eta p X coef b i) in
  entry (fst (adjusted_response (N := Rnum) X y coef b)) i = mu /\
  entry (snd (adjusted_response (N := Rnum) X y coef b)) i = eta p X coef b i + (entry y i - mu) / mu.
Proof. exact entry_working. Qed.
Print Assumptions C39_working.

Theorem C39_sweep_descends : forall n p X w z (c : config Rnum) coef b active,
  matrix n p X -> (0 < n)%nat -> length w = n -> length z = n -> (forall i, (i < n)%nat -> 0 <= entry w i) ->
  0 <= alpha c -> 0 <= l1_ratio c <= 1 -> length coef = p ->
  (forall j, In j active -> (j < p)%nat /\
     (0 < alpha c * (1 - l1_ratio c) \/ 0 < Sum n (fun i => entry w i * (mat X i j * mat X i j)))) ->
  (if fit_intercept c then 0 < Sum n (fun i => entry w i) else b = 0) ->
  let r := cd_sweep (N := Rnum) c X w z active coef in
  quad n p X w z (alpha c) (l1_ratio c) (fst r) (snd r) <= quad n p X w z (alpha c) (l1_ratio c) coef b.
Proof. exact sweep_descends. Qed.
Print Assumptions C39_sweep_descends.

Theorem C39_coordinate : forall n p X w z (c : config Rnum) coef b j v,
  matrix n p X -> (0 < n)%nat -> length w = n -> length z = n -> (forall i, (i < n)%nat -> 0 <= entry w i) ->
  0 <= alpha c -> 0 <= l1_ratio c <= 1 -> length coef = p -> (j < p)%nat ->
  0 < alpha c * (1 - l1_ratio c) \/ 0 < Sum n (fun i => entry w i * (mat X i j * mat X i j)) ->
  exists u, cd_update (N := Rnum) c X w z b coef j = upd coef j u /\
  quad n p X w z (alpha c) (l1_ratio c) (upd coef j u) b <= quad n p X w z (alpha c) (l1_ratio c) (upd coef j v) b.
Proof. exact one_coordinate. Qed.
Print Assumptions C39_coordinate.

Theorem C39_soft_threshold : forall x t u, 0 <= t ->
  let s := soft_threshold (N := Rnum) x t in
  (s - x) * (s - x) / 2 + t * Rabs s <= (u - x) * (u - x) / 2 + t * Rabs u /\
  ((u - x) * (u - x) / 2 + t * Rabs u <= (s - x) * (s - x) / 2 + t * Rabs s -> u = s).
Proof. exact (fun x t u Ht => conj (soft_prox x t u Ht) (soft_unique x t u Ht)). Qed.
Print Assumptions C39_soft_threshold.

Example C39_ex : soft_threshold (N := Rnum) (-3) 1 = -2 /\
  (forall j, In j [0; 1]%nat -> (j < 2)%nat /\
     (0 < 0 * (1 - 1) \/ 0 < Sum 3 (fun i => entry [1; 1; 1] i * (mat [[1; 1]; [2; 0]; [0; 1]] i j * mat [[1; 1]; [2; 0]; [0; 1]] i j)))).
Proof.
  split.
  - destruct (soft_cases (-3) 1 ltac:(lra)) as [[H E]|[[H E]|[H E]]]; unfold soft in E; lra.
  - intros j [<-|[<-|[]]]; (split; [lia|right; unfold Sum, mat, entry; cbn; lra]).
Qed.

(** C78: a sweep over all features that changes nothing has found a global minimum of
    the documented objective. *)
Theorem C78_fixed_point_optimal : forall n p X y sw (c : config Rnum) coef b c' b',
  matrix n p X -> (0 < n)%nat -> length y = n -> length sw = n -> (forall i, (i < n)%nat -> 0 < entry sw i) ->
  0 <= alpha c -> 0 <= l1_ratio c <= 1 -> length coef = p ->
  (alpha c * (1 - l1_ratio c) > 0 \/ forall j, (j < p)%nat -> exists i, (i < n)%nat /\ mat X i j <> 0) ->
  cd_iteration (N := Rnum) c X y sw (seq 0 p) (coef, b) = (coef, b) ->
  (fit_intercept c = false -> b' = b) ->
  objective n p X y sw (alpha c) (l1_ratio c) coef b <= objective n p X y sw (alpha c) (l1_ratio c) c' b'.
Proof. exact fixed_optimal. Qed.
Print Assumptions C78_fixed_point_optimal.

(** A fixed point: y = exp(0) everywhere and zero coefficients. *)
Example C78_ex : cd_iteration (N := Rnum) (mkConfig (N := Rnum) 1 1 false false 1 0 false) [[1]; [2]] [1; 1] [1; 1] (seq 0 1) ([0], 0) = ([0], 0).
Proof.
  unfold cd_iteration, cd_sweep, cd_update, adjusted_response, matvec, ndot, nsum, soft_threshold, column, one_off, nzero, none, nsquare, nsign.
  cbn [fst snd seq fold_left map map2 fold_right length Nat.eqb lset nth fit_intercept alpha l1_ratio].
  cbn [nadd nsub nmul ndiv nopp nabs nofZ nltb neqb nexp Rnum carrier].
  replace (0 + (1 * 0 + 0)) with 0 by ring. replace (0 + (2 * 0 + 0)) with 0 by ring. rewrite exp_0.
  match goal with |- context[Rabs ?a] => replace a with 0 by (cbn; field) end.
  rewrite Rabs_R0. unfold Rltb. destruct (Rlt_dec (1 * 1) 0); [lra|]. rewrite Rmult_0_r. unfold Rdiv. rewrite Rmult_0_l. reflexivity.
Qed.

(** C79: with an optimizer that returns minimizers, the 'lbfgs' solver minimizes the
    same objective. *)
Theorem C79_lbfgs_target : forall n p X y sw (c : config Rnum) opt o o' c' b',
  matrix n p X -> (0 < n)%nat -> length y = n -> match sw with Some s => length s = n | None => True end ->
  match coef_ o with Some v => length v = p | None => True end ->
  standardize c = false -> constant_response (N := Rnum) y = false ->
  (forall f x0 l1 e w, opt f x0 l1 e = Ok w -> l1_minimizer (fun v => fst (f v)) l1 e (length x0) w) ->
  poisson_fit (N := Rnum) c Lbfgs opt p X y sw o = (o', Ok tt) ->
  length c' = p -> (fit_intercept c = false -> b' = 0) ->
  exists v, coef_ o' = Some v /\ length v = p /\
    objective n p X y (sample_weights n sw) (alpha c) (l1_ratio c) v
      (if fit_intercept c then match intercept_ o' with Some b => b | None => 0 end else 0)
    <= objective n p X y (sample_weights n sw) (alpha c) (l1_ratio c) c' b'.
Proof. exact lbfgs_optimal. Qed.
Print Assumptions C79_lbfgs_target.

Example C79_ex : constant_response (N := Rnum) [1; 6; 3] = false.
Proof. unfold constant_response. cbn. unfold Reqb. destruct (Req_EM_T 1 6); [lra|reflexivity]. Qed.

(** C40: first fit, and any history of warm-started fits and resets. *)
Theorem C40_warm_fit_selects_nothing : forall (c : config Rnum) opt p X y sw o,
  warm_start c = true ->
  match coef_ o with Some v => v = repeat 0 p | None => True end ->
  exists b, poisson_fit (N := Rnum) c Cd opt p X y sw o = (mkPoisson (N := Rnum) (Some (repeat 0 p)) b, Ok tt).
Proof. exact warm_fit_R. Qed.
Print Assumptions C40_warm_fit_selects_nothing.

Theorem C40_history : forall opt p (h : list (call (N := Rnum))),
  Forall (fun k => match k with CallFit c _ _ _ => warm_start c = true | CallReset => True end) h ->
  match coef_ (calls (N := Rnum) Cd opt p h fresh_poisson) with Some v => v = repeat 0 p | None => True end.
Proof. exact warm_history_R. Qed.
Print Assumptions C40_history.

(** The same in binary64, whatever exp and log are, as long as the scales computed by
    StandardScaler are finite and non-zero. *)
Theorem C40_history_binary64 : forall exp64 ln64 opt p (h : list (call (N := Fnum exp64 ln64))),
  Forall (fun k => match k with
    | CallFit c X _ _ => warm_start c = true /\
        (standardize c = true -> Forall proper (scale_ (fit_scaler (N := Fnum exp64 ln64) (columns p X))))
    | CallReset => True end) h ->
  match coef_ (calls Cd opt p h fresh_poisson) with
  | Some v => length v = p /\ Forall (fun x => nonzero64 x = false) v
  | None => True
  end.
Proof. exact warm_history_F. Qed.
Print Assumptions C40_history_binary64.

(** A history with a strongly predictive feature, in binary64. *)
Definition cfg_ex (m : nat) : config (Fnum (fun x => x) (fun x => x)) :=
  mkConfig (N := Fnum (fun x => x) (fun x => x)) fzero fone true true m fzero true.
Example C40_ex :
  Forall proper (scale_ (fit_scaler (N := Fnum (fun x => x) (fun x => x)) (columns (N := Fnum (fun x => x) (fun x => x)) 1 [[fzero]; [ftwo]]))) /\
  coef_ (calls (N := Fnum (fun x => x) (fun x => x)) Cd (fun _ _ _ _ => Raise ValueError) 1
     [CallFit (cfg_ex 3) [[fzero]; [ftwo]] [fone; ftwo] None; CallReset; CallFit (cfg_ex 3) [[fzero]; [ftwo]] [ftwo; fone] None] fresh_poisson)
  = Some [fzero].
Proof. split; [|vm_compute; reflexivity]. vm_compute. repeat constructor. Qed.

(** C41: if stopping after [S m] sweeps gives coefficient 0, so does any larger max_iter. *)
Theorem C41_zero_stays : forall (c : config Rnum) opt p X y sw o m k j v1 b1,
  match coef_ o with Some v => length v = p | None => True end -> (j < p)%nat ->
  poisson_fit (N := Rnum) (with_iter c (S m)) Cd opt p X y sw o = (mkPoisson (N := Rnum) (Some v1) b1, Ok tt) ->
  entry v1 j = 0 ->
  exists v2 b2, poisson_fit (N := Rnum) (with_iter c (S m + k)) Cd opt p X y sw o = (mkPoisson (N := Rnum) (Some v2) b2, Ok tt) /\
    entry v2 j = 0.
Proof. exact zero_final_R. Qed.
Print Assumptions C41_zero_stays.

Theorem C41_zero_stays_binary64 : forall exp64 ln64 (c : config (Fnum exp64 ln64)) opt p X y sw o m k j v1 b1,
  standardize c = false ->
  match coef_ o with Some v => length v = p | None => True end -> (j < p)%nat ->
  poisson_fit (with_iter c (S m)) Cd opt p X y sw o = (mkPoisson (Some v1) b1, Ok tt) ->
  nonzero64 (nth j v1 fzero) = false ->
  exists v2 b2, poisson_fit (with_iter c (S m + k)) Cd opt p X y sw o = (mkPoisson (Some v2) b2, Ok tt) /\
    nonzero64 (nth j v2 fzero) = false.
Proof. exact zero_final_F. Qed.
Print Assumptions C41_zero_stays_binary64.

(** Data for which the second coefficient is lost for every number of sweeps and
    tolerance, although every point with second coefficient 0 can be improved. *)
Theorem C41_loses_optimum : forall tol m opt, (0 < m)%nat ->
  (exists b1 b, poisson_fit (N := Rnum) (mkConfig (N := Rnum) 0 1 false false m tol false) Cd opt 2
     [[1; 1]; [2; 0]; [0; 1]] [1; 6; 3] None fresh_poisson = (mkPoisson (N := Rnum) (Some [b1; 0]) b, Ok tt)) /\
  (forall b1, exists c1 c2,
     objective 3 2 [[1; 1]; [2; 0]; [0; 1]] [1; 6; 3] [1; 1; 1] 0 1 [c1; c2] 0
     < objective 3 2 [[1; 1]; [2; 0]; [0; 1]] [1; 6; 3] [1; 1; 1] 0 1 [b1; 0] 0).
Proof. exact (fun tol m opt Hm => conj (lost_forever tol m opt Hm) lost_not_optimal). Qed.
Print Assumptions C41_loses_optimum.

Example C41_ex : poisson_fit (N := Rnum) (mkConfig (N := Rnum) 0 1 false false 1 0 false) Cd (fun _ _ _ _ => Raise ValueError) 2
  [[1; 1]; [2; 0]; [0; 1]] [1; 6; 3] None fresh_poisson = (mkPoisson (N := Rnum) (Some [2; 0]) None, Ok tt).
Proof. exact (lost_first 0 _). Qed.

(** C42: fits without an intercept on a new object. *)
Theorem C42_never_fitted : forall (N : NumOps) sv opt p (h : list (call (N := N))) floor X,
  Forall (fun k => match k with
    | CallFit c _ y _ => fit_intercept c = false /\ constant_response y = false | CallReset => False end) h ->
  predict_mean (calls sv opt p h fresh_poisson) X = Raise NotFittedError /\
  predict floor (calls sv opt p h fresh_poisson) X = Raise NotFittedError.
Proof. exact (fun N => never_fitted). Qed.
Print Assumptions C42_never_fitted.

(** After a constant response, the intercept of that response is used with the
    coefficients of later fits. *)
Theorem C42_stale_intercept : forall (N : NumOps) sv opt p h1 c X y sw h2 (v : list N) Xn,
  Forall (fun k => match k with
    | CallFit c _ y _ => fit_intercept c = false /\ constant_response y = false | CallReset => False end) h2 ->
  constant_response y = true ->
  let o := calls sv opt p (h1 ++ CallFit c X y sw :: h2) fresh_poisson in
  coef_ o = Some v ->
  predict_mean o Xn = Ok (map (fun m => nexp (nadd (log_mean y) m)) (matvec Xn v)).
Proof. exact (fun N => stale_prediction'). Qed.
Print Assumptions C42_stale_intercept.

(** UoI_Poisson(fit_intercept=False): the estimation step raises. *)
Theorem C42_estimation_raises : forall (N : NumOps) c sv opt tasks,
  fit_intercept c = false ->
  (forall p (X : list (list N)) y X', In (Some (p, X, y, X')) tasks -> constant_response y = false) ->
  (exists t, In (Some t) tasks) ->
  (exists e, estimation c sv opt tasks fresh_poisson = Raise e) /\
  (sv = Cd -> warm_start c = false -> estimation c sv opt tasks fresh_poisson = Raise NotFittedError).
Proof. exact (fun N => estimation_fails). Qed.
Print Assumptions C42_estimation_raises.

Example C42_ex :
  let c := mkConfig (N := Fnum (fun x => x) (fun x => x)) fzero fone false false 1 fzero false in
  estimation (N := Fnum (fun x => x) (fun x => x)) c Cd (fun _ _ _ _ => Raise ValueError)
    [None; Some (1%nat, [[fone]; [ftwo]], [fone; ftwo], [[fone]])] fresh_poisson = Raise NotFittedError /\
  constant_response (N := Fnum (fun x => x) (fun x => x)) [fone; ftwo] = false.
Proof. vm_compute. split; reflexivity. Qed.

(** C43: lambda_max, the null model at and below it, the grid and the list of pairs. *)
Theorem C43_lambda_max : forall n p X y,
  matrix n p X -> (0 < n)%nat -> (0 < p)%nat -> length y = n -> forall mix, exists m,
  let cov j := Sum n (fun i => mat X i j * (entry y i - average n y)) in
  (forall j, (j < p)%nat -> Rabs (cov j) <= m) /\ (exists j, (j < p)%nat /\ Rabs (cov j) = m) /\
  poisson_lambda_max (N := Rnum) p X y mix = m / (INR n * mix).
Proof. exact lambda_max_value. Qed.
Print Assumptions C43_lambda_max.

Theorem C43_null_optimal : forall n p X y,
  matrix n p X -> (0 < n)%nat -> (0 < p)%nat -> length y = n -> forall mix c' b',
  0 < mix <= 1 -> 0 < average n y -> 0 < poisson_lambda_max (N := Rnum) p X y mix ->
  forall lam, poisson_lambda_max (N := Rnum) p X y mix <= lam ->
  objective n p X y (repeat 1 n) lam mix (repeat 0 p) (ln (average n y))
  <= objective n p X y (repeat 1 n) lam mix c' b'.
Proof. exact null_optimal. Qed.
Print Assumptions C43_null_optimal.

Theorem C43_null_not_optimal : forall n p X y mix lam,
  matrix n p X -> (0 < n)%nat -> (0 < p)%nat -> length y = n ->
  0 < mix <= 1 -> 0 < average n y -> 0 <= lam < poisson_lambda_max (N := Rnum) p X y mix ->
  exists c', length c' = p /\
    objective n p X y (repeat 1 n) lam mix c' (ln (average n y))
    < objective n p X y (repeat 1 n) lam mix (repeat 0 p) (ln (average n y)).
Proof. exact null_not_optimal. Qed.
Print Assumptions C43_null_not_optimal.

Theorem C43_grid : forall p X y eps num mix,
  let l := poisson_lambda_max (N := Rnum) p X y mix in
  let g := poisson_grid (N := Rnum) p X y eps num mix in
  0 < l -> 0 < eps < 1 -> (1 < num)%nat ->
  length g = num /\ entry g 0 = l /\ entry g (num - 1) = eps * l /\
  (forall i, (i < num)%nat -> entry g i = l * Rpower eps (INR i / INR (num - 1))) /\
  (forall i j, (i < j < num)%nat -> entry g j < entry g i).
Proof. exact grid_facts. Qed.
Print Assumptions C43_grid.

Theorem C43_all_pairs : forall p X y eps num alphas,
  let ps := poisson_reg_params (N := Rnum) p X y eps num alphas in
  length ps = (length alphas * num)%nat /\
  forall a i, (a < length alphas)%nat -> (i < num)%nat ->
  nth_error ps (a * num + i)
  = Some (RegPair (entry (poisson_grid (N := Rnum) p X y eps num (entry alphas a)) i) (entry alphas a)).
Proof. exact all_pairs. Qed.
Print Assumptions C43_all_pairs.

Example C43_ex : poisson_lambda_max (N := Rnum) 1 [[0]; [1]] [1; 3] 1 = / 2 /\ average 2 [1; 3] = 2.
Proof.
  split.
  - unfold poisson_lambda_max, nmaxl, tmatvec, ndot, nsum, column, nmean, nofnat. cbn.
    match goal with |- Rabs ?a / _ = _ => replace a with 1 by (cbn; field) end. rewrite Rabs_R1. field.
  - unfold average, Sum, entry. cbn. field.
Qed.

(** C80: without warm_start a fit does not depend on earlier fits; solver names. *)
Theorem C80_fit_forgets : forall (N : NumOps) c sv opt p (X : list (list N)) y sw o1 o2,
  warm_start c = false ->
  let a := poisson_fit c sv opt p X y sw o1 in
  let b := poisson_fit c sv opt p X y sw o2 in
  snd a = snd b /\
  (snd a = Ok tt -> coef_ (fst a) = coef_ (fst b) /\ (fit_intercept c = true -> intercept_ (fst a) = intercept_ (fst b))).
Proof. exact (fun N => fit_forgets). Qed.
Print Assumptions C80_fit_forgets.

Theorem C80_other_solver : forall (N : NumOps) c opt p (X : list (list N)) y sw o,
  poisson_fit c OtherSolver opt p X y sw o
  = if constant_response y then (mkPoisson (Some (repeat nzero p)) (Some (log_mean y)), Ok tt) else (o, Raise ValueError).
Proof. exact (fun N => other_solver). Qed.
Print Assumptions C80_other_solver.

Example C80_ex : warm_start (mkConfig (N := Rnum) 1 1 true true 5 0 false) = false /\
  snd (poisson_fit (N := Fnum (fun x => x) (fun x => x)) (cfg_ex 3) OtherSolver (fun _ _ _ _ => Raise ValueError) 1
     [[fzero]; [ftwo]] [fone; ftwo] None fresh_poisson) = Raise ValueError.
Proof. split; [reflexivity|vm_compute; reflexivity]. Qed.

(** C81: a constant response is predicted exactly. *)
Theorem C81_constant_predicted : forall c sv opt p X a n sw o Xn, (0 < n)%nat -> 0 < a ->
  let r := poisson_fit (N := Rnum) c sv opt p X (repeat a n) sw o in
  snd r = Ok tt /\ coef_ (fst r) = Some (repeat 0 p) /\
  predict_mean (N := Rnum) (fst r) Xn = Ok (repeat a (length Xn)).
Proof. exact constant_fit_R. Qed.
Print Assumptions C81_constant_predicted.

Theorem C81_zero_counts : forall exp64 ln64 c sv opt p X n sw (o : poisson (Fnum exp64 ln64)) Xn, (0 < n)%nat ->
  Forall (Forall (fun v => is_finite64 v = true)) Xn -> exp64 fninf = fzero ->
  predict_mean (N := Fnum exp64 ln64) (fst (poisson_fit (N := Fnum exp64 ln64) c sv opt p X (repeat fzero n) sw o)) Xn = Ok (repeat fzero (length Xn)).
Proof. exact zero_prediction. Qed.
Print Assumptions C81_zero_counts.

Theorem C81_zero_counts_intercept : forall exp64 ln64 X n coef,
  uoi_poisson_intercept (N := Fnum exp64 ln64) true X (repeat fzero n) coef = fninf /\
  no_features_intercept (N := Fnum exp64 ln64) (repeat fzero n) = fninf.
Proof. exact zero_intercepts. Qed.
Print Assumptions C81_zero_counts_intercept.

Example C81_ex : predict_mean (fst (poisson_fit (N := Fnum (fun _ => fzero) (fun x => x))
    (mkConfig (N := Fnum (fun _ => fzero) (fun x => x)) fone fone true true 3 fone false) Lbfgs (fun _ _ _ _ => Raise ValueError) 1
    [[fone]; [ftwo]] [fzero; fzero] None fresh_poisson)) [[fone]; [ftwo]; [fone]] = Ok [fzero; fzero; fzero].
Proof. vm_compute. reflexivity. Qed.

(** C82: when coordinate descent stops.  [tr k] is the state after [k] sweeps, [act k]
    the features visited by the next sweep. *)
Theorem C82_stopping_rule : forall (c : config Rnum) X y sw p, (0 < p)%nat -> forall opt o,
  warm_start c = false -> standardize c = false -> constant_response (N := Rnum) y = false ->
  exists act tr k b,
    act 0%nat = seq 0 p /\ tr 0%nat = (repeat 0 p, 0) /\
    (forall k, tr (S k) = cd_iteration (N := Rnum) c X y sw (act k) (tr k)) /\
    (forall k, act (S k) = filter (fun j => negb (Reqb (entry (fst (tr (S k))) j) 0)) (seq 0 p)) /\
    poisson_fit (N := Rnum) c Cd opt p X y (Some sw) o = (mkPoisson (N := Rnum) (Some (fst (tr k))) b, Ok tt) /\
    (fit_intercept c = true -> b = Some (snd (tr k))) /\
    (k <= max_iter c)%nat /\ ((0 < max_iter c)%nat -> (0 < k)%nat) /\
    (forall i, (S i < k)%nat -> exists j, (j < p)%nat /\ tol c <= Rabs (entry (fst (tr (S i))) j - entry (fst (tr i)) j)) /\
    ((k < max_iter c)%nat -> forall j, (j < p)%nat -> Rabs (entry (fst (tr k)) j - entry (fst (tr (k - 1)%nat)) j) < tol c).
Proof. exact fit_trace. Qed.
Print Assumptions C82_stopping_rule.

Example C82_ex : constant_response (N := Rnum) [1; 6; 3] = false /\
  warm_start (mkConfig (N := Rnum) 1 1 true false 5 1 false) = false.
Proof. exact (conj C79_ex eq_refl). Qed.

(** C83: predict returns a mode of the Poisson distribution with the predicted mean. *)
Theorem C83_predict_mode : forall o X v,
  predict (N := Rnum) (fun x => IZR (Int_part x)) o X = Ok v ->
  exists mu, predict_mean (N := Rnum) o X = Ok mu /\ length v = length mu /\
  forall i, (i < length v)%nat -> exists m, entry v i = INR m /\
    forall k, exp (- entry mu i) * (entry mu i ^ k / INR (fact k)) <= exp (- entry mu i) * (entry mu i ^ m / INR (fact m)).
Proof. exact predict_mode. Qed.
Print Assumptions C83_predict_mode.

Example C83_ex : exists v, predict (N := Rnum) (fun x => IZR (Int_part x)) (mkPoisson (N := Rnum) (Some [1; 2]) (Some 1)) [[1; 1]; [2; 3]] = Ok v
  /\ length v = 2%nat.
Proof. eexists. split; reflexivity. Qed.

(** C84: fitting with standardize=True is fitting the standardized samples. *)
Theorem C84_standardized_fit : forall p X (c : config Rnum) sv opt y sw o Xn,
  warm_start c = false -> fit_intercept c = true ->
  (forall f x0 l e w, opt f x0 l e = Ok w -> length w = length x0) ->
  Forall (fun x => length x = p) Xn ->
  let on b := mkConfig (N := Rnum) (alpha c) (l1_ratio c) (fit_intercept c) b (max_iter c) (tol c) (warm_start c) in
  let T := transform (N := Rnum) (fit_scaler (N := Rnum) (columns (N := Rnum) p X)) true in
  let a := poisson_fit (N := Rnum) (on true) sv opt p X y sw o in
  let b := poisson_fit (N := Rnum) (on false) sv opt p (map T X) y sw o in
  snd a = snd b /\ (snd a = Ok tt -> predict_mean (N := Rnum) (fst a) Xn = predict_mean (N := Rnum) (fst b) (map T Xn)).
Proof. exact std_fit. Qed.
Print Assumptions C84_standardized_fit.

Example C84_ex : exists v d, 
  poisson_fit (N := Rnum) (mkConfig (N := Rnum) 1 1 true true 5 0 false) Lbfgs (fun _ x0 _ _ => Ok x0) 1 [[0]; [2]] [1; 3] None fresh_poisson
  = (mkPoisson (N := Rnum) (Some v) (Some d), Ok tt).
Proof.
  unfold poisson_fit. replace (constant_response (N := Rnum) [1; 3]) with false; [do 2 eexists; reflexivity|].
  unfold constant_response. cbn. unfold Reqb. destruct (Req_EM_T 1 3); [lra|reflexivity].
Qed.
