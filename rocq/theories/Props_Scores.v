(** Scores and their validation: C28, C29, C30. *)
From Coq Require Import ZArith List Bool String Reals Lra Floats.SpecFloat.
From Verif Require Import Prelude F64 Num Model_Intersection Model_Mpi Model_Fit Spec_Mpi Spec_Fit
  Model_Scores Spec_Scores Proofs_FitFind Proofs_Scores.
Import ListNotations.

(** C28.  In exact arithmetic. *)
Theorem C28_bic_penalizes : forall (ll : R) k k' n, (1 < n)%Z -> (k < k')%Z ->
  (BIC (N := Rnum) ll k n < BIC (N := Rnum) ll k' n)%R.
Proof. exact bic_features. Qed.
Print Assumptions C28_bic_penalizes.

Theorem C28_aic_penalizes : forall (ll : R) k k', (k < k')%Z ->
  (AIC (N := Rnum) ll k < AIC (N := Rnum) ll k')%R.
Proof. exact aic_features. Qed.
Print Assumptions C28_aic_penalizes.

Theorem C28_aicc_aic : forall (ll : R) k n, (0 <= k)%Z ->
  (AIC (N := Rnum) ll k <= AICc (N := Rnum) ll k n)%R /\
  ((n <= k + 1)%Z -> AICc (N := Rnum) ll k n = AIC (N := Rnum) ll k) /\
  ((k + 1 < n)%Z -> (0 < k)%Z -> (AIC (N := Rnum) ll k < AICc (N := Rnum) ll k n)%R).
Proof. exact aicc_aic. Qed.
Print Assumptions C28_aicc_aic.

Theorem C28_aicc_penalizes : forall (ll : R) k n, (0 <= k)%Z -> (k + 2 < n)%Z ->
  (AICc (N := Rnum) ll k n < AICc (N := Rnum) ll (k + 1) n)%R.
Proof. exact aicc_features. Qed.
Print Assumptions C28_aicc_penalizes.

(** With one more feature than that, the correction disappears and AICc drops. *)
Theorem C28_aicc_drops : forall (ll : R) k n, (1 <= k)%Z -> n = (k + 2)%Z ->
  (AICc (N := Rnum) ll (k + 1) n < AICc (N := Rnum) ll k n)%R.
Proof. exact aicc_drop. Qed.
Print Assumptions C28_aicc_drops.

Theorem C28_likelihood : forall (ll ll' : R) k n, (ll < ll')%R ->
  (BIC (N := Rnum) ll' k n < BIC (N := Rnum) ll k n)%R /\
  (AIC (N := Rnum) ll' k < AIC (N := Rnum) ll k)%R /\
  (AICc (N := Rnum) ll' k n < AICc (N := Rnum) ll k n)%R.
Proof. exact criteria_ll. Qed.
Print Assumptions C28_likelihood.

(** Five samples: 3 features cost 30, 4 features cost 8. *)
Example C28_ex : AICc (N := Rnum) 0%R 3 5 = 30%R /\ AICc (N := Rnum) 0%R 4 5 = 8%R.
Proof. unfold AICc, AIC. cbn. lra. Qed.

(** C29.  The chosen support has the lowest criterion among all candidates. *)
Theorem C29_linear_lowest : forall S E Rng exp64 ln64 env d (sol : nat -> solver S E)
    (draw : bool -> Rng -> result (split * Rng)) post metric target r2 y
    (pred : E -> list bool -> list nat -> list f64) n R s0 F,
  In metric ["AIC"; "AICc"; "BIC"]%string ->
  (forall i e mask sp, score (sol i) e mask sp
     = linear_score (N := Fnum exp64 ln64) r2 metric target y (pred e mask) mask sp) ->
  (forall i e sp mask, existsb (fun b => b) mask = false -> null_score (sol i) e sp
     = linear_score (N := Fnum exp64 ln64) r2 metric target y (pred e mask) (repeat false (n_feat d)) sp) ->
  1 <= n_boots_sel d -> (forall i, shapes_ok d (sol i)) ->
  2 <= List.length (thresholds d) * n_reg d -> 2 <= n_coef d ->
  returned env d sol draw post n false R s0 F ->
  exists sel p rows sps r1 sps2 r2,
    f_sel F = Some sel /\ s_supports sel = Arr2 p rows /\
    drawn draw true (R 0) sps r1 /\ List.length sps = n_boots_sel d /\ drawn draw false r1 sps2 r2 /\
    forall b, b < n_boots_est d ->
    (forall j, j < List.length rows -> is_nan64 (at2 (s_scores sel) b j) = false) ->
    exists C : nat -> f64,
      (forall j, j < List.length rows -> exists i, i < n /\
         estimated_criterion (N := Fnum exp64 ln64) (sol i) (linear_ll (N := Fnum exp64 ln64) y pred)
           (fun _ => 0%Z) metric target (nth j rows []) (nth b sps2 ([], [])) (C j)) /\
      index_at (s_rp_max_idx sel) b < List.length rows /\
      forall j, j < List.length rows -> fleb (C (index_at (s_rp_max_idx sel) b)) (C j) = true.
Proof.
  intros S E Rng exp64 ln64 env d sol draw post metric target r2 y pred n R s0 F H1 H2 H3.
  exact (linear_ranking exp64 ln64 env d sol draw post metric target H1 r2 y pred H2 H3 n R s0 F).
Qed.
Print Assumptions C29_linear_lowest.

Theorem C29_logistic_lowest : forall S E Rng exp64 ln64 env d (sol : nat -> solver S E)
    (draw : bool -> Rng -> result (split * Rng)) post metric target
    (acc log_loss : E -> list bool -> list nat -> result (Fnum exp64 ln64)) n R s0 F,
  In metric ["AIC"; "AICc"; "BIC"]%string ->
  (forall i e mask sp, score (sol i) e mask sp
     = glm_score (N := Fnum exp64 ln64) (acc e mask) (log_loss e mask) metric target mask sp) ->
  (forall i e sp mask, existsb (fun b => b) mask = false -> null_score (sol i) e sp
     = glm_score (N := Fnum exp64 ln64) (acc e mask) (log_loss e mask) metric target
         (repeat false (n_feat d)) sp) ->
  1 <= n_boots_sel d -> (forall i, shapes_ok d (sol i)) ->
  2 <= List.length (thresholds d) * n_reg d -> 2 <= n_coef d ->
  returned env d sol draw post n false R s0 F ->
  exists sel p rows sps r1 sps2 r2,
    f_sel F = Some sel /\ s_supports sel = Arr2 p rows /\
    drawn draw true (R 0) sps r1 /\ List.length sps = n_boots_sel d /\ drawn draw false r1 sps2 r2 /\
    forall b, b < n_boots_est d ->
    (forall j, j < List.length rows -> is_nan64 (at2 (s_scores sel) b j) = false) ->
    exists C : nat -> f64,
      (forall j, j < List.length rows -> exists i, i < n /\
         estimated_criterion (N := Fnum exp64 ln64) (sol i) (logistic_ll exp64 ln64 log_loss)
           (fun _ => 0%Z) metric target (nth j rows []) (nth b sps2 ([], [])) (C j)) /\
      index_at (s_rp_max_idx sel) b < List.length rows /\
      forall j, j < List.length rows -> fleb (C (index_at (s_rp_max_idx sel) b)) (C j) = true.
Proof.
  intros S E Rng exp64 ln64 env d sol draw post metric target acc ll n R s0 F H1 H2 H3.
  exact (logistic_ranking exp64 ln64 env d sol draw post metric target H1 acc ll H2 H3 n R s0 F).
Qed.
Print Assumptions C29_logistic_lowest.

Theorem C29_poisson_lowest : forall S E Rng exp64 ln64 env d (sol : nat -> solver S E)
    (draw : bool -> Rng -> result (split * Rng)) post metric target y
    (pred : E -> list bool -> list nat -> result (list (Fnum exp64 ln64)))
    (icpt : E -> Fnum exp64 ln64) n R s0 F,
  In metric ["AIC"; "AICc"; "BIC"]%string ->
  (forall i e mask sp, score (sol i) e mask sp
     = poisson_score (N := Fnum exp64 ln64) metric target y (pred e mask) (icpt e) mask sp) ->
  (forall i e sp mask, existsb (fun b => b) mask = false -> null_score (sol i) e sp
     = poisson_score (N := Fnum exp64 ln64) metric target y (pred e mask) (icpt e)
         (repeat false (n_feat d)) sp) ->
  1 <= n_boots_sel d -> (forall i, shapes_ok d (sol i)) ->
  2 <= List.length (thresholds d) * n_reg d -> 2 <= n_coef d ->
  returned env d sol draw post n false R s0 F ->
  exists sel p rows sps r1 sps2 r2,
    f_sel F = Some sel /\ s_supports sel = Arr2 p rows /\
    drawn draw true (R 0) sps r1 /\ List.length sps = n_boots_sel d /\ drawn draw false r1 sps2 r2 /\
    forall b, b < n_boots_est d ->
    (forall j, j < List.length rows -> is_nan64 (at2 (s_scores sel) b j) = false) ->
    exists C : nat -> f64,
      (forall j, j < List.length rows -> exists i, i < n /\
         estimated_criterion (N := Fnum exp64 ln64) (sol i) (poisson_ll exp64 ln64 y pred)
           (icpt_params icpt) metric target (nth j rows []) (nth b sps2 ([], [])) (C j)) /\
      index_at (s_rp_max_idx sel) b < List.length rows /\
      forall j, j < List.length rows -> fleb (C (index_at (s_rp_max_idx sel) b)) (C j) = true.
Proof.
  intros S E Rng exp64 ln64 env d sol draw post metric target y pred icpt n R s0 F H1 H2 H3.
  exact (poisson_ranking exp64 ln64 env d sol draw post metric target H1 y pred icpt H2 H3 n R s0 F).
Qed.
Print Assumptions C29_poisson_lowest.

(** Scored by BIC on the training rows: one feature is best in the first bootstrap,
    two features in the second. *)
Example C29_ex : exists sel,
  returned ex_np ex_dims (fun _ => bic_solver) ex_draw ex_post 1 false (fun _ => 0) (fun _ => tt) bic_fitted /\
  f_sel bic_fitted = Some sel /\ s_supports sel = Arr2 2 [[true; false]; [true; true]] /\
  (forall b j, b < 2 -> j < 2 -> is_nan64 (at2 (s_scores sel) b j) = false) /\
  map (index_at (s_rp_max_idx sel)) [0; 1] = [0; 1].
Proof.
  eexists. split.
  - apply (serial_returned ex_np ex_dims (fun _ => bic_solver) ex_draw ex_post (fun _ => 0) (fun _ => tt)).
    exact bic_serial.
  - split; [vm_compute; reflexivity|]. split; [vm_compute; reflexivity|].
    split; [|vm_compute; reflexivity].
    intros [|[|b]] [|[|j]] Hb Hj; try (exfalso; Lia.lia); vm_compute; reflexivity.
Qed.

(** Validation of estimation_score and estimation_target. *)
Theorem C29_linear_arguments : forall metric target,
  (init_linear metric target = Raise ValueError <->
     ~ In metric ["r2"; "AIC"; "AICc"; "BIC"]%string \/
     exists t, target = Some t /\ t <> "train"%string /\ t <> "test"%string) /\
  (In metric ["r2"; "AIC"; "AICc"; "BIC"]%string ->
     init_linear metric (Some "train"%string) = Ok (metric, 0) /\
     init_linear metric (Some "test"%string) = Ok (metric, 1) /\
     init_linear metric None = Ok (metric, linear_default metric) /\
     linear_default metric = if string_dec metric "r2" then 1 else 0).
Proof. exact linear_arguments. Qed.
Print Assumptions C29_linear_arguments.

Theorem C29_glm_arguments : forall metric target,
  (init_glm metric target = Raise ValueError <->
     ~ In metric ["log"; "BIC"; "AIC"; "AICc"; "acc"]%string \/
     exists t, target = Some t /\ t <> "train"%string /\ t <> "test"%string) /\
  (In metric ["log"; "BIC"; "AIC"; "AICc"; "acc"]%string ->
     init_glm metric (Some "train"%string) = Ok (metric, 0) /\
     init_glm metric (Some "test"%string) = Ok (metric, 1) /\
     init_glm metric None = Ok (metric, glm_default metric) /\
     glm_default metric =
       if string_dec metric "log" then 1 else if string_dec metric "acc" then 1 else 0).
Proof. exact glm_arguments. Qed.
Print Assumptions C29_glm_arguments.

Example C29_arguments_ex :
  init_linear "BIC" None = Ok ("BIC"%string, 0) /\ init_glm "acc" None = Ok ("acc"%string, 1) /\
  init_linear "acc" None = Raise ValueError /\ init_glm "log" (Some "all"%string) = Raise ValueError.
Proof. repeat split. Qed.

(** UoI_Poisson accepts 'acc' (above) but no model is ever scored with it. *)
Theorem C29_poisson_acc_never_scores : forall (N : NumOps) target (y : list N) pred ic support sp v,
  poisson_score "acc" target y pred ic support sp <> Ok v.
Proof. intro N. exact poisson_acc. Qed.
Print Assumptions C29_poisson_acc_never_scores.

(** C30.  In exact arithmetic the log-likelihood of positive predictions is at most
    that of the saturated model, and for positive counts y_pred = y_true is the
    only maximizer. *)
Theorem C30_saturated : forall y p : list R, List.length y = List.length p -> y <> [] ->
  Forall (fun v => (0 <= v)%R) y -> Forall (fun v => (0 < v)%R) p ->
  (ll_poisson (N := Rnum) y p <= saturated y)%R.
Proof. exact poisson_saturated. Qed.
Print Assumptions C30_saturated.

Theorem C30_maximal : forall y p : list R, List.length y = List.length p ->
  Forall (fun v => (0 < v)%R) y -> Forall (fun v => (0 < v)%R) p ->
  (ll_poisson (N := Rnum) y p <= ll_poisson (N := Rnum) y y)%R /\
  (ll_poisson (N := Rnum) y p = ll_poisson (N := Rnum) y y -> p = y).
Proof. exact poisson_best. Qed.
Print Assumptions C30_maximal.

Example C30_ex : List.length [0%R; 3%R] = List.length [1%R; 2%R] /\ [0%R; 3%R] <> [] /\
  Forall (fun v => (0 <= v)%R) [0%R; 3%R] /\ Forall (fun v => (0 < v)%R) [1%R; 2%R].
Proof. split; [reflexivity|]. split; [discriminate|]. repeat constructor; lra. Qed.

(** In binary64, with log(0) = -inf, a zero prediction for a zero count gives NaN
    as soon as another prediction is non-zero. *)
Theorem C30_zero_gives_nan : forall exp64 ln64 (y p : list f64) i j,
  (forall s, ln64 (S754_zero s) = fninf) ->
  i < List.length y -> i < List.length p -> j < List.length p ->
  nonzero64 (nth i y fnan) = false -> nonzero64 (nth i p fnan) = false ->
  nonzero64 (nth j p fnan) = true ->
  ll_poisson (N := Fnum exp64 ln64) y p = fnan.
Proof. exact poisson_nan. Qed.
Print Assumptions C30_zero_gives_nan.

Example C30_nan_ex :
  let l x := match x with S754_zero _ => fninf | _ => x end in
  ll_poisson (N := Fnum l l) [fzero; fone] [fzero; fone] = fnan.
Proof. vm_compute. reflexivity. Qed.

(** If all predictions are zero, the result is 0 or -inf. *)
Theorem C30_all_zero : forall exp64 ln64 (y p : list f64),
  Forall (fun v => nonzero64 v = false) p ->
  (Forall (fun v => nonzero64 v = false) y -> ll_poisson (N := Fnum exp64 ln64) y p = fzero) /\
  (Exists (fun v => nonzero64 v = true) y -> ll_poisson (N := Fnum exp64 ln64) y p = fninf).
Proof. exact poisson_all_zero. Qed.
Print Assumptions C30_all_zero.

(** The normal log-likelihood is the maximum over the variance, and prefers smaller
    residuals. *)
Theorem C30_normal_profile : forall (y p : list R) s, List.length y = List.length p -> y <> [] -> (0 < s)%R ->
  (0 < mean_square y p)%R ->
  (gauss y p s <= ll_normal (N := Rnum) y p)%R /\ gauss y p (mean_square y p) = ll_normal (N := Rnum) y p.
Proof. exact normal_profile. Qed.
Print Assumptions C30_normal_profile.

Theorem C30_normal_order : forall y p q : list R, List.length y = List.length p -> List.length y = List.length q ->
  y <> [] -> (0 < mean_square y p)%R -> (mean_square y p < mean_square y q)%R ->
  (ll_normal (N := Rnum) y q < ll_normal (N := Rnum) y p)%R.
Proof. exact normal_order. Qed.
Print Assumptions C30_normal_order.

Example C30_normal_ex : mean_square [1%R; 2%R] [1%R; 4%R] = 2%R.
Proof. unfold mean_square, square_sum. cbn. lra. Qed.
