(** C116: the intercept of Poisson(solver='cd') is not part of the convergence test. *)
From Coq Require Import ZArith List Bool Arith Reals Lra Lia Floats.SpecFloat.
From Verif Require Import Prelude F64 Num Model_Rescale Spec_Rescale Model_Poisson Spec_Poisson Proofs_PoissonFit
  Spec_PoissonNull Proofs_Rescale Proofs_PoissonMore Proofs_PoissonNull Proofs_PoissonOverflow.
Import ListNotations.
Local Open Scope R_scope.

(** When the penalty selects nothing, the fit stops after one sweep: it returns zero
    coefficients, which is right, with the intercept m - 1 in place of log(m), where m is
    the weighted mean of the response.  It predicts exp(m - 1) for every sample; this is
    at least m, and the documented objective is lower at log(m). *)
Theorem C116_null : forall n p X y swo (c : config Rnum) opt o, let sw := sample_weights n swo in
  no_division_by_zero n p X (alpha c) (l1_ratio c) ->
  matrix n p X -> (0 < n)%nat -> length y = n -> length sw = n -> (forall i, (i < n)%nat -> 0 < entry sw i) ->
  fit_intercept c = true -> warm_start c = false -> standardize c = false -> constant_response (N := Rnum) y = false ->
  (0 < p)%nat -> (0 < max_iter c)%nat -> 0 < tol c ->
  nothing_selected n p X y sw (alpha c) (l1_ratio c) ->
  let m := waverage n sw y in
  let r := poisson_fit (N := Rnum) c Cd opt p X y swo o in
  r = (mkPoisson (N := Rnum) (Some (repeat 0 p)) (Some (m - 1)), Ok tt) /\
  (forall Xn, predict_mean (N := Rnum) (fst r) Xn = Ok (repeat (exp (m - 1)) (length Xn))) /\
  m <= exp (m - 1) /\
  (0 < m -> m <> 1 -> m < exp (m - 1) /\
     objective n p X y sw (alpha c) (l1_ratio c) (repeat 0 p) (ln m)
     < objective n p X y sw (alpha c) (l1_ratio c) (repeat 0 p) (m - 1)).
Proof.
  intros n p X y swo c opt o sw _ HX Hn Hy Hsw Hsw0 Hf Hw Hst Hc Hp Hm Ht Hs m r.
  assert (E : r = (mkPoisson (N := Rnum) (Some (repeat 0 p)) (Some (m - 1)), Ok tt)) by (apply (null_fit n); assumption).
  split; [exact E|]. split; [intro Xn; rewrite E; apply predict_zeros|]. split; [apply exp_minus1|].
  intros Hm0 Hm1. split; [now apply exp_minus1_lt|]. apply null_gap; auto. now apply Sum_pos.
Qed.
Print Assumptions C116_null.

(** The same predictions with standardize=True. *)
Theorem C116_null_standardized : forall n p X y swo (c : config Rnum) opt o, let sw := sample_weights n swo in
  let T := transform (N := Rnum) (fit_scaler (N := Rnum) (columns (N := Rnum) p X)) true in
  no_division_by_zero n p (map T X) (alpha c) (l1_ratio c) ->
  matrix n p X -> (0 < n)%nat -> length y = n -> length sw = n -> (forall i, (i < n)%nat -> 0 < entry sw i) ->
  fit_intercept c = true -> warm_start c = false -> standardize c = true -> constant_response (N := Rnum) y = false ->
  forall Xn, Forall (fun x => length x = p) Xn ->
  (0 < p)%nat -> (0 < max_iter c)%nat -> 0 < tol c ->
  nothing_selected n p (map T X) y sw (alpha c) (l1_ratio c) ->
  let r := poisson_fit (N := Rnum) c Cd opt p X y swo o in
  snd r = Ok tt /\ predict_mean (N := Rnum) (fst r) Xn = Ok (repeat (exp (waverage n sw y - 1)) (length Xn)).
Proof. exact (fun n p X y swo c opt o _ => null_std n p X y swo c opt o). Qed.
Print Assumptions C116_null_standardized.

(** Whatever the penalty: the first sweep moves the intercept to m - 1 and no sweep lowers
    it by more than one, so after at most [max_iter] sweeps it is at least m - max_iter.  For
    counts with a mean above max_iter this is far above the logarithm of any count. *)
Theorem C116_lag : forall n p X y swo (c : config Rnum) opt o, let sw := sample_weights n swo in
  no_division_by_zero n p X (alpha c) (l1_ratio c) ->
  matrix n p X -> (0 < n)%nat -> length y = n -> length sw = n -> (forall i, (i < n)%nat -> 0 < entry sw i) ->
  fit_intercept c = true -> warm_start c = false -> standardize c = false -> constant_response (N := Rnum) y = false ->
  (0 < max_iter c)%nat -> (forall i, (i < n)%nat -> 0 <= entry y i) ->
  exists v b, poisson_fit (N := Rnum) c Cd opt p X y swo o = (mkPoisson (N := Rnum) (Some v) (Some b), Ok tt) /\
    length v = p /\ waverage n sw y - INR (max_iter c) <= b.
Proof. exact (fun n p X y swo c opt o _ => lag_fit n p X y swo c opt o). Qed.
Print Assumptions C116_lag.

(** With standardize=True the same holds for the prediction at the mean of the samples. *)
Theorem C116_lag_standardized : forall n p X y swo (c : config Rnum) opt o, let sw := sample_weights n swo in
  let T := transform (N := Rnum) (fit_scaler (N := Rnum) (columns (N := Rnum) p X)) true in
  no_division_by_zero n p (map T X) (alpha c) (l1_ratio c) ->
  matrix n p X -> (0 < n)%nat -> length y = n -> length sw = n -> (forall i, (i < n)%nat -> 0 < entry sw i) ->
  fit_intercept c = true -> warm_start c = false -> standardize c = true -> constant_response (N := Rnum) y = false ->
  (0 < max_iter c)%nat -> (forall i, (i < n)%nat -> 0 <= entry y i) ->
  let r := poisson_fit (N := Rnum) c Cd opt p X y swo o in
  let x0 := map (fun j => Sum n (fun i => mat X i j) / INR n) (seq 0 p) in
  snd r = Ok tt /\ exists q, predict_mean (N := Rnum) (fst r) [x0] = Ok [q] /\
    exp (waverage n sw y - INR (max_iter c)) <= q.
Proof. exact (fun n p X y swo c opt o _ => lag_std n p X y swo c opt o). Qed.
Print Assumptions C116_lag_standardized.

(** In binary64, whatever exp is as long as exp(NaN) is NaN: if stopping after [k] sweeps
    gives an infinite prediction for some training sample, then allowing more sweeps gives
    the same model or one whose intercept and formerly non-zero coefficients are NaN, which
    predicts NaN for every sample.  No exception is raised. *)
Theorem C116_overflow : forall exp64 ln64, exp64 fnan = fnan ->
  forall n p X y swo (c : config (Fnum exp64 ln64)) opt o,
  length X = S n -> length y = S n -> match swo with Some s => length s = S n | None => True end ->
  fit_intercept c = true -> warm_start c = false -> standardize c = false ->
  constant_response (N := Fnum exp64 ln64) y = false ->
  forall k m o1 q i, (k < m)%nat -> (0 < k)%nat ->
  poisson_fit (N := Fnum exp64 ln64) (with_iter c k) Cd opt p X y swo o = (o1, Ok tt) ->
  predict_mean (N := Fnum exp64 ln64) o1 X = Ok q -> (i < S n)%nat -> overflows (nth i q fzero) ->
  poisson_fit (N := Fnum exp64 ln64) (with_iter c m) Cd opt p X y swo o = (o1, Ok tt) \/
  exists v1 v, coef_ o1 = Some v1 /\
    poisson_fit (N := Fnum exp64 ln64) (with_iter c m) Cd opt p X y swo o
    = (mkPoisson (N := Fnum exp64 ln64) (Some v) (Some fnan), Ok tt) /\
    (forall j, (j < p)%nat -> nonzero64 (nth j v1 fzero) = true -> nth j v fzero = fnan) /\
    forall Xn, predict_mean (N := Fnum exp64 ln64) (mkPoisson (N := Fnum exp64 ln64) (Some v) (Some fnan)) Xn
               = Ok (repeat fnan (length Xn)).
Proof. exact overflow_fit. Qed.
Print Assumptions C116_overflow.

(** Two samples with responses 2 and 6 and a feature that is not worth the penalty: the
    prediction is exp(3), about 20, for both. *)
Example C116_null_ex :
  matrix 2 1 [[0]; [1]] /\ constant_response (N := Rnum) [2; 6] = false /\
  nothing_selected 2 1 [[0]; [1]] [2; 6] (sample_weights 2 None) 1 1 /\ no_division_by_zero 2 1 [[0]; [1]] 1 1 /\
  waverage 2 (sample_weights 2 None) [2; 6] = 4.
Proof.
  assert (W : waverage 2 (sample_weights 2 None) [2; 6] = 4).
  { unfold waverage, sample_weights. rewrite !Sum_S, !Sum_0. unfold entry. cbn [nth repeat]. lra. }
  split; [split; [reflexivity|repeat constructor]|]. split; [|split; [|split; [|exact W]]].
  - unfold constant_response. cbn. unfold Reqb. destruct (Req_EM_T 2 6); [lra|reflexivity].
  - intros j Hj. rewrite W. destruct j as [|j]; [|lia]. rewrite !Sum_S, Sum_0. unfold sample_weights, entry, mat, Spec_Rescale.entry. cbn [nth repeat INR].
    rewrite Rabs_right; lra.
  - right. intros j Hj. exists 1%nat. split; [lia|]. destruct j as [|j]; [|lia]. unfold mat, Spec_Rescale.entry. cbn [nth]. lra.
Qed.

(** A fit in binary64 with an exp that overflows above 709: after one sweep the predictions
    are infinite, after two everything is NaN. *)
Definition steep (x : f64) : f64 := match x with S754_nan => fnan | _ => if fltb (f64_of_Z 709) x then S754_infinity false else fone end.
Definition steep_fit (k : nat) :=
  poisson_fit (N := Fnum steep (fun x => x)) (mkConfig (N := Fnum steep (fun x => x)) fzero fone true false k (f64_of_Z 0) false) Cd
    (fun _ _ _ _ => Raise ValueError) 1 [[f64_of_Z 1]; [f64_of_Z 2]] [f64_of_Z 1000; f64_of_Z 1002] None fresh_poisson.
Example C116_overflow_ex :
  match predict_mean (N := Fnum steep (fun x => x)) (fst (steep_fit 1)) [[f64_of_Z 1]; [f64_of_Z 2]] with
  | Ok [S754_infinity false; S754_infinity false] => true | _ => false end = true /\
  match steep_fit 2 with (mkPoisson (Some [S754_nan]) (Some S754_nan), Ok tt) => true | _ => false end = true.
Proof. split; vm_compute; reflexivity. Qed.
