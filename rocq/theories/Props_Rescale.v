(** Standardization, rescaling and refitting: C25 (prediction), C26, C31, C32, C33, C74. *)
From Coq Require Import ZArith List Bool Reals Lra Lia Floats.SpecFloat.
From Verif Require Import Prelude F64 Num Model_Mpi Model_Fit Spec_Fit Model_Rescale Spec_Rescale Proofs_Rescale
  Model_Refit Proofs_Refit.
Import ListNotations.

(** C25, second half: with an intercept, the linear regressors predict a constant
    response exactly; without, they predict 0. *)
Theorem C25_predicts_constant : forall std fi p m s xbar v n x,
  length m = p -> scales_ok p s -> length xbar = p -> length x = p -> 0 < n ->
  let r := linear_constant_fit (N := Rnum) std fi (mkScaler m s) xbar (repeat v n) p in
  value p (fst r) (snd r) x = if fi then v else 0%R.
Proof. exact constant_prediction. Qed.
Print Assumptions C25_predicts_constant.

Example C25_prediction_ex :
  length [1%R; 2%R] = 2 /\ scales_ok 2 [3%R; 1%R] /\ repeat 7%R 2 = [7%R; 7%R].
Proof.
  split; [reflexivity|]. split; [|reflexivity]. split; [reflexivity|].
  intros [|[|j]] H; unfold entry; cbn; try lra; lia.
Qed.

(** C26. *)
Theorem C26_lasso_forgets : forall D L A St Sel Coef (constant : D -> bool)
    (const_fit : D -> result Coef) (run : D -> list (reg_param L A) -> St -> St * result (Sel * Coef))
    grid (o1 o2 : object L A St Sel Coef) x g,
  constant x = false -> grid x = Ok g ->
  o_params (fst (fit_call (lasso_params grid) constant const_fit run x o1)) = Some (map RegAlpha g) /\
  (o_state o1 = o_state o2 ->
   is_ok (snd (fit_call (lasso_params grid) constant const_fit run x o1)) = true ->
   let a := fit_call (lasso_params grid) constant const_fit run x o1 in
   let b := fit_call (lasso_params grid) constant const_fit run x o2 in
   snd a = snd b /\ o_sel (fst a) = o_sel (fst b) /\ o_coef (fst a) = o_coef (fst b) /\
   o_params (fst a) = o_params (fst b)).
Proof. intros D L A St Sel Coef. exact lasso_forgets. Qed.
Print Assumptions C26_lasso_forgets.

(** UoI_ElasticNet and UoI_Poisson: after the first call [x1] with a non-constant
    response, every later call uses the path of [x1]. *)
Theorem C26_pairs_stale : forall D L A St Sel Coef (constant : D -> bool)
    (const_fit : D -> result Coef) (run : D -> list (reg_param L A) -> St -> St * result (Sel * Coef))
    alphas zeros grid rows h1 x1 h2 x st,
  Forall (fun x => constant x = true) h1 -> constant x1 = false -> constant x = false ->
  (forall a, In a alphas -> grid x1 a = Ok (rows a)) ->
  o_params (fst (fit_call (pair_params alphas zeros grid) constant const_fit run x
    (history (pair_params alphas zeros grid) constant const_fit run (h1 ++ x1 :: h2) (fresh st))))
  = Some (flat_map (fun a => map (fun l => RegPair l a) (rows a)) alphas).
Proof. intros D L A St Sel Coef. exact pairs_stale. Qed.
Print Assumptions C26_pairs_stale.

(** UoI_L1Logistic. *)
Theorem C26_logistic_stale : forall D L A St Sel Coef (constant : D -> bool)
    (const_fit : D -> result Coef) (run : D -> list (reg_param L A) -> St -> St * result (Sel * Coef))
    grid h1 x1 h2 x st cs,
  Forall (fun x => constant x = true) h1 -> constant x1 = false -> constant x = false ->
  grid x1 = Ok cs ->
  o_params (fst (fit_call (logistic_params grid) constant const_fit run x
    (history (logistic_params grid) constant const_fit run (h1 ++ x1 :: h2) (fresh st))))
  = Some (map RegC cs).
Proof. intros D L A St Sel Coef. exact logistic_stale. Qed.
Print Assumptions C26_logistic_stale.

(** If computing the path raises for a mixing weight (sklearn does so for
    l1_ratio = 0), the call raises, and later calls use zero penalties for this and
    all following mixing weights. *)
Theorem C26_failed_path_is_zero : forall D L A St Sel Coef (constant : D -> bool)
    (const_fit : D -> result Coef) (run : D -> list (reg_param L A) -> St -> St * result (Sel * Coef))
    alphas zeros grid rows pre a post e h1 x1 h2 x st,
  Forall (fun x => constant x = true) h1 -> constant x1 = false -> constant x = false ->
  alphas = pre ++ a :: post -> (forall a, In a pre -> grid x1 a = Ok (rows a)) -> grid x1 a = Raise e ->
  snd (fit_call (pair_params alphas zeros grid) constant const_fit run x1 (fresh st)) = Raise e /\
  o_params (fst (fit_call (pair_params alphas zeros grid) constant const_fit run x
    (history (pair_params alphas zeros grid) constant const_fit run (h1 ++ x1 :: h2) (fresh st))))
  = Some (flat_map (fun a => map (fun l => RegPair l a) (rows a)) pre
          ++ flat_map (fun a => map (fun l => RegPair l a) zeros) (a :: post)).
Proof. intros D L A St Sel Coef. exact pairs_failed. Qed.
Print Assumptions C26_failed_path_is_zero.

(** Data 10, then data 20: UoI_Lasso gives the path of 20, UoI_L1Logistic still that
    of 10.  A path that fails for the mixing weight 0 leaves zeros behind. *)
Example C26_ex :
  let const x := Nat.eqb x 0 in
  o_params (history (lasso_params toy_grid) const (fun x => Ok x) toy_run [10; 20] (fresh tt))
    = Some [RegAlpha 20; RegAlpha 21] /\
  o_params (history (logistic_params toy_grid) const (fun x => Ok x) toy_run [10; 20] (fresh tt))
    = Some [RegC 10; RegC 11] /\
  o_params (history (pair_params [1; 0] [0; 0]
              (fun x a => if Nat.eqb a 0 then Raise ValueError else toy_grid x))
              const (fun x => Ok x) toy_run [10; 20] (fresh tt))
    = Some [RegPair 10 1; RegPair 11 1; RegPair 0 0; RegPair 0 0].
Proof. repeat split. Qed.

(** C31. *)
Theorem C31_linear : forall p m s c x b, length m = p -> scales_ok p s -> length c = p -> length x = p ->
  forall fi ym ys, (fi = false -> b = 0%R) ->
  let r := linear_post (N := Rnum) true fi (mkScaler m s) ym ys c b in
  value p (fst r) (snd r) x = (std_value p fi m s c b x * ys + if fi then ym else 0)%R.
Proof. exact linear_rescaled. Qed.
Print Assumptions C31_linear.

(** The standardized model is evaluated at the transformed sample. *)
Theorem C31_transform : forall p m s x, length m = p -> scales_ok p s -> length x = p ->
  forall centered j, j < p ->
  entry (transform (N := Rnum) (mkScaler m s) centered x) j
  = ((entry x j - if centered then entry m j else 0) / entry s j)%R.
Proof. exact transform_entry'. Qed.
Print Assumptions C31_transform.

(** Poisson and UoI_Poisson always center: correct with an intercept; without one
    the linear predictor is off by the sum of mean_j * coef_j. *)
Theorem C31_poisson : forall p m s c x b, length m = p -> scales_ok p s -> length c = p -> length x = p ->
  forall fi,
  let r := poisson_post (N := Rnum) true fi (mkScaler m s) c b in
  value p (fst r) (snd r) x
  = (std_value p true m s c b x
     + if fi then 0 else Sum p (fun j => entry m j * entry (fst r) j))%R.
Proof. exact poisson_rescaled. Qed.
Print Assumptions C31_poisson.

Example C31_ex :
  value 2 [1%R; 2%R] 3%R [4%R; 5%R] = 17%R /\
  std_value 2 true [1%R; 1%R] [2%R; 4%R] [1%R; 2%R] 3%R [5%R; 5%R] = 7%R.
Proof. unfold value, std_value, Sum, entry. cbn. lra. Qed.

(** Rescaling in binary64 keeps the zeros of coef_ (a hypothesis of C21 and C25). *)
Theorem C31_keeps_zeros : forall exp64 ln64 (sX : scaler (Fnum exp64 ln64)) std fi ym ys,
  Forall proper (scale_ sX) -> is_finite64 ys = true ->
  keeps_zeros (linear_post_nd exp64 ln64 std fi sX ym ys) /\
  keeps_zeros (glm_post_nd exp64 ln64 std fi sX) /\
  keeps_zeros (poisson_post_nd exp64 ln64 std fi sX).
Proof. exact all_keep_zeros. Qed.
Print Assumptions C31_keeps_zeros.

Example C31_zeros_ex :
  let s := mkScaler (N := Fnum (fun x => x) (fun x => x)) [fone; fone] [ftwo; ftwo] in
  Forall proper (scale_ s) /\
  linear_post_nd (fun x => x) (fun x => x) true true s fone ftwo
    (nd_of_floats [1; 2] [ftwo; fzero]) (nd_of_floats [1] [fone])
  = Ok (nd_of_floats [2] [ftwo; fzero], nd_of_floats [1] [fone]).
Proof. split; [repeat constructor|vm_compute; reflexivity]. Qed.

(** C32. *)
Theorem C32_difference : forall p m s c x b, length m = p -> scales_ok p s -> length c = p -> length x = p ->
  forall fi,
  let r := glm_post (N := Rnum) true fi (mkScaler m s) c b in
  value p (fst r) (snd r) x
  = (std_value p fi m s c b x
     + if fi then Sum p (fun j => entry m j * entry c j * (1 + / entry s j)) else 0)%R.
Proof. exact glm_rescaled. Qed.
Print Assumptions C32_difference.

(** Agreement on one sample, or on all, is the vanishing of that sum. *)
Theorem C32_agreement : forall p m s c x b, length m = p -> scales_ok p s -> length c = p -> length x = p ->
  let r := glm_post (N := Rnum) true true (mkScaler m s) c b in
  value p (fst r) (snd r) x = std_value p true m s c b x <->
  Sum p (fun j => entry m j * entry c j * (1 + / entry s j))%R = 0%R.
Proof. exact glm_agreement. Qed.
Print Assumptions C32_agreement.

(** One feature with mean 1 and scale 1, coefficient 1: off by 2. *)
Example C32_ex :
  value 1 (fst (glm_post (N := Rnum) true true (mkScaler [1%R] [1%R]) [1%R] 0%R))
          (snd (glm_post (N := Rnum) true true (mkScaler [1%R] [1%R]) [1%R] 0%R)) [1%R] = 2%R /\
  std_value 1 true [1%R] [1%R] [1%R] 0%R [1%R] = 0%R.
Proof. unfold value, std_value, Sum, entry, ndot, nsum, nzero. cbn. lra. Qed.

(** C33. *)
Theorem C33_agreement : forall p m s c x b, length m = p -> scales_ok p s -> length c = p -> length x = p ->
  let r := masked_post (N := Rnum) true (mkScaler m s) c b in
  value p (fst r) (snd r) x
    = (std_value p true m s c b x + Sum p (fun j => entry m j * entry (fst r) j))%R /\
  (value p (fst r) (snd r) x = std_value p true m s c b x <->
   Sum p (fun j => entry m j * entry (fst r) j)%R = 0%R).
Proof. exact masked_agreement. Qed.
Print Assumptions C33_agreement.

Example C33_ex :
  Sum 1 (fun j => entry [1%R] j * entry (fst (masked_post (N := Rnum) true (mkScaler [1%R] [2%R]) [1%R] 0%R)) j)%R
  = (1 / 2)%R.
Proof. unfold Sum, entry. cbn. lra. Qed.

(** C74. *)
Theorem C74_constant_refit : forall D L A St Sel Coef (constant : D -> bool)
    (const_fit : D -> result Coef) (run : D -> list (reg_param L A) -> St -> St * result (Sel * Coef))
    get h x0 x st v c st',
  constant x0 = false -> constant x = true -> const_fit x = Ok c ->
  (exists ps, snd (get (o_cache (history get constant const_fit run h (fresh st))) x0) = Ok ps /\
     run x0 ps (o_state (history get constant const_fit run h (fresh st))) = (st', Ok v)) ->
  let before := history get constant const_fit run (h ++ [x0]) (fresh st) in
  let o := fst (fit_call get constant const_fit run x before) in
  snd (fit_call get constant const_fit run x before) = Ok tt /\
  o_coef o = Some c /\ o_sel o = Some (fst v) /\ o_params o = o_params before.
Proof. intros D L A St Sel Coef. exact constant_refit. Qed.
Print Assumptions C74_constant_refit.

(** On an object that has only seen constant responses these attributes do not exist. *)
Theorem C74_constant_only : forall D L A St Sel Coef (constant : D -> bool)
    (const_fit : D -> result Coef) (run : D -> list (reg_param L A) -> St -> St * result (Sel * Coef))
    get h x st c,
  Forall (fun x => constant x = true) h -> constant x = true -> const_fit x = Ok c ->
  let o := fst (fit_call get constant const_fit run x (history get constant const_fit run h (fresh st))) in
  o_coef o = Some c /\ o_sel o = None /\ o_params o = None.
Proof. intros D L A St Sel Coef. exact constant_fresh. Qed.
Print Assumptions C74_constant_only.

Example C74_ex :
  let o := history (lasso_params toy_grid) (fun x => Nat.eqb x 0) (fun x => Ok x) toy_run [10; 0] (fresh tt) in
  o_coef o = Some 0 /\ o_sel o = Some 10 /\ o_params o = Some [RegAlpha 10; RegAlpha 11].
Proof. repeat split. Qed.

(** C77.  Shapes for one response and [p] features. *)
Theorem C77_single_feature : forall exp64 ln64 (sX : scaler (Fnum exp64 ln64)) std fi ym ys c ic p,
  length (scale_ sX) = p -> nd_shape c = [1; p] -> length (nd_data c) = p -> length (nd_data ic) = 1 ->
  (exists c' ic', linear_post_nd exp64 ln64 std fi sX ym ys c ic = Ok (c', ic') /\
     nd_shape ic' = nd_shape ic /\ nd_shape c' = if Nat.eqb p 1 then [] else [p]) /\
  (exists c' ic', glm_post_nd exp64 ln64 std fi sX c ic = Ok (c', ic') /\
     nd_shape ic' = nd_shape ic /\ nd_shape c' = [1; p]) /\
  (if (std && Nat.eqb p 1)%bool then poisson_post_nd exp64 ln64 std fi sX c ic = Raise ValueError
   else exists c' ic', poisson_post_nd exp64 ln64 std fi sX c ic = Ok (c', ic') /\
     nd_shape ic' = nd_shape ic /\ nd_shape c' = if Nat.eqb p 1 then [] else [p]).
Proof. exact post_shapes. Qed.
Print Assumptions C77_single_feature.

Example C77_ex :
  let s := mkScaler (N := Fnum (fun x => x) (fun x => x)) [fone] [ftwo] in
  poisson_post_nd (fun x => x) (fun x => x) true true s (nd_of_floats [1; 1] [ftwo]) (nd_of_floats [1] [fone])
    = Raise ValueError /\
  linear_post_nd (fun x => x) (fun x => x) true false s fone ftwo
    (nd_of_floats [1; 1] [ftwo]) (nd_of_floats [1] [fone])
  = Ok (nd_of_floats [] [ftwo], nd_of_floats [1] [fone]).
Proof. split; vm_compute; reflexivity. Qed.
