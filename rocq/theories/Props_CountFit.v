(** C125: UoI_Poisson and the units of the response (real numbers).  [samples X rows],
    [part X rows mask] and [part_y y rows] are the data of a bootstrap. *)
From Coq Require Import ZArith String List Bool Arith Lia Reals Lra.
From Verif Require Import Prelude F64 Num Model_Intersection Model_Fit Model_Refit Model_Rescale Model_Poisson Model_Linear Model_Estimation Model_Selection Model_CountFit
  Spec_Rescale Spec_Poisson Spec_Linear Spec_Estimation Spec_Choice Spec_Units Spec_CountFit Proofs_CountFit2 Proofs_CountFit3 Proofs_CountFit4.
Import ListNotations.
Local Open Scope R_scope.

(** Counts in other units (rates per minute instead of per second), with fit_intercept and
    estimation_score='log': the same supports_ and coef_, the logarithm of the factor in
    intercept_, and predict_mean in the new units.  [Xs] are the features the modules get.
    The solvers only have to minimize the objective that Poisson documents (feature [j]
    penalized in units of [d Xr j], see C84) on the data they are given; in the selection
    module the minimizers must agree on the features and in the estimation module there must
    be only one. *)
Theorem C125_units : forall standardize target n p X (y : list R) s eps num alphas ts (sel_lm est_lm : solver_glm (N := Rnum)) sel est (d : list (list R) -> nat -> R),
  matrix n p X -> length y = n -> (0 < p)%nat -> 0 < s -> 0 < eps -> (0 < num)%nat -> alphas <> [] -> ts <> [] -> est <> [] ->
  (exists i j, (i < n)%nat /\ (j < n)%nat /\ entry y i <> entry y j) -> 0 < average n y ->
  let Xs := map (centering_transform (N := Rnum) standardize (fit_scaler (columns p X))) X in
  (forall a, In a alphas -> 0 < poisson_lambda_max (N := Rnum) p Xs y a) ->
  (forall sp (lam mix : R), In sp sel -> In (RegPair lam mix) (poisson_reg_params (N := Rnum) p Xs y eps num alphas) ->
     let Xr := samples Xs (fst sp) in let yr := part_y y (fst sp) in let k := length (fst sp) in
     clear_counts (d Xr) k p Xr yr lam mix /\
     count_minimizer (d Xr) k p Xr yr lam mix (sel_lm Xr yr lam mix) /\
     count_minimizer (d Xr) k p Xr (map (Rmult s) yr) (s * lam) mix (sel_lm Xr (map (Rmult s) yr) (s * lam) mix)) ->
  let supports := count_select (N := Rnum) p eps num alphas sel_lm ts sel Xs y in
  (forall sp, In sp est ->
     let yr := part_y y (fst sp) in
     (forall i, In i (fst sp) -> (i < n)%nat) /\ fst sp <> [] /\ scored target sp <> [] /\ 0 < average (length (fst sp)) yr /\
     forall mask, In mask supports -> existsb (fun b => b) mask = true -> exists w,
       let Xr := part Xs (fst sp) mask in let k := count (fun b => b) mask in
       only_minimizer w (length (fst sp)) k Xr yr 0 1 (est_lm Xr yr 0 1) /\
       count_minimizer w (length (fst sp)) k Xr (map (Rmult s) yr) 0 1 (est_lm Xr (map (Rmult s) yr) 0 1)) ->
  count_select (N := Rnum) p eps num alphas sel_lm ts sel Xs (map (Rmult s) y) = supports /\
  exists c b,
    count_fit (N := Rnum) standardize true eps num alphas ts "log" target p sel_lm est_lm sel est X y = Ok (c, b) /\
    count_fit (N := Rnum) standardize true eps num alphas ts "log" target p sel_lm est_lm sel est X (map (Rmult s) y) = Ok (c, b + ln s) /\
    forall Z, predict_mean (N := Rnum) (mkPoisson (Some c) (Some (b + ln s))) Z = rmap (map (Rmult s)) (predict_mean (N := Rnum) (mkPoisson (Some c) (Some b)) Z).
Proof. exact count_converted. Qed.
Print Assumptions C125_units.

(** Two crossed binary features; the first one multiplies the counts by five. *)
Example C125_ex : forall s, 0 < s ->
  count_select (N := Rnum) 2 (1 / 2) 2 [1] crossed_lm [1%Z] [crossed_split] crossed (map (Rmult s) crossed_y) = [[false; false]; [true; false]] /\
  exists c b,
  count_fit (N := Rnum) false true (1 / 2) 2 [1] [1%Z] "log" 1 2 crossed_lm crossed_lm [crossed_split] [crossed_split] crossed crossed_y = Ok (c, b) /\
  count_fit (N := Rnum) false true (1 / 2) 2 [1] [1%Z] "log" 1 2 crossed_lm crossed_lm [crossed_split] [crossed_split] crossed (map (Rmult s) crossed_y) = Ok (c, b + ln s).
Proof. exact count_example. Qed.

(** (finding) Not so with an information criterion: the likelihoods are in these units, the
    price of a feature is not, and the intercept costs nothing if it is exactly zero.  The
    same data with AIC: the effect of the first feature is ln 5, and zero for the response
    divided by five. *)
Theorem C125_criteria : exists X y (lm : solver_glm (N := Rnum)) sp s b b',
  only_minimizer (fun _ => 1) 4 1 (part X (fst sp) [true; false]) (part_y y (fst sp)) 0 1 (lm (part X (fst sp) [true; false]) (part_y y (fst sp)) 0 1) /\
  only_minimizer (fun _ => 1) 4 1 (part X (fst sp) [true; false]) (part_y (map (Rmult s) y) (fst sp)) 0 1
    (lm (part X (fst sp) [true; false]) (part_y (map (Rmult s) y) (fst sp)) 0 1) /\
  count_fit (N := Rnum) false true (1 / 2) 2 [1] [1%Z] "AIC" 0 2 lm lm [sp] [sp] X y = Ok ([ln 5; 0], b) /\
  count_fit (N := Rnum) false true (1 / 2) 2 [1] [1%Z] "AIC" 0 2 lm lm [sp] [sp] X (map (Rmult s) y) = Ok ([0; 0], b').
Proof. exact criteria_found. Qed.
Print Assumptions C125_criteria.

Example C125_ex_criteria : crossed = [[0; 0]; [1; 0]; [0; 1]; [1; 1]] /\ crossed_y = [1; 5; 1; 5] /\ ln 5 <> 0.
Proof. split; [reflexivity|]. split; [reflexivity|]. pose proof (ln_increasing 1 5 ltac:(lra) ltac:(lra)) as H. rewrite ln_1 in H. lra. Qed.
