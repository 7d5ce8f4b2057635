(** C124: features that do not vary (real numbers).  [informative] marks the selection
    bootstraps whose training samples need not agree on the feature. *)
From Coq Require Import ZArith String List Bool Arith Lia Reals Lra.
From Verif Require Import Prelude F64 Num Model_Fit Model_Refit Model_Linear Model_Estimation Model_Selection Spec_Rescale Spec_Poisson Spec_Linear
  Spec_Estimation Spec_Units Spec_Flat Proofs_Flat Proofs_Flat2
  Model_Rescale Model_Poisson Model_CountFit Spec_CountFit Proofs_CountFit3 Proofs_FlatCount.
Import ListNotations.
Local Open Scope R_scope.

(** UoI_Lasso: a feature that varies in fewer selection bootstraps than each threshold asks
    for is in no support, and its coefficient is 0.  The solver only has to solve the
    problems of the bootstraps in which the feature does not vary. *)
Theorem C124_lasso : forall standardize has metric target n p X (y : list R) eps num ts (net : solver_net (N := Rnum)) (ols : solver_ls (N := Rnum)) sel est
    (informative : Model_Fit.split -> bool) j,
  matrix n p X -> length y = n -> (0 < n)%nat -> (j < p)%nat -> est <> [] ->
  (forall sp, In sp sel -> informative sp = false -> (forall i, In i (fst sp) -> (i < n)%nat) /\ flat has X (fst sp) j) ->
  (forall t, In t ts -> (Z.of_nat (length (filter informative sel)) < t)%Z) ->
  let D := linear_pre (N := Rnum) standardize has p X y in
  (forall sp (lam : R) g, In sp sel -> informative sp = false -> lasso_grid (N := Rnum) has p (fst D) (snd D) eps num = Ok g -> In lam g ->
     let Xr := samples (fst D) (fst sp) in let yr := part_y (snd D) (fst sp) in
     net_solution has (length (fst sp)) p Xr yr lam 1 (net Xr yr lam 1)) ->
  (forall mask, In mask (lasso_select (N := Rnum) has p eps num net ts sel (fst D) (snd D)) -> nth j mask false = false) /\
  forall c b, lasso_fit (N := Rnum) standardize has eps num ts metric target p net ols sel est X y = Ok (c, b) -> entry c j = 0.
Proof. exact lasso_flat. Qed.
Print Assumptions C124_lasso.

(** Two bootstraps, both needed; a feature that varies in the second one only. *)
Example C124_ex : forall ols : solver_ls (N := Rnum),
  exists c b, lasso_fit (N := Rnum) false true (1 / 2) 2 [2%Z] "r2" 1 2 flat_net ols flat_splits flat_splits flat_X flat_y = Ok (c, b) /\ entry c 1 = 0.
Proof. exact flat_example. Qed.

(** UoI_ElasticNet. *)
Theorem C124_elastic : forall standardize has metric target n p X (y : list R) eps num ts (net : solver_net (N := Rnum)) (ols : solver_ls (N := Rnum)) sel est
    (informative : Model_Fit.split -> bool) j,
  matrix n p X -> length y = n -> (0 < n)%nat -> (j < p)%nat -> est <> [] ->
  (forall sp, In sp sel -> informative sp = false -> (forall i, In i (fst sp) -> (i < n)%nat) /\ flat has X (fst sp) j) ->
  (forall t, In t ts -> (Z.of_nat (length (filter informative sel)) < t)%Z) ->
  let D := linear_pre (N := Rnum) standardize has p X y in
  forall alphas, (forall a, In a alphas -> 0 < a <= 1) ->
  (forall sp (lam mix : R) g, In sp sel -> informative sp = false -> elastic_reg_params (N := Rnum) has p (fst D) (snd D) eps num alphas = Ok g -> In (RegPair lam mix) g ->
     let Xr := samples (fst D) (fst sp) in let yr := part_y (snd D) (fst sp) in
     net_solution has (length (fst sp)) p Xr yr lam mix (net Xr yr lam mix)) ->
  (forall mask, In mask (elastic_select (N := Rnum) has p eps num alphas net ts sel (fst D) (snd D)) -> nth j mask false = false) /\
  forall c b, elastic_fit (N := Rnum) standardize has eps num alphas ts metric target p net ols sel est X y = Ok (c, b) -> entry c j = 0.
Proof. exact elastic_flat. Qed.
Print Assumptions C124_elastic.

(** The same data with the mixing weight 1. *)
Example C124_ex_elastic : forall (ols : solver_ls (N := Rnum)) c b,
  elastic_fit (N := Rnum) false true (1 / 2) 2 [1] [2%Z] "r2" 1 2 flat_net ols flat_splits flat_splits flat_X flat_y = Ok (c, b) -> entry c 1 = 0.
Proof.
  intro ols. refine (proj2 (C124_elastic false true "r2" 1 4 2 flat_X flat_y (1 / 2) 2 [2%Z] flat_net ols flat_splits flat_splits sees_change 1
    flat_matrix eq_refl ltac:(lia) ltac:(lia) ltac:(discriminate) flat_seen _ [1] _ _)).
  - intros t [<-|[]]. reflexivity.
  - intros a [<-|[]]. lra.
  - exact flat_elastic.
Qed.

(** UoI_Poisson with fit_intercept.  [Xs] are the features the modules get; in the bootstraps
    without information the selection solver must minimize the objective that Poisson
    documents, with the feature penalized in some unit [d Xr j] that is not 0. *)
Theorem C124_poisson : forall standardize metric target n p X (y : list R) eps num alphas ts (sel_lm est_lm : solver_glm (N := Rnum)) sel est
    (d : list (list R) -> nat -> R) (informative : Model_Fit.split -> bool) j,
  matrix n p X -> length y = n -> (0 < n)%nat -> (j < p)%nat -> est <> [] -> 0 < eps -> (forall a, In a alphas -> 0 < a <= 1) ->
  (forall sp, In sp sel -> informative sp = false -> (forall i, In i (fst sp) -> (i < n)%nat) /\ flat true X (fst sp) j) ->
  (forall t, In t ts -> (Z.of_nat (length (filter informative sel)) < t)%Z) ->
  let Xs := map (centering_transform (N := Rnum) standardize (fit_scaler (columns p X))) X in
  (forall a, In a alphas -> 0 < poisson_lambda_max (N := Rnum) p Xs y a) ->
  (forall sp (lam mix : R), In sp sel -> informative sp = false -> In (RegPair lam mix) (poisson_reg_params (N := Rnum) p Xs y eps num alphas) ->
     let Xr := samples Xs (fst sp) in let yr := part_y y (fst sp) in
     d Xr j <> 0 /\ count_minimizer (d Xr) (length (fst sp)) p Xr yr lam mix (sel_lm Xr yr lam mix)) ->
  (forall mask, In mask (count_select (N := Rnum) p eps num alphas sel_lm ts sel Xs y) -> nth j mask false = false) /\
  forall c b, count_fit (N := Rnum) standardize true eps num alphas ts metric target p sel_lm est_lm sel est X y = Ok (c, b) -> entry c j = 0.
Proof. exact poisson_flat. Qed.
Print Assumptions C124_poisson.

(** Two crossed features, the second one constant in the first of two bootstraps; on the
    full data the solver of the example puts it into its model. *)
Example C124_ex_poisson : forall metric (est_lm : solver_glm (N := Rnum)),
  (forall mask, In mask (count_select (N := Rnum) 2 (1 / 2) 2 [1] half_lm [2%Z] [half_split; crossed_split] crossed crossed_y) -> nth 1 mask false = false) /\
  forall c b, count_fit (N := Rnum) false true (1 / 2) 2 [1] [2%Z] metric 1 2 half_lm est_lm [half_split; crossed_split] [crossed_split] crossed crossed_y = Ok (c, b) -> entry c 1 = 0.
Proof. exact half_example. Qed.
