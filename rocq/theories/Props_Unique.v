(** C133: what the penalized problems determine, whichever exact solver is used (real numbers). *)
From Coq Require Import ZArith String List Bool Arith Lia Reals Lra.
From Verif Require Import Prelude F64 Num Model_Fit Model_Refit Model_Rescale Model_Linear Model_Poisson Model_Estimation Model_Selection Model_CountFit Spec_Rescale Spec_Poisson Spec_Linear
  Spec_Estimation Spec_Units Spec_CountFit Proofs_Copies2 Proofs_Copies3 Proofs_Unique
  Spec_ClassFit Proofs_Unique2.
Import ListNotations.
Local Open Scope R_scope.

(** Lasso and elastic net: two minimizers have the same fitted values and the same penalty. *)
Theorem C133_values : forall has n p X y lam mix c c' b b', (0 < n)%nat -> 0 <= lam -> 0 <= mix <= 1 ->
  net_minimizer has n p X y lam mix c b -> net_minimizer has n p X y lam mix c' b' ->
  (forall i, (i < n)%nat -> eta p X c b i = eta p X c' b' i) /\ penalty p lam mix c = penalty p lam mix c'.
Proof. exact net_values. Qed.
Print Assumptions C133_values.

(** A Lasso problem with two minimizers that use different features. *)
Example C133_ex_values : net_minimizer true 2 2 [[1; 1]; [-1; -1]] [1; -1] (1 / 2) 1 [1 / 2; 0] 0 /\ net_minimizer true 2 2 [[1; 1]; [-1; -1]] [1; -1] (1 / 2) 1 [0; 1 / 2] 0.
Proof. exact swap_minimizer. Qed.

(** The same for the objective of Poisson, with features penalized in units of [d]. *)
Theorem C133_count_values : forall d n p X y lam mix m m', (0 < n)%nat -> 0 <= lam -> 0 <= mix <= 1 ->
  count_minimizer d n p X y lam mix m -> count_minimizer d n p X y lam mix m' ->
  (forall i, (i < n)%nat -> eta p X (fst m) (snd m) i = eta p X (fst m') (snd m') i) /\
  penalty p lam mix (map (fun j => d j * entry (fst m) j) (seq 0 p)) = penalty p lam mix (map (fun j => d j * entry (fst m') j) (seq 0 p)).
Proof. exact count_values. Qed.
Print Assumptions C133_count_values.

(** Every minimizer of this problem predicts the same rate for the second sample. *)
Example C133_ex_count_values : forall m',
  count_minimizer (fun _ => 1) 2 2 twin_X [1 - 1 * (1 + 1 / 4); exp (1 / 2) + 1 * (1 + 1 / 4)] 1 (1 / 2) m' ->
  eta 2 twin_X [1 / 4; 1 / 4] (ln 1) 1 = eta 2 twin_X (fst m') (snd m') 1.
Proof.
  intros m' M. refine (proj1 (C133_count_values (fun _ => 1) 2 2 twin_X _ 1 (1 / 2) ([1 / 4; 1 / 4], ln 1) m' ltac:(lia) ltac:(lra) ltac:(lra) _ M) 1%nat ltac:(lia)).
  apply twin_minimizer; try lra; [apply exp_pos|]. rewrite ln_exp, ln_1. lra.
Qed.

(** The same for L1 logistic regression with two classes and an intercept: all minimizers
    give every sample the same probability. *)
Theorem C133_class_values : forall n p X y lam m m', (0 < n)%nat -> 0 <= lam -> class_minimizer n p X y lam m -> class_minimizer n p X y lam m' ->
  (forall i, (i < n)%nat -> eta p X (fst m) (snd m) i = eta p X (fst m') (snd m') i) /\
  lam * Sum p (fun j => Rabs (entry (fst m) j)) = lam * Sum p (fun j => Rabs (entry (fst m') j)).
Proof. exact class_values. Qed.
Print Assumptions C133_class_values.

(** Two minimizers that use different features. *)
Example C133_ex_class_values :
  class_minimizer 2 2 [[1; 1]; [-1; -1]] [1; 0] (1 / 4) ([ln 3; 0], 0) /\ class_minimizer 2 2 [[1; 1]; [-1; -1]] [1; 0] (1 / 4) ([0; ln 3], 0).
Proof. exact class_swap. Qed.

(** UoI_ElasticNet with mixing weights below 1: supports and model do not depend on the
    solver, as long as it solves the problems of the selection bootstraps. *)
Theorem C133_elastic : forall standardize has metric target p X (y : list R) eps num alphas ts (net net' : solver_net (N := Rnum)) (ols : solver_ls (N := Rnum)) sel est,
  (forall a, In a alphas -> 0 < a < 1) ->
  let D := linear_pre (N := Rnum) standardize has p X y in
  let solves (s : solver_net (N := Rnum)) := forall sp (lam mix : R) g, In sp sel -> elastic_reg_params (N := Rnum) has p (fst D) (snd D) eps num alphas = Ok g -> In (RegPair lam mix) g ->
     let Xr := samples (fst D) (fst sp) in let yr := part_y (snd D) (fst sp) in
     net_solution has (length (fst sp)) p Xr yr lam mix (s Xr yr lam mix) in
  solves net -> solves net' ->
  elastic_select (N := Rnum) has p eps num alphas net ts sel (fst D) (snd D) = elastic_select (N := Rnum) has p eps num alphas net' ts sel (fst D) (snd D) /\
  elastic_fit (N := Rnum) standardize has eps num alphas ts metric target p net ols sel est X y = elastic_fit (N := Rnum) standardize has eps num alphas ts metric target p net' ols sel est X y.
Proof. exact elastic_unique. Qed.
Print Assumptions C133_elastic.

(** The data of C132 and a solver that meets the hypothesis. *)
Example C133_ex_elastic : forall (net' : solver_net (N := Rnum)) (ols : solver_ls (N := Rnum)),
  (forall sp (lam mix : R) g, In sp copy_splits -> elastic_reg_params (N := Rnum) true 2 copy_X copy_y (1 / 2) 2 [1 / 2] = Ok g -> In (RegPair lam mix) g ->
     net_solution true (length (fst sp)) 2 (samples copy_X (fst sp)) (part_y copy_y (fst sp)) lam mix (net' (samples copy_X (fst sp)) (part_y copy_y (fst sp)) lam mix)) ->
  elastic_fit (N := Rnum) false true (1 / 2) 2 [1 / 2] [2%Z] "r2" 1 2 shared_net ols copy_splits copy_splits copy_X copy_y
  = elastic_fit (N := Rnum) false true (1 / 2) 2 [1 / 2] [2%Z] "r2" 1 2 net' ols copy_splits copy_splits copy_X copy_y.
Proof.
  intros net' ols H. refine (proj2 (C133_elastic false true "r2" 1 2 copy_X copy_y (1 / 2) 2 [1 / 2] [2%Z] shared_net net' ols copy_splits copy_splits _ shared_solves H)).
  intros a [<-|[]]. lra.
Qed.

(** UoI_Poisson with mixing weights below 1. *)
Theorem C133_poisson : forall standardize has metric target p X (y : list R) eps num alphas ts (sel_lm sel_lm' est_lm : solver_glm (N := Rnum)) sel est (d : list (list R) -> nat -> R),
  (forall a, In a alphas -> 0 < a < 1) ->
  let Xs := map (centering_transform (N := Rnum) standardize (fit_scaler (columns p X))) X in
  let solves (s : solver_glm (N := Rnum)) := forall sp (lam mix : R), In sp sel -> In (RegPair lam mix) (poisson_reg_params (N := Rnum) p Xs y eps num alphas) ->
     let Xr := samples Xs (fst sp) in let yr := part_y y (fst sp) in
     (forall q, (q < p)%nat -> d Xr q <> 0) /\ count_minimizer (d Xr) (length (fst sp)) p Xr yr lam mix (s Xr yr lam mix) in
  solves sel_lm -> solves sel_lm' ->
  count_select (N := Rnum) p eps num alphas sel_lm ts sel Xs y = count_select (N := Rnum) p eps num alphas sel_lm' ts sel Xs y /\
  count_fit (N := Rnum) standardize has eps num alphas ts metric target p sel_lm est_lm sel est X y = count_fit (N := Rnum) standardize has eps num alphas ts metric target p sel_lm' est_lm sel est X y.
Proof. exact poisson_unique. Qed.
Print Assumptions C133_poisson.

(** Any exact solver finds the supports of [twin_lm] (see C132). *)
Example C133_ex_poisson : forall sel_lm' : solver_glm (N := Rnum),
  (forall sp (lam mix : R), In sp [twin_split; twin_split] -> In (RegPair lam mix) (poisson_reg_params (N := Rnum) 2 twin_X twin_y (1 / 2) 2 [1 / 2]) ->
     (forall q, (q < 2)%nat -> 1 <> 0) /\ count_minimizer (fun _ => 1) (length (fst sp)) 2 (samples twin_X (fst sp)) (part_y twin_y (fst sp)) lam mix (sel_lm' (samples twin_X (fst sp)) (part_y twin_y (fst sp)) lam mix)) ->
  count_select (N := Rnum) 2 (1 / 2) 2 [1 / 2] sel_lm' [2%Z] [twin_split; twin_split] twin_X twin_y = [[false; false]; [true; true]].
Proof.
  intros sel_lm' H. rewrite <- twin_support. symmetry.
  pose proof (C133_poisson false true "r2" 1 2 twin_X twin_y (1 / 2) 2 [1 / 2] [2%Z] twin_lm sel_lm' twin_lm [twin_split; twin_split] [twin_split] (fun _ _ => 1)) as P.
  unfold centering_transform in P. rewrite map_id in P. refine (proj1 (P _ twin_solves H)). intros a [<-|[]]. lra.
Qed.
