(** C132: copies of a feature (real numbers, exact selection solvers). *)
From Coq Require Import ZArith String List Bool Arith Lia Reals Lra.
From Verif Require Import Prelude F64 Num Model_Fit Model_Refit Model_Linear Model_Estimation Model_Selection Spec_Rescale Spec_Poisson Spec_Linear
  Spec_Estimation Spec_Units Spec_Copies Proofs_Copies Proofs_Copies2
  Model_Rescale Model_Poisson Model_CountFit Spec_CountFit Proofs_Copies3.
Import ListNotations.
Local Open Scope R_scope.

(** UoI_ElasticNet with mixing weights below 1: every support has both copies or none,
    whatever the bootstraps and the thresholds are. *)
Theorem C132_elastic : forall standardize has n p X (y : list R) eps num alphas ts (net : solver_net (N := Rnum)) sel j k,
  matrix n p X -> length y = n -> (0 < n)%nat -> (j < p)%nat -> (k < p)%nat -> j <> k -> copies n X j k ->
  (forall a, In a alphas -> 0 < a < 1) ->
  let D := linear_pre (N := Rnum) standardize has p X y in
  (forall sp (lam mix : R) g, In sp sel -> elastic_reg_params (N := Rnum) has p (fst D) (snd D) eps num alphas = Ok g -> In (RegPair lam mix) g ->
     let Xr := samples (fst D) (fst sp) in let yr := part_y (snd D) (fst sp) in
     (forall i, In i (fst sp) -> (i < n)%nat) /\ net_solution has (length (fst sp)) p Xr yr lam mix (net Xr yr lam mix)) ->
  forall mask, In mask (elastic_select (N := Rnum) has p eps num alphas net ts sel (fst D) (snd D)) -> nth j mask false = nth k mask false.
Proof. exact elastic_copies. Qed.
Print Assumptions C132_elastic.

(** A response that follows a feature present twice, and the minimizer of every bootstrap. *)
Example C132_ex_elastic : forall ts mask,
  In mask (elastic_select (N := Rnum) true 2 (1 / 2) 2 [1 / 2] shared_net ts copy_splits copy_X copy_y) -> nth 0 mask false = nth 1 mask false.
Proof. exact copy_elastic. Qed.

(** UoI_Lasso, supports intersected over all bootstraps (the default): unless all bootstraps
    have the same training response, solving every Lasso problem exactly does not rule out
    that both copies are lost, however much the response depends on them. *)
Theorem C132_lasso : forall standardize has metric target n p X (y : list R) eps num ts (net : solver_net (N := Rnum)) (ols : solver_ls (N := Rnum)) sel est j k,
  matrix n p X -> length y = n -> (0 < n)%nat -> (j < p)%nat -> (k < p)%nat -> j <> k -> copies n X j k -> est <> [] ->
  let D := linear_pre (N := Rnum) standardize has p X y in
  let solves (s : solver_net (N := Rnum)) := forall sp (lam : R) (g : list R), In sp sel -> lasso_grid (N := Rnum) has p (fst D) (snd D) eps num = Ok g -> In lam g ->
     let Xr := samples (fst D) (fst sp) in let yr := part_y (snd D) (fst sp) in
     net_solution has (length (fst sp)) p Xr yr lam 1 (s Xr yr lam 1) in
  (forall sp, In sp sel -> forall i, In i (fst sp) -> (i < n)%nat) -> solves net ->
  (forall t, In t ts -> t = Z.of_nat (length sel)) ->
  (exists sp sp', In sp sel /\ In sp' sel /\ part_y (snd D) (fst sp) <> part_y (snd D) (fst sp')) ->
  exists net' : solver_net (N := Rnum), solves net' /\
    (forall mask, In mask (lasso_select (N := Rnum) has p eps num net' ts sel (fst D) (snd D)) -> nth j mask false = false /\ nth k mask false = false) /\
    forall c b, lasso_fit (N := Rnum) standardize has eps num ts metric target p net' ols sel est X y = Ok (c, b) -> entry c j = 0 /\ entry c k = 0.
Proof. exact lasso_wavering. Qed.
Print Assumptions C132_lasso.

(** The same data: the response is a multiple of the feature in each bootstrap. *)
Example C132_ex_lasso : forall ols : solver_ls (N := Rnum), exists net' : solver_net (N := Rnum),
  (forall sp (lam : R) (g : list R), In sp copy_splits -> lasso_grid (N := Rnum) true 2 copy_X copy_y (1 / 2) 2 = Ok g -> In lam g ->
     net_solution true (length (fst sp)) 2 (samples copy_X (fst sp)) (part_y copy_y (fst sp)) lam 1 (net' (samples copy_X (fst sp)) (part_y copy_y (fst sp)) lam 1)) /\
  forall c b, lasso_fit (N := Rnum) false true (1 / 2) 2 [2%Z] "r2" 1 2 net' ols copy_splits copy_splits copy_X copy_y = Ok (c, b) -> entry c 0 = 0 /\ entry c 1 = 0.
Proof. exact copy_example. Qed.

(** UoI_Poisson with mixing weights below 1.  [Xs] are the features the modules get; the
    solver may penalize the features in units [d Xr], the same for both copies. *)
Theorem C132_poisson : forall standardize n p X (y : list R) eps num alphas ts (sel_lm : solver_glm (N := Rnum)) sel (d : list (list R) -> nat -> R) j k,
  matrix n p X -> length y = n -> (0 < n)%nat -> (j < p)%nat -> (k < p)%nat -> j <> k -> copies n X j k ->
  (forall a, In a alphas -> 0 < a < 1) ->
  let Xs := map (centering_transform (N := Rnum) standardize (fit_scaler (columns p X))) X in
  (forall sp (lam mix : R), In sp sel -> In (RegPair lam mix) (poisson_reg_params (N := Rnum) p Xs y eps num alphas) ->
     let Xr := samples Xs (fst sp) in let yr := part_y y (fst sp) in
     (forall i, In i (fst sp) -> (i < n)%nat) /\ d Xr j = d Xr k /\ d Xr k <> 0 /\ count_minimizer (d Xr) (length (fst sp)) p Xr yr lam mix (sel_lm Xr yr lam mix)) ->
  forall mask, In mask (count_select (N := Rnum) p eps num alphas sel_lm ts sel Xs y) -> nth j mask false = nth k mask false.
Proof. exact poisson_copies. Qed.
Print Assumptions C132_poisson.

(** Two samples whose minimizers are known for both penalties of the grid. *)
Example C132_ex_poisson :
  (forall ts mask, In mask (count_select (N := Rnum) 2 (1 / 2) 2 [1 / 2] twin_lm ts [twin_split; twin_split] twin_X twin_y) -> nth 0 mask false = nth 1 mask false) /\
  count_select (N := Rnum) 2 (1 / 2) 2 [1 / 2] twin_lm [2%Z] [twin_split; twin_split] twin_X twin_y = [[false; false]; [true; true]].
Proof. split; [exact twin_example|exact twin_support]. Qed.
