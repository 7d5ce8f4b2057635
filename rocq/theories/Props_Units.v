(** C123: the units of the response, standardize=False (real numbers).  [samples X rows] and
    [part_y y rows] are the data of a bootstrap, [converted s t y] is s * y + t. *)
From Coq Require Import ZArith String List Bool Arith Lia Reals Lra.
From Verif Require Import Prelude F64 Num Model_Fit Model_Linear Model_Estimation Model_Selection Spec_Rescale Spec_Poisson Spec_Linear
  Spec_Estimation Spec_Choice Spec_Units Proofs_Estimation5 Proofs_Choice3 Proofs_Units3 Proofs_Units4.
Import ListNotations.
Local Open Scope R_scope.

(** UoI_Lasso: a response in other units (also reversed, s < 0; shifted only if there is an
    intercept) gives the same supports_ and the same model in these units, for all scores.
    The solvers only have to solve their problems on the data they are given, where the
    minimizers of the Lasso must agree on the features and least squares must have a single
    solution; the largest penalty must be above 1e-15 in both units (see C101). *)
Theorem C123_lasso : forall has metric target n p X (y : list R) s t eps num ts (net : solver_net (N := Rnum)) (ols : solver_ls (N := Rnum)) sel est,
  matrix n p X -> length y = n -> (0 < p)%nat -> s <> 0 -> (has = false -> t = 0) -> 0 < eps -> (0 < num)%nat -> ts <> [] -> est <> [] ->
  In metric ["r2"; "BIC"; "AIC"; "AICc"]%string ->
  (exists i j, (i < n)%nat /\ (j < n)%nat /\ entry y i <> entry y j) ->
  / 10 ^ 15 < alpha_max (N := Rnum) has p X y 1 -> / 10 ^ 15 < Rabs s * alpha_max (N := Rnum) has p X y 1 ->
  (forall sp (lam : R) (g : list R), In sp sel -> lasso_grid (N := Rnum) has p X y eps num = Ok g -> In lam g ->
     let Xr := samples X (fst sp) in let yr := part_y y (fst sp) in let k := length (fst sp) in
     (forall i, In i (fst sp) -> (i < n)%nat) /\
     clear_features has k p Xr yr lam 1 /\
     net_solution has k p Xr yr lam 1 (net Xr yr lam 1) /\
     net_solution has k p Xr (converted s t yr) (Rabs s * lam) 1 (net Xr (converted s t yr) (Rabs s * lam) 1)) ->
  let supports := lasso_select (N := Rnum) has p eps num net ts sel X y in
  (forall sp, In sp est ->
     let Xr mask := part X (fst sp) mask in let yr := part_y y (fst sp) in
     let rows := scored target sp in
     (forall r, In r (fst sp) -> (r < n)%nat) /\ fst sp <> [] /\ (forall r, In r rows -> (r < n)%nat) /\ rows <> [] /\
     (metric = "r2"%string -> (2 <= length rows)%nat /\ distance2 (part_y y rows) (average (length rows) (part_y y rows)) <> 0) /\
     forall mask, In mask supports ->
       (existsb (fun b => b) mask = true ->
          only_least_squares has (count (fun b => b) mask) (Xr mask) yr (ols (Xr mask) yr) /\
          least_squares has (count (fun b => b) mask) (Xr mask) (converted s t yr) (ols (Xr mask) (converted s t yr))) /\
       (metric <> "r2"%string -> 0 < model_error X y (fst sp) rows mask (ols (Xr mask) yr))) ->
  lasso_select (N := Rnum) has p eps num net ts sel X (converted s t y) = supports /\
  exists c b,
    lasso_fit (N := Rnum) false has eps num ts metric target p net ols sel est X y = Ok (c, b) /\
    lasso_fit (N := Rnum) false has eps num ts metric target p net ols sel est X (converted s t y) = Ok (map (Rmult s) c, s * b + t).
Proof. exact lasso_converted. Qed.
Print Assumptions C123_lasso.

(** Eight samples of two balanced features with noise; the response 5 - 3 y. *)
Example C123_ex : exists c b,
  lasso_fit (N := Rnum) false true (1 / 2) 2 [1%Z] "r2" 1 2 net_balanced ols_centered [half_split] [half_split] two_by_two y_noisy = Ok (c, b) /\
  lasso_fit (N := Rnum) false true (1 / 2) 2 [1%Z] "r2" 1 2 net_balanced ols_centered [half_split] [half_split] two_by_two (converted (-3) 5 y_noisy)
  = Ok (map (Rmult (-3)) c, -3 * b + 5).
Proof. exact lasso_example. Qed.

(** UoI_ElasticNet (finding): the penalties grow with the unit, but the squared part of the
    penalty would have to stay as it is.  Data with two correlated features for which every
    solver gives the supports {} and {0}, and for ten times the response {} and {0, 1}. *)
Theorem C123_elastic : forall has (net : solver_net (N := Rnum)),
  (forall y lam, In (y, lam) [(net_y, 2); (net_y, 1); (converted 10 0 net_y, 20); (converted 10 0 net_y, 10)] ->
     let Xr := samples net_X (fst half_split) in let yr := part_y y (fst half_split) in
     net_solution has 4 2 Xr yr lam (1 / 2) (net Xr yr lam (1 / 2))) ->
  elastic_select (N := Rnum) has 2 (1 / 2) 2 [1 / 2] net [1%Z] [half_split] net_X net_y = [[false; false]; [true; false]] /\
  elastic_select (N := Rnum) has 2 (1 / 2) 2 [1 / 2] net [1%Z] [half_split] net_X (converted 10 0 net_y) = [[false; false]; [true; true]].
Proof. exact elastic_units. Qed.
Print Assumptions C123_elastic.

(** Such a solver exists. *)
Example C123_ex_elastic :
  elastic_select (N := Rnum) true 2 (1 / 2) 2 [1 / 2] table_net [1%Z] [half_split] net_X net_y <>
  elastic_select (N := Rnum) true 2 (1 / 2) 2 [1 / 2] table_net [1%Z] [half_split] net_X (converted 10 0 net_y).
Proof.
  destruct (C123_elastic true table_net) as [E1 E2]; [intros y lam H; exact (table_solves true y lam H)|].
  intro E. rewrite E1, E2 in E. discriminate.
Qed.
