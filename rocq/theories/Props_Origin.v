(** C131: the zero points of the features, standardize=False (real numbers). *)
From Coq Require Import ZArith String List Bool Arith Lia Reals Lra.
From Verif Require Import Prelude Num Model_Fit Model_Refit Model_Rescale Model_Poisson Model_Linear Model_Estimation Model_Selection Model_CountFit Model_ClassFit
  Spec_Rescale Spec_Poisson Spec_Linear Spec_Estimation Spec_Units Spec_Choice Spec_CountFit Spec_ClassFit Spec_Origin
  Proofs_Estimation5 Proofs_Choice3 Proofs_Units4 Proofs_CountFit3 Proofs_Origin Proofs_Origin2 Proofs_Origin3 Proofs_Origin4.
From Verif Require Model_Labels Spec_Logistic.
Import ListNotations.
Local Open Scope R_scope.

(** UoI_Lasso: the same supports, the same coefficients, and the intercept that gives the
    same predictions. *)
Theorem C131_lasso : forall n p X (y d : list R), matrix n p X -> (0 < n)%nat -> (0 < p)%nat -> length y = n -> length d = p ->
  let X' := displaced d X in
  forall metric target eps num ts (net : solver_net (N := Rnum)) (ols : solver_ls (N := Rnum)) sel est,
    (forall sp (lam : R) (g : list R), In sp sel -> lasso_grid (N := Rnum) true p X y eps num = Ok g -> In lam g ->
       let yr := part_y y (fst sp) in let k := length (fst sp) in
       (forall i, In i (fst sp) -> (i < n)%nat) /\ clear_features true k p (samples X (fst sp)) yr lam 1 /\
       net_solution true k p (samples X (fst sp)) yr lam 1 (net (samples X (fst sp)) yr lam 1) /\
       net_solution true k p (samples X' (fst sp)) yr lam 1 (net (samples X' (fst sp)) yr lam 1)) ->
    let supports := lasso_select (N := Rnum) true p eps num net ts sel X y in
    (forall sp, In sp est -> (forall i, In i (fst sp) \/ In i (snd sp) -> (i < n)%nat) /\
       forall mask, In mask supports -> existsb (fun b => b) mask = true -> let k := count (fun b => b) mask in let yr := part_y y (fst sp) in
       only_least_squares true k (part X (fst sp) mask) yr (ols (part X (fst sp) mask) yr) /\ least_squares true k (part X' (fst sp) mask) yr (ols (part X' (fst sp) mask) yr)) ->
    lasso_select (N := Rnum) true p eps num net ts sel X' y = supports /\
    lasso_fit (N := Rnum) false true eps num ts metric target p net ols sel est X' y = rmap (moved_model d) (lasso_fit (N := Rnum) false true eps num ts metric target p net ols sel est X y).
Proof. exact lasso_displaced. Qed.
Print Assumptions C131_lasso.

Example C131_ex_lasso : forall u v : R, exists c b,
  lasso_fit (N := Rnum) false true (1 / 2) 2 [1%Z] "r2" 1 2 net_balanced ols_moved [half_split] [half_split] two_by_two y_noisy = Ok (c, b) /\
  lasso_fit (N := Rnum) false true (1 / 2) 2 [1%Z] "r2" 1 2 net_balanced ols_moved [half_split] [half_split] (displaced [u; v] two_by_two) y_noisy = Ok (c, b - offset [u; v] c).
Proof. exact lasso_origin_example. Qed.

(** UoI_ElasticNet. *)
Theorem C131_elastic : forall n p X (y d : list R), matrix n p X -> (0 < n)%nat -> (0 < p)%nat -> length y = n -> length d = p ->
  let X' := displaced d X in
  forall metric target eps num alphas ts (net : solver_net (N := Rnum)) (ols : solver_ls (N := Rnum)) sel est,
    (forall sp (lam mix : R) g, In sp sel -> elastic_reg_params (N := Rnum) true p X y eps num alphas = Ok g -> In (RegPair lam mix) g ->
       let yr := part_y y (fst sp) in let k := length (fst sp) in
       (forall i, In i (fst sp) -> (i < n)%nat) /\ clear_features true k p (samples X (fst sp)) yr lam mix /\
       net_solution true k p (samples X (fst sp)) yr lam mix (net (samples X (fst sp)) yr lam mix) /\
       net_solution true k p (samples X' (fst sp)) yr lam mix (net (samples X' (fst sp)) yr lam mix)) ->
    let supports := elastic_select (N := Rnum) true p eps num alphas net ts sel X y in
    (forall sp, In sp est -> (forall i, In i (fst sp) \/ In i (snd sp) -> (i < n)%nat) /\
       forall mask, In mask supports -> existsb (fun b => b) mask = true -> let k := count (fun b => b) mask in let yr := part_y y (fst sp) in
       only_least_squares true k (part X (fst sp) mask) yr (ols (part X (fst sp) mask) yr) /\ least_squares true k (part X' (fst sp) mask) yr (ols (part X' (fst sp) mask) yr)) ->
    elastic_select (N := Rnum) true p eps num alphas net ts sel X' y = supports /\
    elastic_fit (N := Rnum) false true eps num alphas ts metric target p net ols sel est X' y = rmap (moved_model d) (elastic_fit (N := Rnum) false true eps num alphas ts metric target p net ols sel est X y).
Proof. exact elastic_displaced. Qed.
Print Assumptions C131_elastic.

Example C131_ex_elastic : forall u v : R, exists c b,
  elastic_fit (N := Rnum) false true (1 / 2) 2 [1] [1%Z] "r2" 1 2 net_balanced ols_moved [half_split] [half_split] two_by_two y_noisy = Ok (c, b) /\
  elastic_fit (N := Rnum) false true (1 / 2) 2 [1] [1%Z] "r2" 1 2 net_balanced ols_moved [half_split] [half_split] (displaced [u; v] two_by_two) y_noisy = Ok (c, b - offset [u; v] c).
Proof. exact elastic_origin_example. Qed.

(** UoI_Poisson.  The information criteria count an intercept that is not 0 as a parameter, so
    for them the displacement must not make an intercept 0 or different from 0. *)
Theorem C131_poisson : forall n p X (y d : list R), matrix n p X -> (0 < n)%nat -> (0 < p)%nat -> length y = n -> length d = p ->
  let X' := displaced d X in
  forall metric target eps num alphas ts (sel_lm est_lm : solver_glm (N := Rnum)) sel est (w : list nat -> nat -> R),
  0 < average n y ->
    (forall sp (lam mix : R), In sp sel -> In (RegPair lam mix) (poisson_reg_params (N := Rnum) p X y eps num alphas) ->
       let yr := part_y y (fst sp) in let k := length (fst sp) in
       (forall i, In i (fst sp) -> (i < n)%nat) /\ clear_counts (w (fst sp)) k p (samples X (fst sp)) yr lam mix /\
       count_minimizer (w (fst sp)) k p (samples X (fst sp)) yr lam mix (sel_lm (samples X (fst sp)) yr lam mix) /\
       count_minimizer (w (fst sp)) k p (samples X' (fst sp)) yr lam mix (sel_lm (samples X' (fst sp)) yr lam mix)) ->
    let supports := count_select (N := Rnum) p eps num alphas sel_lm ts sel X y in
    (forall sp, In sp est -> (forall i, In i (fst sp) \/ In i (snd sp) -> (i < n)%nat) /\
       forall mask, In mask supports -> existsb (fun b => b) mask = true ->
       let k := count (fun b => b) mask in let yr := part_y y (fst sp) in let m := est_lm (part X (fst sp) mask) yr 0 1 in let m2 := est_lm (part X' (fst sp) mask) yr 0 1 in
       (exists w, only_minimizer w (length (fst sp)) k (part X (fst sp) mask) yr 0 1 m /\ count_minimizer w (length (fst sp)) k (part X' (fst sp) mask) yr 0 1 m2) /\
       (metric = "log"%string \/ (snd m = 0 <-> snd m2 = 0))) ->
    count_select (N := Rnum) p eps num alphas sel_lm ts sel X' y = supports /\
    count_fit (N := Rnum) false true eps num alphas ts metric target p sel_lm est_lm sel est X' y = rmap (moved_model d) (count_fit (N := Rnum) false true eps num alphas ts metric target p sel_lm est_lm sel est X y).
Proof. exact poisson_displaced. Qed.
Print Assumptions C131_poisson.

Example C131_ex_poisson : forall u v : R, exists c b,
  count_fit (N := Rnum) false true (1 / 2) 2 [1] [1%Z] "log" 1 2 crossed_moved crossed_moved [crossed_split] [crossed_split] crossed crossed_y = Ok (c, b) /\
  count_fit (N := Rnum) false true (1 / 2) 2 [1] [1%Z] "log" 1 2 crossed_moved crossed_moved [crossed_split] [crossed_split] (displaced [u; v] crossed) crossed_y = Ok (c, b - offset [u; v] c).
Proof. exact poisson_origin_example. Qed.

(** UoI_L1Logistic, two classes (finding): if the features lie within [M] of a point [o], and
    one coordinate of [o] is large compared to [M], then no feature is selected and all
    coefficients are 0, whatever the features say about the classes. *)
Theorem C131_logistic : forall metric target n p X (y : list Model_Labels.label) eps num clip ts (sel_lm : solver_C (N := Rnum)) (est_lm : solver_ml (N := Rnum)) (refit : refitter (N := Rnum)) sel est (o : list R) M j0,
  let z := Model_Labels.codes y in
  matrix n p X -> (0 < n)%nat -> length z = n -> Forall (fun v => (v < 2)%nat) z -> est <> [] ->
  Spec_Logistic.tiny <= Spec_Logistic.share z <= 1 - Spec_Logistic.tiny -> 0 < eps <= 1 ->
  (forall i j, (i < n)%nat -> (j < p)%nat -> Rabs (mat X i j - entry o j) <= M) -> (j0 < p)%nat ->
  M < eps * (Spec_Logistic.share z * (1 - Spec_Logistic.share z) * (Rabs (entry o j0) - M)) ->
  (forall sp, In sp sel -> (forall i, In i (fst sp) -> (i < n)%nat) /\
     (exists i, In i (fst sp) /\ nth i z 0%nat = 0%nat) /\ (exists i, In i (fst sp) /\ nth i z 0%nat = 1%nat)) ->
  (forall t, In t ts -> (0 < t)%Z) ->
  (forall sp Cs (C : R), In sp sel -> class_Cs (N := Rnum) true p eps num X z = Ok Cs -> In C Cs ->
     let Xr := samples X (fst sp) in let yr := part_y (map INR z) (fst sp) in
     class_minimizer (length (fst sp)) p Xr yr (/ C) (sel_lm Xr yr C)) ->
  (forall Cs mask, class_Cs (N := Rnum) true p eps num X z = Ok Cs -> In mask (class_select (N := Rnum) p sel_lm ts Cs sel X z) ->
     forall j, (j < p)%nat -> nth j mask false = false) /\
  forall c b, class_fit (N := Rnum) false true eps num ts clip metric target p sel_lm est_lm refit sel est X y = Ok (c, b) -> c = repeat 0 p.
Proof. exact logistic_far. Qed.
Print Assumptions C131_logistic.

(** The first feature is 1000 for the samples of class 0 and 1001 for those of class 1. *)
Example C131_ex_logistic : forall num clip metric (est_lm : solver_ml (N := Rnum)) (refit : refitter (N := Rnum)) c b,
  class_fit (N := Rnum) false true (1 / 100) num [1%Z] clip metric 1 2 clock_sel est_lm refit [clock_split] [clock_split] clock_X clock_y = Ok (c, b) -> c = [0; 0].
Proof. exact clock_example. Qed.
