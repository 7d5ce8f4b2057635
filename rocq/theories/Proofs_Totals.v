(** Proofs about the totals of the predictions on the training data (C126). *)
From Coq Require Import ZArith String List Bool Arith Lia Reals Lra Psatz.
From Verif Require Import Prelude F64 Num Model_Intersection Model_Fit Model_Scores Model_Refit Model_Rescale Model_Poisson Model_Linear Model_Estimation Model_Selection Model_CountFit
  Proofs_Intersection Spec_Rescale Proofs_Rescale Spec_Poisson Proofs_Poisson Proofs_PoissonOpt Spec_Linear Proofs_Linear
  Proofs_LinearUnits Spec_Estimation Proofs_Estimation Proofs_Estimation2 Proofs_Estimation3 Proofs_CountFit2.
Import ListNotations.
Local Open Scope R_scope.

Lemma ok_inj {A} (a b : A) : Ok a = Ok b -> a = b.
Proof. intro E. now injection E. Qed.
Lemma eta_value p X c b i : eta p X c b i = value p c b (nth i X []).
Proof. unfold eta, value. rewrite Rplus_comm. f_equal. apply Sum_ext. intros j _. unfold mat. apply Rmult_comm. Qed.

Section Totals.
  Variables (n p : nat) (X : list (list R)) (y : list R).
  Hypothesis HX : matrix n p X.
  Hypothesis Hn : (0 < n)%nat.
  Hypothesis Ly : length y = n.

  Lemma eta_std has c b i : (i < n)%nat ->
    eta p (fst (linear_pre (N := Rnum) true has p X y)) c b i = std_value p has (means n p X) (scales n p X) c b (nth i X []).
  Proof.
    intro Hi. unfold eta, std_value. rewrite Rplus_comm. f_equal. apply Sum_ext. intros j Hj.
    rewrite (pre_X has n p X y HX Hn i j Hi Hj), Rmult_comm, (entry_scales n p X j Hj), (entry_means n p X j Hj). reflexivity.
  Qed.

  Lemma estimation_length ols metric target has D d supports splits (r : list R * R) :
    estimation_module (N := Rnum) ols metric target p has D d supports splits = Ok r -> length (fst r) = p /\ snd r = linear_intercept (N := Rnum) has p D d (fst r).
  Proof.
    unfold estimation_module. destruct (mapM _ splits) as [best|e]; [|discriminate]. cbn [bind]. intro E. injection E as <-. cbn [fst snd].
    split; [|reflexivity]. unfold bagged. now rewrite map_length, seq_length.
  Qed.
  Lemma residuals standardize metric target (ols : solver_ls (N := Rnum)) select est c b :
    regressor_fit (N := Rnum) standardize true metric target p ols select est X y = Ok (c, b) ->
    length c = p /\ Sum n (fun i => entry y i - eta p X c b i) = 0.
  Proof.
    unfold regressor_fit. set (D := linear_pre (N := Rnum) standardize true p X y).
    match goal with |- context [bind ?q _] => assert (H : forall r, q = Ok r -> length (fst r) = p /\ snd r = linear_intercept (N := Rnum) true p (fst D) (snd D) (fst r)); [|destruct q as [r|e] eqn:Eq; [|discriminate]] end.
    { intros r. destruct (constant_response (snd D)).
      - intro E. injection E as <-. cbn [fst snd]. split; [apply repeat_length|reflexivity].
      - intro E. exact (estimation_length _ _ _ _ _ _ _ _ r E). }
    destruct (H r eq_refl) as [L S]. clear H Eq. cbn [bind]. intro E. apply ok_inj in E. destruct r as [c0 b0]. cbn [fst snd] in *.
    destruct standardize.
    - assert (HD : matrix n p (fst D)) by exact (pre_matrix true n p X y HX). assert (LD : length (snd D) = n) by exact (pre_length true n p X y Ly).
      pose proof (linear_residual n p (fst D) (snd D) c0 HD Hn LD L) as R. rewrite <- S in R.
      rewrite (scaler_value n p X HX) in E. set (r := linear_post (N := Rnum) true true _ _ _ c0 b0) in E.
      assert (Lc : length (fst r) = p).
      { unfold r, linear_post, base_post. cbn [fst scale_]. rewrite map_length, map2_length, length_scales. rr. rewrite L. apply Nat.min_id. }
      rewrite E in Lc. cbn [fst] in Lc. split; [exact Lc|].
      assert (K : forall i, (i < n)%nat -> entry y i - eta p X c b i = (entry (snd D) i - eta p (fst D) c0 b0 i) * column_scale (N := Rnum) y).
      { intros i Hi. rewrite eta_value. unfold D. rewrite (eta_std true c0 b0 i Hi), (pre_y true n p X y Ly i Hi).
        pose proof (linear_rescaled p (means n p X) (scales n p X) c0 (nth i X []) b0 (length_means n p X) (scales_good n p X Hn) L (row_length n p X i HX Hi) true (nmean (N := Rnum) y) (column_scale (N := Rnum) y) ltac:(discriminate)) as V.
        cbv zeta in V. fold r in V. rewrite E in V. cbn [fst snd] in V. rewrite V.
        pose proof (scale_pos n y Hn Ly) as P. rewrite (mean_n n y Ly : nmean (N := Rnum) y = _). fold (average n y). rr. field. lra. }
      rewrite (Sum_ext n _ _ K), Sum_scal_r, R. ring.
    - cbn [linear_post base_post] in E. unfold linear_post, base_post in E. cbn [fst snd] in E. injection E as <- <-. split; [exact L|].
      assert (ED : D = (X, y)) by (unfold D, linear_pre, base_transform; now rewrite map_id). rewrite S, ED. exact (linear_residual n p X y c0 HX Hn Ly L).
  Qed.

  Lemma module_intercept est_lm metric target has D d supports splits (r : list R * R) :
    count_module (N := Rnum) est_lm metric target p has D d supports splits = Ok r -> length (fst r) = p /\ snd r = uoi_poisson_intercept (N := Rnum) has D d (fst r).
  Proof.
    unfold count_module. destruct (mapM _ splits) as [best|e]; [|discriminate]. cbn [bind]. intro E. injection E as <-. cbn [fst snd].
    split; [|reflexivity]. unfold bagged. now rewrite map_length, seq_length.
  Qed.
  Lemma count_total standardize eps num alphas ts metric target (sel_lm est_lm : solver_glm (N := Rnum)) sel est c b :
    0 < Sum n (fun i => entry y i) ->
    count_fit (N := Rnum) standardize true eps num alphas ts metric target p sel_lm est_lm sel est X y = Ok (c, b) ->
    length c = p /\ Sum n (fun i => exp (eta p X c b i)) = Sum n (fun i => entry y i).
  Proof.
    intro Hy. unfold count_fit. set (Xs := map (centering_transform (N := Rnum) standardize (fit_scaler (columns p X))) X).
    match goal with |- context [bind ?q _] => assert (H : forall r, q = Ok r -> length (fst r) = p /\ snd r = uoi_poisson_intercept (N := Rnum) true Xs y (fst r)); [|destruct q as [r|e] eqn:Eq; [|discriminate]] end.
    { intros r. destruct (constant_response y).
      - intro E. injection E as <-. cbn [fst snd]. split; [apply repeat_length|reflexivity].
      - intro E. exact (module_intercept _ _ _ _ _ _ _ _ r E). }
    destruct (H r eq_refl) as [L S]. clear H Eq. cbn [bind]. intro E. apply ok_inj in E. destruct r as [c0 b0]. cbn [fst snd] in *.
    assert (HD : matrix n p Xs) by exact (centered_matrix standardize n p X y HX Hn Ly).
    pose proof (poisson_intercept_total n p Xs y c0 HD Hn Ly L Hy) as T. rewrite <- S in T.
    destruct standardize.
    - rr. rewrite (scaler_value n p X HX) in E. set (r := poisson_post (N := Rnum) true true (mkScaler (means n p X) (scales n p X)) c0 b0) in E.
      assert (Lc : length (fst r) = p).
      { unfold r, poisson_post. cbn [fst scale_]. rewrite map2_length, length_scales. rr. rewrite L. apply Nat.min_id. }
      rewrite E in Lc. cbn [fst] in Lc. split; [exact Lc|]. rewrite <- T. apply Sum_ext. intros i Hi. f_equal.
      rewrite eta_value. assert (EX : Xs = fst (linear_pre (N := Rnum) true true p X y)) by reflexivity. rewrite EX, (eta_std true c0 b0 i Hi).
      pose proof (poisson_rescaled p (means n p X) (scales n p X) c0 (nth i X []) b0 (length_means n p X) (scales_good n p X Hn) L (row_length n p X i HX Hi) true) as V.
      cbv zeta in V. fold r in V. rewrite E in V. cbn [fst snd] in V. rewrite V. ring.
    - unfold poisson_post in E. injection E as <- <-. split; [exact L|]. rewrite <- T. unfold Xs, centering_transform. now rewrite map_id.
  Qed.
End Totals.
