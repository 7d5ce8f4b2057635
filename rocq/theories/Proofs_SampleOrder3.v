(** Proofs about the order of the samples (C130): the estimation of UoI_L1Logistic. *)
From Coq Require Import ZArith String List Bool Arith Lia Reals Lra Permutation Sorted.
From Verif Require Import Prelude F64 Num Model_Intersection Model_Fit Model_Scores Model_Refit Model_Rescale Model_Poisson Model_Linear Model_Estimation Model_Selection Model_CountFit Model_ClassFit
  Proofs_Intersection Spec_Rescale Proofs_Rescale Spec_Poisson Proofs_Poisson Spec_Linear Proofs_Linear
  Proofs_LinearUnits Spec_Estimation Proofs_Estimation Proofs_Estimation2 Proofs_Estimation3 Proofs_Totals Spec_Units Spec_Choice Spec_ClassFit Proofs_ClassFit Proofs_ClassFit2 Spec_SampleOrder Proofs_SampleOrder Proofs_SampleOrder2.
From Verif Require Model_Labels Proofs_Labels Model_Logistic Spec_Logistic Proofs_Logistic Proofs_LogisticGrid Proofs_ClassTotals Proofs_ClassChoice.
Import ListNotations.
Local Open Scope R_scope.

Section ClassModule.
  Variables (n : nat) (perm : list nat).
  Hypothesis HP : reorders n perm.
  Variables (p : nat) (y : list Model_Labels.label) (d : Model_Labels.label).
  Hypothesis Ly : length y = n.
  Notation y' := (reordered d perm y).
  Notation z := (Model_Labels.codes y).

  Lemma logistic_score_reordered clip metric target (pred' pred : list nat -> list nat) (prob' prob : list nat -> @Model_Labels.proba Rnum) mask sp : within n sp ->
    pred' (target_rows target sp) = pred (target_rows target (renamed perm sp)) ->
    prob' (target_rows target sp) = prob (target_rows target (renamed perm sp)) ->
    Model_Labels.logistic_score (N := Rnum) clip y' pred' prob' metric target mask sp = Model_Labels.logistic_score (N := Rnum) clip y pred prob metric target mask (renamed perm sp).
  Proof.
    intros H E1 E2. unfold Model_Labels.logistic_score, glm_score. rewrite (classes_reordered n perm HP y d Ly), (codes_reordered n perm HP y d Ly).
    pose proof (at_reordered n perm HP z (target_rows target sp) (target_within n target sp H)) as E3.
    rewrite <- (target_renamed perm target sp) in E3. rewrite E1, E2, E3.
    rewrite (target_renamed perm target sp). now rewrite map_length.
  Qed.

  Lemma estimate_class_reordered X (lm : solver_ml (N := Rnum)) clip metric target sp mask : within n sp ->
    estimate_class (N := Rnum) lm clip metric target p (reordered [] perm X) y' sp mask = estimate_class (N := Rnum) lm clip metric target p X y (renamed perm sp) mask.
  Proof.
    intro H. unfold estimate_class. rewrite (codes_reordered n perm HP y d Ly).
    assert (Hr : forall i, In i (fst sp) -> (i < n)%nat) by (intros i Hi; apply H; now left).
    pose proof (take_reordered n perm HP (numbers (N := Rnum) z) (fst sp) Hr) as E2. pose proof (rows_reordered n perm HP X (fst sp) Hr) as E1.
    pose proof (numbers_reordered n perm HP z (length_codes n y Ly)) as E0. pose proof (at_reordered n perm HP z (fst sp) Hr) as E4.
    change (fst (renamed perm sp)) with (map (fun i => nth i perm 0%nat) (fst sp)). rr. rewrite E0, E2, E1, E4.
    pose proof (rows_reordered n perm HP X (target_rows target sp) (target_within n target sp H)) as E3. rewrite <- (target_renamed perm target sp) in E3.
    destruct (existsb (fun b => b) mask).
    - f_equal. apply logistic_score_reordered; [exact H| |]; cbv beta; rr; now rewrite E3.
    - f_equal. apply logistic_score_reordered; [exact H| |]; cbv beta; rewrite target_renamed; now rewrite map_length.
  Qed.

  Lemma class_reordered standardize has X eps num ts clip metric target (sel_lm : solver_C (N := Rnum)) (est_lm : solver_ml (N := Rnum)) (refit : refitter (N := Rnum)) sel est :
    matrix n p X -> (0 < n)%nat -> (0 < p)%nat -> Forall (fun a => (a < 2)%nat) z ->
    (forall sp, In sp sel \/ In sp est -> within n sp) ->
    let Xs D := map (base_transform (N := Rnum) standardize has (fit_scaler (columns p D))) D in
    (has = true -> forall c, length c = p -> matching_intercept n p (Xs X) (map INR z) c (refit (Xs X) c z) /\
       matching_intercept n p (Xs (reordered [] perm X)) (map INR (Model_Labels.codes y')) c (refit (Xs (reordered [] perm X)) c (Model_Labels.codes y'))) ->
    (forall Cs, class_select (N := Rnum) p sel_lm ts Cs sel (Xs (reordered [] perm X)) (Model_Labels.codes y') = class_select (N := Rnum) p sel_lm ts Cs (map (renamed perm) sel) (Xs X) z) /\
    class_Cs (N := Rnum) has p eps num (Xs (reordered [] perm X)) (Model_Labels.codes y') = class_Cs (N := Rnum) has p eps num (Xs X) z /\
    class_fit (N := Rnum) standardize has eps num ts clip metric target p sel_lm est_lm refit sel est (reordered [] perm X) y' =
    class_fit (N := Rnum) standardize has eps num ts clip metric target p sel_lm est_lm refit (map (renamed perm) sel) (map (renamed perm) est) X y.
  Proof.
    intros HX Hn Hp Hb H Xs Hm. assert (LX : length X = n) by apply HX. pose proof (scaler_reordered n perm HP p X LX) as E1.
    assert (EX : Xs (reordered [] perm X) = reordered [] perm (Xs X)).
    { unfold Xs. rr. rewrite E1. symmetry. exact (reordered_map n perm HP (base_transform (N := Rnum) standardize has (fit_scaler (columns p X))) [] [] X LX). }
    assert (L : length (Xs X) = n) by (unfold Xs; now rewrite map_length).
    assert (MX : matrix n p (Xs X)) by (now apply Proofs_ClassChoice.transformed_matrix).
    pose proof (length_codes n y Ly) as Lz. pose proof (codes_reordered n perm HP y d Ly) as EZ.
    assert (ES : forall Cs, class_select (N := Rnum) p sel_lm ts Cs sel (Xs (reordered [] perm X)) (Model_Labels.codes y') = class_select (N := Rnum) p sel_lm ts Cs (map (renamed perm) sel) (Xs X) z).
    { intro Cs. rewrite EX, EZ. unfold class_select. pose proof (numbers_reordered n perm HP z Lz) as E0. rr. rewrite E0.
      apply (selection_reordered n perm HP). intros sp Hsp. apply H. now left. }
    assert (EC : class_Cs (N := Rnum) has p eps num (Xs (reordered [] perm X)) (Model_Labels.codes y') = class_Cs (N := Rnum) has p eps num (Xs X) z).
    { rewrite EX, EZ. now apply (Cs_reordered n perm HP p y Ly). }
    split; [exact ES|]. split; [exact EC|].
    assert (EI : forall c, length c = p -> class_intercept (N := Rnum) refit has (Xs (reordered [] perm X)) c (Model_Labels.codes y') = class_intercept (N := Rnum) refit has (Xs X) c z).
    { intros c Lc. unfold class_intercept. destruct has; [|reflexivity]. destruct (Hm eq_refl c Lc) as [M1 M2]. revert M2.
      rewrite EX, EZ. intro M2. apply (intercept_unique n p (Xs X) (map INR z) c); [exact Hn| |exact M1].
      apply (matching_reordered n perm HP p (Xs X)); [now rewrite map_length|].
      pose proof (reordered_map n perm HP INR 0%nat 0 z Lz) as E0. rewrite E0. exact M2. }
    unfold class_fit. fold (Xs X). fold (Xs (reordered [] perm X)). rewrite E1.
    assert (E3 : constant_response (N := Rnum) (numbers (N := Rnum) (Model_Labels.codes y')) = constant_response (N := Rnum) (numbers (N := Rnum) z)).
    { rewrite EZ. pose proof (numbers_reordered n perm HP z Lz) as E0. rr. rewrite E0. apply (constant_reordered n perm HP). unfold numbers. now rewrite map_length. }
    rewrite E3. clear E3. rewrite EI by (apply repeat_length). destruct (constant_response _); [reflexivity|]. f_equal. rewrite EC. clear EC.
    destruct (class_Cs _ _ _ _ _ _) as [Cs|e]; [|reflexivity]. cbn [bind]. rewrite ES. unfold class_module. rewrite mapM_map.
    match goal with |- bind (mapM ?f est) _ = bind (mapM ?g est) _ => assert (E : mapM f est = mapM g est) end.
    { apply mapM_ext_in. intros sp Hsp. f_equal. apply mapM_ext_in. intros mask _. rewrite EX. apply estimate_class_reordered. apply H. now right. }
    rr. rewrite E. destruct (mapM _ est) as [best|e]; [|reflexivity]. cbn [bind]. do 2 f_equal. apply EI. unfold bagged. now rewrite map_length, seq_length.
  Qed.
End ClassModule.

(** The linear regressors. *)
Lemma lasso_reordered : forall n perm p X (y : list R), reorders n perm -> length X = n -> length y = n ->
  forall standardize has eps num ts metric target (net : solver_net (N := Rnum)) (ols : solver_ls (N := Rnum)) sel est,
  (forall sp, In sp sel \/ In sp est -> within n sp) ->
  let X' := reordered [] perm X in let y' := reordered 0 perm y in
  let D := linear_pre (N := Rnum) standardize has p X y in let D' := linear_pre (N := Rnum) standardize has p X' y' in
  lasso_select (N := Rnum) has p eps num net ts sel (fst D') (snd D') = lasso_select (N := Rnum) has p eps num net ts (map (renamed perm) sel) (fst D) (snd D) /\
  lasso_fit (N := Rnum) standardize has eps num ts metric target p net ols sel est X' y' =
  lasso_fit (N := Rnum) standardize has eps num ts metric target p net ols (map (renamed perm) sel) (map (renamed perm) est) X y.
Proof.
  intros n perm p X y HP LX Ly standardize has eps num ts metric target net ols sel est H X' y' D D'. split.
  - pose proof (pre_reordered n perm HP p X y LX Ly standardize has) as EP. unfold D', X', y'. rr. rewrite EP. cbn [fst snd]. destruct (pre_lengths n p X y LX Ly standardize has) as [L1 L2].
    apply (lasso_select_reordered n perm HP); [exact L1|exact L2|]. intros sp Hsp. apply H. now left.
  - apply (regressor_reordered n perm HP p X y LX Ly); [|intros sp Hsp; apply H; now right].
    intros D0 dy L1 L2. apply (lasso_select_reordered n perm HP); [exact L1|exact L2|]. intros sp Hsp. apply H. now left.
Qed.
Lemma elastic_reordered : forall n perm p X (y : list R), reorders n perm -> length X = n -> length y = n ->
  forall standardize has eps num alphas ts metric target (net : solver_net (N := Rnum)) (ols : solver_ls (N := Rnum)) sel est,
  (forall sp, In sp sel \/ In sp est -> within n sp) ->
  let X' := reordered [] perm X in let y' := reordered 0 perm y in
  let D := linear_pre (N := Rnum) standardize has p X y in let D' := linear_pre (N := Rnum) standardize has p X' y' in
  elastic_select (N := Rnum) has p eps num alphas net ts sel (fst D') (snd D') = elastic_select (N := Rnum) has p eps num alphas net ts (map (renamed perm) sel) (fst D) (snd D) /\
  elastic_fit (N := Rnum) standardize has eps num alphas ts metric target p net ols sel est X' y' =
  elastic_fit (N := Rnum) standardize has eps num alphas ts metric target p net ols (map (renamed perm) sel) (map (renamed perm) est) X y.
Proof.
  intros n perm p X y HP LX Ly standardize has eps num alphas ts metric target net ols sel est H X' y' D D'. split.
  - pose proof (pre_reordered n perm HP p X y LX Ly standardize has) as EP. unfold D', X', y'. rr. rewrite EP. cbn [fst snd]. destruct (pre_lengths n p X y LX Ly standardize has) as [L1 L2].
    apply (elastic_select_reordered n perm HP); [exact L1|exact L2|]. intros sp Hsp. apply H. now left.
  - apply (regressor_reordered n perm HP p X y LX Ly); [|intros sp Hsp; apply H; now right].
    intros D0 dy L1 L2. apply (elastic_select_reordered n perm HP); [exact L1|exact L2|]. intros sp Hsp. apply H. now left.
Qed.
