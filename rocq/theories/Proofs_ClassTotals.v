(** Proofs about the totals of the probabilities of UoI_L1Logistic (C126) and about responses
    with a single class (C129). *)
From Coq Require Import ZArith String List Bool Arith Lia Reals Lra Psatz.
From Verif Require Import Prelude F64 Num Model_Intersection Model_Fit Model_Scores Model_Refit Model_Rescale Model_Poisson Model_Linear Model_Estimation Model_Selection Model_ClassFit
  Proofs_Intersection Spec_Rescale Proofs_Rescale Spec_Poisson Proofs_Poisson Spec_Linear Proofs_Linear
  Proofs_LinearUnits Spec_Estimation Proofs_Estimation Proofs_Estimation2 Proofs_Estimation3 Spec_Choice Proofs_Choice Spec_Units Proofs_Units2 Proofs_CountFit2 Proofs_CountFit4 Proofs_Totals Spec_ClassFit Proofs_ClassFit Proofs_ClassFit2 Proofs_ClassFit4 Spec_ClassChoice Proofs_ClassChoice Proofs_ClassChoice2.
From Verif Require Model_Labels Model_Logistic Proofs_LogisticGrid.
Import ListNotations.
Local Open Scope R_scope.

(** How far the intercept is off: what moving the means of the features into it the wrong way
    adds. *)
Section Totals.
  Variables (n p : nat) (X : list (list R)) (y : list Model_Labels.label).
  Notation z := (Model_Labels.codes y).
  Hypothesis HX : matrix n p X.
  Hypothesis Hn : (0 < n)%nat.
  Hypothesis Lz : length z = n.

  Lemma module_refit est_lm refit clip metric target has D supports splits (r : list R * R) :
    class_module (N := Rnum) est_lm refit clip metric target p has D y supports splits = Ok r -> length (fst r) = p /\ snd r = class_intercept (N := Rnum) refit has D (fst r) z.
  Proof.
    unfold class_module. destruct (mapM _ splits) as [best|e]; [|discriminate]. cbn [bind]. intro E. injection E as <-. cbn [fst snd].
    split; [|reflexivity]. unfold bagged. now rewrite map_length, seq_length.
  Qed.
  Lemma fit_refit standardize has eps num ts clip metric target (sel_lm : solver_C (N := Rnum)) (est_lm : solver_ml (N := Rnum)) (refit : refitter (N := Rnum)) sel est c b :
    class_fit (N := Rnum) standardize has eps num ts clip metric target p sel_lm est_lm refit sel est X y = Ok (c, b) ->
    let Xs := map (base_transform (N := Rnum) standardize has (fit_scaler (columns p X))) X in
    exists c0, length c0 = p /\ (c, b) = glm_post (N := Rnum) standardize has (fit_scaler (columns p X)) c0 (class_intercept (N := Rnum) refit has Xs c0 z).
  Proof.
    intros E0 Xs. revert E0. unfold class_fit. fold Xs.
    match goal with |- context [bind ?q _] => assert (H : forall r, q = Ok r -> length (fst r) = p /\ snd r = class_intercept (N := Rnum) refit has Xs (fst r) z); [|destruct q as [r|e] eqn:Eq; [|discriminate]] end.
    { intros r. destruct (constant_response _).
      - intro E. apply ok_inj in E. rewrite <- E. cbn [fst snd]. split; [apply repeat_length|reflexivity].
      - destruct (class_Cs _ _ _ _ _ _) as [Cs|e]; [|discriminate]. cbn [bind]. intro E. exact (module_refit _ _ _ _ _ _ _ _ _ r E). }
    destruct (H r eq_refl) as [L S]. clear H Eq. cbn [bind]. intro E. apply ok_inj in E.
    exists (fst r). split; [exact L|]. rewrite <- S. symmetry. exact E.
  Qed.

  Lemma no_intercept standardize eps num ts clip metric target (sel_lm : solver_C (N := Rnum)) (est_lm : solver_ml (N := Rnum)) (refit : refitter (N := Rnum)) sel est c b :
    class_fit (N := Rnum) standardize false eps num ts clip metric target p sel_lm est_lm refit sel est X y = Ok (c, b) -> b = 0.
  Proof.
    intro E. destruct (fit_refit _ _ _ _ _ _ _ _ _ _ _ _ _ _ _ E) as (c0 & _ & Q). unfold glm_post in Q. rewrite andb_false_r in Q. apply (f_equal snd) in Q. exact Q.
  Qed.

  Lemma class_total standardize eps num ts clip metric target (sel_lm : solver_C (N := Rnum)) (est_lm : solver_ml (N := Rnum)) (refit : refitter (N := Rnum)) sel est c b :
    let Xs := map (base_transform (N := Rnum) standardize true (fit_scaler (columns p X))) X in
    (forall c0, length c0 = p -> matching_intercept n p Xs (map INR z) c0 (refit Xs c0 z)) ->
    class_fit (N := Rnum) standardize true eps num ts clip metric target p sel_lm est_lm refit sel est X y = Ok (c, b) ->
    let d := if standardize then Sum p (fun j => average n (col n X j) * entry c j * (column_scale (N := Rnum) (col n X j) + 1)) else 0 in
    length c = p /\ matching_intercept n p X (map INR z) c (b - d) /\ (matching_intercept n p X (map INR z) c b <-> d = 0).
  Proof.
    intros Xs Hr E d. destruct (fit_refit _ _ _ _ _ _ _ _ _ _ _ _ _ _ _ E) as (c0 & L & Q). fold Xs in Q. unfold class_intercept in Q. specialize (Hr c0 L).
    assert (K : length c = p /\ matching_intercept n p X (map INR z) c (b - d)).
    { revert Hr Q. generalize (refit Xs c0 z : R). intros b0 Hr Q. destruct standardize.
      - rewrite (scaler_value n p X HX) in Q. set (r := glm_post (N := Rnum) true true (mkScaler (means n p X) (scales n p X)) c0 b0) in Q.
        assert (Lc : length (fst r) = p).
        { unfold r, glm_post, base_post. cbn [fst scale_]. rewrite map2_length, length_scales. rr. rewrite L. apply Nat.min_id. }
        pose proof (f_equal fst Q) as Q1. pose proof (f_equal snd Q) as Q2. cbn [fst snd] in Q1, Q2.
        split; [now rewrite Q1|].
        assert (Ed : d = Sum p (fun j => entry (means n p X) j * entry c0 j * (1 + / entry (scales n p X) j))).
        { unfold d. apply Sum_ext. intros j Hj. rewrite Q1, (entry_means n p X j Hj), (entry_scales n p X j Hj).
          assert (Ej : entry (fst r) j = entry c0 j / column_scale (N := Rnum) (col n X j)).
          { unfold r, glm_post, base_post. cbn [fst scale_]. pose proof (entry_map2n Rdiv p c0 (scales n p X) j L (length_scales n p X) Hj) as E'. rewrite entry_scales in E' by exact Hj. exact E'. }
          rewrite Ej. pose proof (scale_pos n (col n X j) Hn (length_col n X j)) as P. rr. field. lra. }
        unfold matching_intercept in *. rewrite <- Hr. apply Sum_ext. intros i Hi. do 4 f_equal.
        assert (EX : Xs = fst (linear_pre (N := Rnum) true true p X (map INR z))) by reflexivity. rewrite EX.
        rewrite (eta_std n p X (map INR z) HX Hn true c0 b0 i Hi).
        pose proof (glm_rescaled p (means n p X) (scales n p X) c0 (nth i X []) b0 (length_means n p X) (scales_good n p X Hn) L (row_length n p X i HX Hi) true) as V.
        cbv zeta in V. fold r in V. cbv iota in V. rewrite <- Q1, <- Q2, <- Ed in V.
        rewrite eta_value. unfold value in *. lra.
      - unfold glm_post, base_post in Q. cbn [andb] in Q. pose proof (f_equal fst Q) as Q1. pose proof (f_equal snd Q) as Q2. cbn [fst snd] in Q1, Q2.
        split; [now rewrite Q1|]. unfold d. rewrite Rminus_0_r, Q1, Q2. unfold Xs, base_transform in Hr. rewrite map_id in Hr. exact Hr. }
    destruct K as [K1 K2]. split; [exact K1|]. split; [exact K2|]. split; intro H.
    - pose proof (intercept_unique n p X (map INR z) c b (b - d) Hn H K2). lra.
    - rewrite H, Rminus_0_r in K2. exact K2.
  Qed.

  Lemma one_class v standardize has eps num ts clip metric target (sel_lm : solver_C (N := Rnum)) (est_lm : solver_ml (N := Rnum)) (refit : refitter (N := Rnum)) sel est :
    (forall i, (i < n)%nat -> nth i z 0%nat = v) ->
    exists b, class_fit (N := Rnum) standardize has eps num ts clip metric target p sel_lm est_lm refit sel est X y = Ok (repeat 0 p, b).
  Proof.
    intro H. assert (C : constant_response (N := Rnum) (numbers z) = true).
    { rewrite numbers_R. assert (Lw : length (map INR z) = n) by (now rewrite map_length). apply (constant_spec (map INR z)); [rewrite Lw; exact Hn|]. exists (INR v). intros i Hi. rewrite Lw in Hi.
      unfold entry. rewrite (nth_indep _ 0 (INR 0)) by (rewrite Lw; exact Hi). rewrite map_nth. f_equal. now apply H. }
    unfold class_fit. rr. rewrite C. cbn [bind fst snd].
    assert (Z : base_post (N := Rnum) standardize (fit_scaler (columns p X)) (repeat 0 p) = repeat 0 p).
    { unfold base_post. destruct standardize; [|reflexivity]. rewrite (scaler_value n p X HX). cbn [scale_].
      assert (F : forall q s, length s = q -> map2 Rdiv (repeat 0 q) s = repeat 0 q).
      { induction q as [|q IH]; intros [|a s] L; try reflexivity; try discriminate. cbn [repeat map2]. f_equal; [unfold Rdiv; ring|apply IH; now injection L]. }
      exact (F p (scales n p X) (length_scales n p X)). }
    unfold glm_post. change (nzero (N := Rnum)) with 0 in *. rr. rewrite Z. eexists. reflexivity.
  Qed.
End Totals.

(** ** Two samples and two features, standardized *)
Definition far_X : list (list R) := [[1; 1]; [3; -1]].
Definition far_y : list Model_Labels.label := [Model_Labels.LInt 0; Model_Labels.LInt 1].
Definition far_split : list nat * list nat := ([0; 1]%nat, [0; 1]%nat).
Definition far_sel : solver_C (N := Rnum) := fun _ _ _ => ([1; 0], 0).
Definition far_est : solver_ml (N := Rnum) := fun _ _ => ([1], 0).
Lemma far_select C Xs z : class_select (N := Rnum) 2 far_sel [1%Z] [C] [far_split] Xs z = [[true; false]].
Proof.
  unfold class_select, far_sel, selection_module, stable_rows, selection_sweep. cbn [flat_map app map length seq nth apply_params count fst far_split].
  rewrite (nonzero_pos 1 ltac:(lra)), zero_nonzero. reflexivity.
Qed.

Lemma far_fit clip : exists c b,
  class_fit (N := Rnum) true true (1 / 2) 1 [1%Z] clip "acc"%string 0 2 far_sel far_est (exact_refit 2) [far_split] [far_split] far_X far_y = Ok (c, b) /\
  ~ matching_intercept 2 2 far_X (map INR (Model_Labels.codes far_y)) c b.
Proof.
  assert (HX : matrix 2 2 far_X) by (split; [reflexivity|repeat constructor]).
  assert (Lz : length (Model_Labels.codes far_y) = 2%nat) by reflexivity.
  assert (Hz : Forall (fun v => (v < 2)%nat) (Model_Labels.codes far_y)) by (repeat constructor).
  set (Xs := map (base_transform (N := Rnum) true true (fit_scaler (columns 2 far_X))) far_X).
  pose proof (transformed_matrix true true 2 2 far_X HX) as HXs. fold Xs in HXs.
  destruct (Proofs_LogisticGrid.alpha_max_binary 2 2 Xs (Model_Labels.codes far_y) HXs ltac:(lia) Lz Hz ltac:(lia)) as (A & EA & _).
  assert (EC : exists C, class_Cs (N := Rnum) true 2 (1 / 2) 1 Xs (Model_Labels.codes far_y) = Ok [C]) by (unfold class_Cs; rewrite EA; eexists; reflexivity).
  destruct EC as [C EC].
  destruct (class_choice true true 2 2 far_X far_y (1 / 2) 1 [C] [1%Z] clip "acc"%string 0 far_sel far_est (exact_refit 2) [far_split] [far_split]) as (best & c & b & E & F & Lc & M).
  - exact HX.
  - exact Lz.
  - exact Hz.
  - cbn. tauto.
  - cbn. tauto.
  - now left.
  - intro Q. now destruct Q.
  - discriminate.
  - discriminate.
  - discriminate.
  - exact EC.
  - intros sp [<-|[]]. split; [intros i Hi; cbn in Hi; lia|]. split; [discriminate|]. split; [intros i Hi; cbn in Hi; lia|]. split; [discriminate|].
    fold Xs. pose proof (far_select C Xs (Model_Labels.codes far_y)) as S0. rr. rewrite S0. intros mask [<-|[]] _. reflexivity.
  - exists c, b. split; [exact E|].
    destruct (class_total 2 2 far_X far_y HX ltac:(lia) true (1 / 2) 1 [1%Z] clip "acc"%string 0 far_sel far_est (exact_refit 2) [far_split] [far_split] c b) as (_ & _ & H).
    + intros c0 L0. apply exact_matches; [reflexivity|lia|]. unfold Sum, entry. cbn [seq map fold_right nth INR Model_Labels.codes far_y]. cbn. lra.
    + exact E.
    + intro K. apply (proj1 H) in K. clear H E.
      inversion F as [|sp e l l' (before & mask & after & Es & Ee & _) F' E1 E2]; subst. inversion F'; subst.
      fold Xs in Es. pose proof (far_select C Xs (Model_Labels.codes far_y)) as S0.
      assert (Em : mask = [true; false]).
      { assert (I : In mask [[true; false]]) by (rewrite <- S0; refine (eq_ind_r (In mask) _ Es); apply in_app_iff; right; now left). destruct I as [I|[]]. now symmetry. }
      rewrite Em in Ee. destruct Ee as (Le & Z & V). specialize (V eq_refl). cbn in V. assert (V0 : entry e 0 = 1) by congruence.
      assert (V1 : entry e 1 = 0) by exact (Z 1%nat eq_refl).
      assert (Md : forall j, (j < 2)%nat -> entry c j * column_scale (N := Rnum) (col 2 far_X j) = entry e j).
      { intros j Hj. pose proof (M j Hj) as Mj. cbn [map] in Mj. refine (median_unique _ _ _ Mj _). exists [entry e j]. split; [apply Permutation.Permutation_refl|]. split; [repeat constructor|]. reflexivity. }
      pose proof (Md 0%nat ltac:(lia)) as M0. pose proof (Md 1%nat ltac:(lia)) as M1. rewrite V0 in M0. rewrite V1 in M1.
      pose proof (scale_pos 2 (col 2 far_X 0) ltac:(lia) (length_col 2 far_X 0)) as P0. pose proof (scale_pos 2 (col 2 far_X 1) ltac:(lia) (length_col 2 far_X 1)) as P1.
      assert (A0 : average 2 (col 2 far_X 0) = 2) by (unfold average, col, Sum, mat, entry, far_X; cbn [seq map fold_right nth INR]; field).
      assert (C1 : entry c 1 = 0) by (apply Rmult_integral in M1; destruct M1 as [M1|M1]; [exact M1|rr; rewrite M1 in P1; lra]).
      assert (C0 : 0 < entry c 0) by (apply (Rmult_lt_reg_r (column_scale (N := Rnum) (col 2 far_X 0))); [exact P0|rr; rewrite M0; lra]).
      unfold Sum in K. cbn [seq map fold_right] in K. rewrite A0, C1 in K. revert K P0. generalize (column_scale (N := Rnum) (col 2 far_X 0) : R). intros s K P0.
      assert (0 < 2 * entry c 0 * (s + 1)) by (repeat apply Rmult_lt_0_compat; lra). rr. lra.
Qed.
