(** Proofs about the order of the samples (C130): UoI_Poisson and UoI_L1Logistic. *)
From Coq Require Import ZArith String List Bool Arith Lia Reals Lra Permutation Sorted.
From Verif Require Import Prelude F64 Num Model_Intersection Model_Fit Model_Scores Model_Refit Model_Rescale Model_Poisson Model_Linear Model_Estimation Model_Selection Model_CountFit Model_ClassFit
  Proofs_Intersection Spec_Rescale Proofs_Rescale Spec_Poisson Proofs_Poisson Spec_Linear Proofs_Linear
  Proofs_LinearUnits Spec_Estimation Proofs_Estimation Proofs_Estimation2 Proofs_Estimation3 Proofs_Totals Spec_Units Spec_Choice Spec_ClassFit Proofs_ClassFit Proofs_ClassFit2 Spec_SampleOrder Proofs_SampleOrder.
From Verif Require Model_Labels Proofs_Labels Model_Logistic Spec_Logistic Proofs_Logistic Proofs_LogisticGrid Proofs_ClassTotals Proofs_ClassChoice.
Import ListNotations.
Local Open Scope R_scope.

Lemma nany_perm (l l' : list R) : Permutation l l' -> nany (N := Rnum) l = nany (N := Rnum) l'.
Proof.
  unfold nany. induction 1 as [|x l l' _ IH|x u l|l l' l'' _ IH1 _ IH2]; [reflexivity| | |].
  - cbn [existsb]. rr. now rewrite IH.
  - cbn [existsb]. rewrite !orb_assoc. f_equal. apply orb_comm.
  - rr. now rewrite IH1.
Qed.

Section CountOrder.
  Variables (n : nat) (perm : list nat).
  Hypothesis HP : reorders n perm.
  Variables (p : nat) (y : list R).
  Hypothesis Ly : length y = n.
  Notation y' := (reordered 0 perm y).

  Lemma poisson_intercept_reordered has X c : length X = n -> uoi_poisson_intercept (N := Rnum) has (reordered [] perm X) y' c = uoi_poisson_intercept (N := Rnum) has X y c.
  Proof.
    intro LX. unfold uoi_poisson_intercept. destruct has; [|reflexivity].
    assert (E : nmean (N := Rnum) (map (nexp (n := Rnum)) (matvec (N := Rnum) (reordered [] perm X) c)) = nmean (N := Rnum) (map (nexp (n := Rnum)) (matvec (N := Rnum) X c))).
    { apply nmean_perm. unfold matvec. rewrite !map_map. apply Permutation_map. exact (reordered_perm n perm HP [] X LX). }
    pose proof (nany_perm _ _ (reordered_perm n perm HP 0 y Ly)) as E2. pose proof (mean_reordered n perm HP y Ly) as E3. rr. now rewrite E, E2, E3.
  Qed.
  Lemma poisson_params_reordered X eps num alphas : length X = n -> poisson_reg_params (N := Rnum) p (reordered [] perm X) y' eps num alphas = poisson_reg_params (N := Rnum) p X y eps num alphas.
  Proof.
    intro LX. unfold poisson_reg_params. f_equal. apply map_ext. intro a. unfold poisson_grid.
    assert (E : poisson_lambda_max (N := Rnum) p (reordered [] perm X) y' a = poisson_lambda_max (N := Rnum) p X y a); [|rr; now rewrite E].
    unfold poisson_lambda_max. pose proof (mean_reordered n perm HP y Ly) as E3. rr. rewrite E3.
    pose proof (reordered_map n perm HP (fun v : R => v - nmean (N := Rnum) y) 0 0 y Ly) as E4.
    assert (L : length (map (fun v : R => v - nmean (N := Rnum) y) y) = n) by (now rewrite map_length).
    pose proof (tmatvec_reordered n perm HP p X LX (map (fun v : R => v - nmean (N := Rnum) y) y) L) as E5. rewrite E4 in E5.
    rewrite (reordered_length n perm HP). rr. rewrite LX. f_equal. f_equal. f_equal. exact E5.
  Qed.
  Lemma poisson_score_reordered metric target (pred' pred : list nat -> result (list R)) b mask sp : within n sp ->
    pred' (target_rows target sp) = pred (target_rows target (renamed perm sp)) ->
    poisson_score (N := Rnum) metric target y' pred' b mask sp = poisson_score (N := Rnum) metric target y pred b mask (renamed perm sp).
  Proof.
    intros H E. unfold poisson_score. rr. rewrite E. rewrite target_renamed.
    pose proof (take_reordered n perm HP y (target_rows target sp) (target_within n target sp H)) as E2. rr. rewrite E2. reflexivity.
  Qed.
  Lemma estimate_count_reordered X lm metric target sp mask : within n sp ->
    estimate_count (N := Rnum) lm metric target p (reordered [] perm X) y' sp mask = estimate_count (N := Rnum) lm metric target p X y (renamed perm sp) mask.
  Proof.
    intro H. unfold estimate_count. cbn [fst].
    assert (Hr : forall i, In i (fst sp) -> (i < n)%nat) by (intros i Hi; apply H; now left).
    pose proof (take_reordered n perm HP y (fst sp) Hr) as E2. pose proof (rows_reordered n perm HP X (fst sp) Hr) as E1.
    change (fst (renamed perm sp)) with (map (fun i => nth i perm 0%nat) (fst sp)). rr. rewrite E2, E1.
    destruct (existsb (fun b => b) mask).
    - set (m := lm _ _ _ _).
      rewrite (poisson_score_reordered metric target _ (fun rows => predict_mean (N := Rnum) (mkPoisson (Some (fst m)) (Some (snd m))) (masked_columns (N := Rnum) mask (matrix_rows (N := Rnum) X rows))) (snd m) mask sp H); [reflexivity|].
      rewrite target_renamed. pose proof (rows_reordered n perm HP X (target_rows target sp) (target_within n target sp H)) as E3. rr. now rewrite E3.
    - rewrite (poisson_score_reordered metric target _ (fun rows => Ok (repeat (nexp (n := Rnum) (no_features_intercept (N := Rnum) (take_rows (N := Rnum) y (map (fun i => nth i perm 0%nat) (fst sp))))) (length rows))) _ (repeat false p) sp H); [reflexivity|].
      rewrite target_renamed. now rewrite map_length.
  Qed.
  Lemma count_reordered standardize has X eps num alphas ts metric target sel_lm est_lm sel est : length X = n ->
    (forall sp, In sp sel \/ In sp est -> within n sp) ->
    let Xs D := map (centering_transform (N := Rnum) standardize (fit_scaler (columns p D))) D in
    count_select (N := Rnum) p eps num alphas sel_lm ts sel (Xs (reordered [] perm X)) y' = count_select (N := Rnum) p eps num alphas sel_lm ts (map (renamed perm) sel) (Xs X) y /\
    count_fit (N := Rnum) standardize has eps num alphas ts metric target p sel_lm est_lm sel est (reordered [] perm X) y' =
    count_fit (N := Rnum) standardize has eps num alphas ts metric target p sel_lm est_lm (map (renamed perm) sel) (map (renamed perm) est) X y.
  Proof.
    intros LX H Xs. pose proof (scaler_reordered n perm HP p X LX) as E1.
    assert (EX : Xs (reordered [] perm X) = reordered [] perm (Xs X)).
    { unfold Xs. rr. rewrite E1. symmetry. exact (reordered_map n perm HP (centering_transform (N := Rnum) standardize (fit_scaler (columns p X))) [] [] X LX). }
    assert (L : length (Xs X) = n) by (unfold Xs; now rewrite map_length).
    assert (ES : count_select (N := Rnum) p eps num alphas sel_lm ts sel (Xs (reordered [] perm X)) y' = count_select (N := Rnum) p eps num alphas sel_lm ts (map (renamed perm) sel) (Xs X) y).
    { rewrite EX. unfold count_select. pose proof (poisson_params_reordered (Xs X) eps num alphas L) as E2. rr. rewrite E2.
      apply (selection_reordered n perm HP). intros sp Hsp. apply H. now left. }
    split; [exact ES|]. unfold count_fit. fold (Xs X). fold (Xs (reordered [] perm X)). rr. rewrite ES. rewrite E1, EX.
    pose proof (constant_reordered n perm HP y Ly) as E3. rr. rewrite E3.
    pose proof (poisson_intercept_reordered has (Xs X) (repeat 0 p) L) as E4. change (repeat (nzero (N := Rnum)) p) with (repeat 0 p). rr. rewrite E4.
    destruct (constant_response y); [reflexivity|]. f_equal. unfold count_module. rewrite mapM_map.
    match goal with |- bind (mapM ?f est) _ = bind (mapM ?g est) _ => assert (E : mapM f est = mapM g est) end.
    { apply mapM_ext_in. intros sp Hsp. f_equal. apply mapM_ext_in. intros mask _. apply estimate_count_reordered. apply H. now right. }
    rr. rewrite E. destruct (mapM _ est) as [best|e]; [|reflexivity]. cbn [bind]. do 2 f_equal. now apply poisson_intercept_reordered.
  Qed.
End CountOrder.

(** ** Class labels *)
Lemma ascii_trans a b c : Ascii.compare a b = Lt -> Ascii.compare b c = Lt -> Ascii.compare a c = Lt.
Proof. unfold Ascii.compare. rewrite !N.compare_lt_iff. apply N.lt_trans. Qed.
Lemma string_trans a : forall b c, String.compare a b = Lt -> String.compare b c = Lt -> String.compare a c = Lt.
Proof.
  induction a as [|x a IH]; intros [|v b] [|w c]; cbn; intros H1 H2; try discriminate; try reflexivity.
  destruct (Ascii.compare x v) eqn:E1; [|destruct (Ascii.compare v w) eqn:E2|discriminate].
  - apply Ascii.compare_eq_iff in E1. subst v. destruct (Ascii.compare x w); [now apply (IH b)|reflexivity|discriminate].
  - apply Ascii.compare_eq_iff in E2. subst w. now rewrite E1.
  - now rewrite (ascii_trans _ _ _ E1 E2).
  - discriminate.
Qed.
Lemma label_trans : Relations_1.Transitive Proofs_Labels.label_le.
Proof.
  intros [x|x] [v|v] [w|w]; unfold Proofs_Labels.label_le; cbn; intros H1 H2; try discriminate; try reflexivity.
  - apply Z.leb_le in H1, H2. apply Z.leb_le. lia.
  - unfold String.leb in *. destruct (String.compare x v) eqn:E1; [|destruct (String.compare v w) eqn:E2|discriminate].
    + apply String.compare_eq_iff in E1. now subst v.
    + apply String.compare_eq_iff in E2. subst w. now rewrite E1.
    + now rewrite (string_trans _ _ _ E1 E2).
    + discriminate.
Qed.
Lemma label_antisym a b : Proofs_Labels.label_le a b -> Proofs_Labels.label_le b a -> a = b.
Proof.
  destruct a as [x|x], b as [v|v]; unfold Proofs_Labels.label_le; cbn; intros H1 H2; try discriminate.
  - apply Z.leb_le in H1, H2. f_equal. lia.
  - f_equal. now apply String.leb_antisym.
Qed.
Lemma sorted_unique (l l' : list Model_Labels.label) : StronglySorted Proofs_Labels.label_le l -> StronglySorted Proofs_Labels.label_le l' -> NoDup l -> NoDup l' ->
  (forall x, In x l <-> In x l') -> l = l'.
Proof.
  revert l'. induction l as [|a l IH]; intros l' S S' N N' H.
  - destruct l' as [|b l']; [reflexivity|]. destruct (proj2 (H b) (or_introl eq_refl)).
  - destruct l' as [|b l']; [destruct (proj1 (H a) (or_introl eq_refl))|].
    inversion S as [|? ? S1 F1]; subst. inversion S' as [|? ? S2 F2]; subst. inversion N as [|? ? N1 N2]; subst. inversion N' as [|? ? N3 N4]; subst.
    rewrite Forall_forall in F1, F2.
    assert (E : a = b).
    { destruct (proj1 (H a) (or_introl eq_refl)) as [->|Ha]; [reflexivity|]. destruct (proj2 (H b) (or_introl eq_refl)) as [->|Hb]; [reflexivity|].
      apply label_antisym; [now apply F1|now apply F2]. }
    subst b. f_equal. apply IH; try assumption. intro x. split; intro Hx.
    + destruct (proj1 (H x) (or_intror Hx)) as [<-|Q]; [contradiction|exact Q].
    + destruct (proj2 (H x) (or_intror Hx)) as [<-|Q]; [contradiction|exact Q].
Qed.
Lemma unique_perm y y' : Permutation y y' -> Model_Labels.unique_labels y = Model_Labels.unique_labels y'.
Proof.
  intro H. apply sorted_unique; try apply Proofs_Labels.unique_NoDup; try (apply Sorted_StronglySorted; [exact label_trans|apply Proofs_Labels.unique_Sorted]).
  intro x. rewrite !Proofs_Labels.unique_In. split; apply Permutation_in; [exact H|now apply Permutation_sym].
Qed.

Lemma is_max_same m f g A B : (forall j, (j < m)%nat -> f j = g j) -> Spec_Logistic.is_max m f A -> Spec_Logistic.is_max m g B -> A = B.
Proof.
  intros H (U & j & Hj & ->) (V & i & Hi & ->). apply Rle_antisym; [rewrite (H j Hj); now apply V|rewrite <- (H i Hi); now apply U].
Qed.

Section ClassOrder.
  Variables (n : nat) (perm : list nat).
  Hypothesis HP : reorders n perm.
  Variables (p : nat) (y : list Model_Labels.label) (d : Model_Labels.label).
  Hypothesis Ly : length y = n.
  Notation y' := (reordered d perm y).
  Notation z := (Model_Labels.codes y).

  Lemma classes_reordered : Model_Labels.uoi_classes y' = Model_Labels.uoi_classes y.
  Proof. apply unique_perm. now apply (reordered_perm n perm HP). Qed.
  Lemma codes_reordered : Model_Labels.codes y' = reordered 0%nat perm z.
  Proof.
    unfold Model_Labels.codes. pose proof classes_reordered as E. unfold Model_Labels.uoi_classes in E. rewrite E. symmetry. now apply (reordered_map n perm HP).
  Qed.
  Lemma length_codes : length z = n.
  Proof. unfold Model_Labels.codes. now rewrite map_length. Qed.
  Lemma numbers_reordered (v : list nat) : length v = n -> numbers (N := Rnum) (reordered 0%nat perm v) = reordered 0 perm (numbers (N := Rnum) v).
  Proof. intro L. rewrite !numbers_R. symmetry. now apply (reordered_map n perm HP INR). Qed.
  Lemma at_reordered (v : list nat) rows : (forall i, In i rows -> (i < n)%nat) ->
    map (fun i => nth i (reordered 0%nat perm v) 0%nat) rows = map (fun i => nth i v 0%nat) (map (fun i => nth i perm 0%nat) rows).
  Proof. intro H. rewrite map_map. apply map_ext_in. intros i Hi. apply (reordered_at n perm HP 0%nat). now apply H. Qed.

  Lemma Sum_reordered (f : nat -> R) : Sum n (fun i => f (nth i perm 0%nat)) = Sum n f.
  Proof.
    unfold Sum. rewrite <- (map_map (fun i => nth i perm 0%nat) f (seq 0 n)).
    assert (E : map (fun i => nth i perm 0%nat) (seq 0 n) = perm).
    { rewrite <- (perm_length n perm HP). apply Proofs_ClassChoice.map_nth_seq. }
    rewrite E. exact (nsum_perm _ _ (Permutation_map f HP)).
  Qed.
  Lemma mat_reordered X i j : (i < n)%nat -> mat (reordered [] perm X) i j = mat X (nth i perm 0%nat) j.
  Proof. intro H. unfold mat. f_equal. now apply (reordered_at n perm HP). Qed.
  Lemma matrix_reordered X : matrix n p X -> matrix n p (reordered [] perm X).
  Proof.
    intros [L F]. split; [now apply (reordered_length n perm HP)|]. rewrite Forall_forall in *. intros r Hr. apply F.
    exact (Permutation_in _ (reordered_perm n perm HP [] X L) Hr).
  Qed.
  Lemma matching_reordered X (v c : list R) b : length v = n ->
    matching_intercept n p (reordered [] perm X) (reordered 0 perm v) c b <-> matching_intercept n p X v c b.
  Proof.
    intro Lv. unfold matching_intercept.
    rewrite (Sum_ext n (fun i => / (1 + exp (- eta p (reordered [] perm X) c b i))) (fun i => / (1 + exp (- eta p X c b (nth i perm 0%nat))))).
    - rewrite (Sum_reordered (fun i => / (1 + exp (- eta p X c b i)))).
      rewrite (Sum_ext n (entry (reordered 0 perm v)) (fun i => entry v (nth i perm 0%nat))) by (intros i Hi; now apply (reordered_at n perm HP)).
      rewrite (Sum_reordered (entry v)). reflexivity.
    - intros i Hi. unfold eta. do 5 f_equal. apply Sum_ext. intros j _. now rewrite mat_reordered.
  Qed.
  Lemma Cs_reordered has eps num X (v : list nat) : matrix n p X -> (0 < n)%nat -> (0 < p)%nat -> length v = n -> Forall (fun a => (a < 2)%nat) v ->
    class_Cs (N := Rnum) has p eps num (reordered [] perm X) (reordered 0%nat perm v) = class_Cs (N := Rnum) has p eps num X v.
  Proof.
    intros HX Hn Hp Lv Hb. pose proof (matrix_reordered X HX) as HX'. pose proof (reordered_length n perm HP 0%nat v) as Lv'.
    pose proof (reordered_perm n perm HP 0%nat v Lv) as Pv.
    assert (Hb' : Forall (fun a => (a < 2)%nat) (reordered 0%nat perm v)) by (rewrite Forall_forall in *; intros a Ha; apply Hb; exact (Permutation_in _ Pv Ha)).
    assert (ES : forall j, Sum n (fun i => INR (nth i (reordered 0%nat perm v) 0%nat) * mat (reordered [] perm X) i j) = Sum n (fun i => INR (nth i v 0%nat) * mat X i j)).
    { intro j. rewrite <- (Sum_reordered (fun i => INR (nth i v 0%nat) * mat X i j)). apply Sum_ext. intros i Hi. rewrite mat_reordered by exact Hi. now rewrite (reordered_at n perm HP 0%nat). }
    assert (EC : Proofs_LogisticGrid.clipped (reordered 0%nat perm v) = Proofs_LogisticGrid.clipped v).
    { unfold Proofs_LogisticGrid.clipped. do 2 f_equal. unfold Spec_Logistic.share. rewrite Lv', Lv. do 2 f_equal. unfold Spec_Logistic.count.
      clear - Pv. induction Pv as [|x l l' _ IH|x u l|l l' l'' _ IH1 _ IH2]; [reflexivity| | |congruence]; cbn [filter]; [destruct (1 =? x)%nat; cbn [length]; congruence|].
      destruct (1 =? x)%nat, (1 =? u)%nat; reflexivity. }
    unfold class_Cs. destruct has.
    - destruct (Proofs_LogisticGrid.alpha_max_binary n p X v HX Hn Lv Hb Hp) as (A & EA & MA).
      destruct (Proofs_LogisticGrid.alpha_max_binary n p _ _ HX' Hn Lv' Hb' Hp) as (B & EB & MB).
      rewrite EA, EB. cbn [rmap]. do 2 f_equal. refine (is_max_same p _ _ _ _ _ MB MA). intros j _. cbv beta. now rewrite ES, EC.
    - destruct (Proofs_LogisticGrid.alpha_max_no_intercept n p X v HX Hn Lv Hb) as [[EA ?]|(Hp1 & A & EA & MA)];
      destruct (Proofs_LogisticGrid.alpha_max_no_intercept n p _ _ HX' Hn Lv' Hb') as [[EB ?]|(Hp2 & B & EB & MB)]; try lia; rewrite EA, EB; [reflexivity|].
      cbn [rmap]. do 2 f_equal. refine (is_max_same (p - 1) _ _ _ _ _ MB MA). intros j _. cbv beta. now rewrite ES.
  Qed.
End ClassOrder.
