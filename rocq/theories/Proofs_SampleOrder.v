(** Proofs about the order of the samples (C130). *)
From Coq Require Import ZArith String List Bool Arith Lia Reals Lra Permutation.
From Verif Require Import Prelude F64 Num Model_Intersection Model_Fit Model_Scores Model_Refit Model_Rescale Model_Poisson Model_Linear Model_Estimation Model_Selection Model_CountFit Model_ClassFit
  Proofs_Intersection Spec_Rescale Proofs_Rescale Spec_Poisson Proofs_Poisson Spec_Linear Proofs_Linear
  Proofs_LinearUnits Spec_Estimation Proofs_Estimation Proofs_Estimation2 Proofs_Estimation3 Spec_SampleOrder.
Import ListNotations.
Local Open Scope R_scope.

Lemma nsum_perm (l l' : list R) : Permutation l l' -> nsum (N := Rnum) l = nsum (N := Rnum) l'.
Proof.
  induction 1 as [|x l l' _ IH|x u l|l l' l'' _ IH1 _ IH2]; [reflexivity| | |now rewrite IH1].
  - change (x + nsum (N := Rnum) l = x + nsum (N := Rnum) l'). now rewrite IH.
  - change (u + (x + nsum (N := Rnum) l) = x + (u + nsum (N := Rnum) l)). ring.
Qed.
Lemma nmean_perm (l l' : list R) : Permutation l l' -> nmean (N := Rnum) l = nmean (N := Rnum) l'.
Proof. intro H. unfold nmean. rewrite (nsum_perm l l' H). f_equal. f_equal. exact (Permutation_length H). Qed.
Lemma scale_perm (l l' : list R) : Permutation l l' -> column_scale (N := Rnum) l = column_scale (N := Rnum) l'.
Proof.
  intro H. unfold column_scale. pose proof (nmean_perm l l' H) as E. rr. rewrite E. clear E.
  pose proof (nmean_perm _ _ (Permutation_map (fun v : R => nsquare (N := Rnum) (nsub (n := Rnum) v (nmean (N := Rnum) l'))) H)) as E. rr. rewrite E. reflexivity.
Qed.

Lemma constant_perm (l l' : list R) : Permutation l l' -> constant_response (N := Rnum) l = true -> constant_response (N := Rnum) l' = true.
Proof.
  intros H E. assert (E1 : forall a b, In a l -> In b l -> a = b).
  { destruct l as [|a r]; [discriminate|]. unfold constant_response in E. rewrite forallb_forall in E.
    assert (K : forall c, In c (a :: r) -> a = c) by (intros c [Hc|Hc]; [exact Hc|specialize (E c Hc); cbn in E; unfold Reqb in E; destruct (Req_EM_T a c); [assumption|discriminate]]).
    intros b c Hb Hc. now rewrite <- (K b Hb), <- (K c Hc). }
  destruct l' as [|a r]; [apply Permutation_sym, Permutation_nil in H; now subst|]. unfold constant_response. rewrite forallb_forall. intros c Hc.
  cbn. unfold Reqb. destruct (Req_EM_T a c) as [_|N]; [reflexivity|]. exfalso. apply N, E1; apply (Permutation_in _ (Permutation_sym H)); [now left|now right].
Qed.

Section Order.
  Variables (n : nat) (perm : list nat).
  Hypothesis HP : reorders n perm.

  Lemma perm_length : length perm = n.
  Proof. unfold reorders in HP. rewrite (Permutation_length HP). apply seq_length. Qed.
  Lemma perm_lt i : In i perm -> (i < n)%nat.
  Proof. intro H. apply (Permutation_in _ HP) in H. apply in_seq in H. lia. Qed.
  Lemma perm_at i : (i < n)%nat -> (nth i perm 0 < n)%nat.
  Proof. intro H. apply perm_lt, nth_In. now rewrite perm_length. Qed.

  Lemma reordered_length {A} (d : A) l : length (reordered d perm l) = n.
  Proof. unfold reordered. now rewrite map_length, perm_length. Qed.
  Lemma reordered_at {A} (d : A) l i : (i < n)%nat -> nth i (reordered d perm l) d = nth (nth i perm 0%nat) l d.
  Proof.
    intro H. unfold reordered. rewrite (nth_indep _ d (nth 0 l d)) by (rewrite map_length, perm_length; exact H). apply (map_nth (fun i => nth i l d)).
  Qed.
  Lemma reordered_perm {A} (d : A) l : length l = n -> Permutation (reordered d perm l) l.
  Proof.
    intro L. unfold reordered. rewrite (Permutation_map (fun i => nth i l d) HP). rewrite <- L. clear.
    assert (E : map (fun i => nth i l d) (seq 0 (length l)) = l); [|now rewrite E].
    induction l as [|a l IH]; [reflexivity|]. cbn [length seq map nth]. f_equal. rewrite <- seq_shift, map_map. exact IH.
  Qed.
  Lemma reordered_map {A B} (f : A -> B) d d' l : length l = n -> reordered d' perm (map f l) = map f (reordered d perm l).
  Proof.
    intro L. unfold reordered. rewrite map_map. apply map_ext_in. intros i Hi. apply perm_lt in Hi.
    rewrite (nth_indep _ d' (f d)) by (rewrite map_length; lia). apply map_nth.
  Qed.
  Lemma map2_reordered {A B C} (f : A -> B -> C) d1 d2 d a b : length a = n -> length b = n ->
    map2 f (reordered d1 perm a) (reordered d2 perm b) = reordered d perm (map2 f a b).
  Proof.
    intros La Lb. unfold reordered. assert (H : forall i, In i perm -> nth i (map2 f a b) d = f (nth i a d1) (nth i b d2)).
    { intros i Hi. apply perm_lt in Hi. revert b Lb i Hi. rewrite <- La. clear. induction a as [|x a IH]; intros [|v b] Lb i Hi; cbn in *; try lia.
      destruct i as [|i]; [reflexivity|]. apply IH; lia. }
    revert H. clear. induction perm as [|i l IH]; intro H; [reflexivity|]. cbn [map map2]. rewrite (H i (or_introl eq_refl)). f_equal. apply IH. intros j Hj. apply H. now right.
  Qed.

  (** ** Sums over the samples *)
  Variables (p : nat) (X : list (list R)).
  Hypothesis LX : length X = n.
  Notation X' := (reordered [] perm X).

  Lemma column_reordered j : column (N := Rnum) X' j = reordered 0 perm (column (N := Rnum) X j).
  Proof. unfold column. symmetry. exact (reordered_map (fun r : list R => nth j r 0) [] 0 X LX). Qed.
  Lemma length_column j : length (column (N := Rnum) X j) = n.
  Proof. unfold column. now rewrite map_length. Qed.
  Lemma scaler_reordered : fit_scaler (N := Rnum) (columns p X') = fit_scaler (N := Rnum) (columns p X).
  Proof.
    unfold fit_scaler, columns. rewrite !map_map. f_equal; apply map_ext; intro j.
    - refine (eq_trans (f_equal (nmean (N := Rnum)) (column_reordered j)) _). apply nmean_perm, reordered_perm, length_column.
    - refine (eq_trans (f_equal (column_scale (N := Rnum)) (column_reordered j)) _). apply scale_perm, reordered_perm, length_column.
  Qed.
  Lemma means_reordered : map (nmean (N := Rnum)) (columns (N := Rnum) p X') = map (nmean (N := Rnum)) (columns (N := Rnum) p X).
  Proof. exact (f_equal (@mean_ Rnum) scaler_reordered). Qed.
  Lemma ndot_reordered (a b : list R) : length a = n -> length b = n -> ndot (N := Rnum) (reordered 0 perm a) (reordered 0 perm b) = ndot (N := Rnum) a b.
  Proof.
    intros La Lb. unfold ndot. refine (eq_trans (f_equal (nsum (N := Rnum)) (map2_reordered Rmult 0 0 0 a b La Lb)) _).
    apply nsum_perm, reordered_perm. rewrite map2_length. rr. rewrite La, Lb. apply Nat.min_id.
  Qed.
  Lemma tmatvec_reordered (v : list R) : length v = n -> tmatvec (N := Rnum) p X' (reordered 0 perm v) = tmatvec (N := Rnum) p X v.
  Proof.
    intro Lv. unfold tmatvec. apply map_ext. intro j. refine (eq_trans (f_equal (fun c => ndot (N := Rnum) c (reordered 0 perm v)) (column_reordered j)) _).
    apply ndot_reordered; [apply length_column|exact Lv].
  Qed.
  Lemma rows_reordered rows : (forall i, In i rows -> (i < n)%nat) -> matrix_rows (N := Rnum) X' rows = matrix_rows (N := Rnum) X (map (fun i => nth i perm 0%nat) rows).
  Proof. intro H. unfold matrix_rows. rewrite map_map. apply map_ext_in. intros i Hi. apply (reordered_at []). now apply H. Qed.

  Variable (y : list R).
  Hypothesis Ly : length y = n.
  Notation y' := (reordered 0 perm y).
  Lemma take_reordered rows : (forall i, In i rows -> (i < n)%nat) -> take_rows (N := Rnum) y' rows = take_rows (N := Rnum) y (map (fun i => nth i perm 0%nat) rows).
  Proof. intro H. unfold take_rows. rewrite map_map. apply map_ext_in. intros i Hi. apply (reordered_at 0). now apply H. Qed.
  Lemma mean_reordered : nmean (N := Rnum) y' = nmean (N := Rnum) y.
  Proof. apply nmean_perm, reordered_perm, Ly. Qed.
  Lemma constant_reordered : constant_response (N := Rnum) y' = constant_response (N := Rnum) y.
  Proof.
    pose proof (reordered_perm 0 y Ly) as H.
    destruct (constant_response (N := Rnum) y') eqn:E.
    - symmetry. exact (constant_perm _ _ H E).
    - destruct (constant_response (N := Rnum) y) eqn:E2; [|reflexivity]. rewrite (constant_perm _ _ (Permutation_sym H) E2) in E. discriminate.
  Qed.

  (** ** Linear models *)
  Lemma linear_intercept_reordered has c : linear_intercept (N := Rnum) has p X' y' c = linear_intercept (N := Rnum) has p X y c.
  Proof. unfold linear_intercept. destruct has; [|reflexivity]. pose proof means_reordered as M. pose proof mean_reordered as M2. rr. now rewrite M, M2. Qed.
  Lemma centered_reordered : centered (N := Rnum) y' = reordered 0 perm (centered (N := Rnum) y).
  Proof.
    unfold centered. pose proof mean_reordered as M. rr. rewrite M. symmetry. exact (reordered_map (fun v : R => v - nmean (N := Rnum) y) 0 0 y Ly).
  Qed.
  Lemma centered_rows_reordered : centered_rows (N := Rnum) p X' = reordered [] perm (centered_rows (N := Rnum) p X).
  Proof.
    unfold centered_rows. pose proof means_reordered as M. rr. rewrite M. symmetry. exact (reordered_map (fun r : list R => map2 Rminus r (map (nmean (N := Rnum)) (columns (N := Rnum) p X))) [] [] X LX).
  Qed.
End Order.

Lemma alpha_max_reordered n perm p X (y : list R) has (mix : R) : reorders n perm -> length X = n -> length y = n ->
  alpha_max (N := Rnum) has p (reordered [] perm X) (reordered 0 perm y) mix = alpha_max (N := Rnum) has p X y mix.
Proof.
  intros HP LX Ly. unfold alpha_max.
  assert (E : tmatvec (N := Rnum) p (if has then centered_rows (N := Rnum) p (reordered [] perm X) else reordered [] perm X) (if has then centered (N := Rnum) (reordered 0 perm y) else reordered 0 perm y)
    = tmatvec (N := Rnum) p (if has then centered_rows (N := Rnum) p X else X) (if has then centered (N := Rnum) y else y)).
  { destruct has; [|now apply (tmatvec_reordered n perm HP p X LX y)].
    pose proof (centered_rows_reordered n perm HP p X LX) as C1. pose proof (centered_reordered n perm HP y Ly) as C2. rr. rewrite C1, C2.
    apply (tmatvec_reordered n perm HP); unfold centered_rows, centered; now rewrite map_length. }
  rr. rewrite E, (reordered_length n perm HP). now rewrite Ly.
Qed.

(** ** Both modules *)
Lemma mapM_ext_in {A B} (f g : A -> result B) l : (forall a, In a l -> f a = g a) -> mapM f l = mapM g l.
Proof. induction l as [|a l IH]; intro H; [reflexivity|]. cbn [mapM]. rewrite (H a (or_introl eq_refl)), IH by (intros; apply H; now right). reflexivity. Qed.
Lemma mapM_map {A B C} (h : A -> B) (f : B -> result C) l : mapM f (map h l) = mapM (fun a => f (h a)) l.
Proof. induction l as [|a l IH]; [reflexivity|]. cbn [map mapM]. now rewrite IH. Qed.

Section Modules.
  Variables (n : nat) (perm : list nat).
  Hypothesis HP : reorders n perm.
  Variables (p : nat) (X : list (list R)) (y : list R).
  Hypothesis LX : length X = n.
  Hypothesis Ly : length y = n.
  Notation X' := (reordered [] perm X).
  Notation y' := (reordered 0 perm y).

  Lemma selection_reordered (lm : solver_net (N := Rnum)) ts qs splits : (forall sp, In sp splits -> within n sp) ->
    selection_module (N := Rnum) lm p ts qs splits X' y' = selection_module (N := Rnum) lm p ts qs (map (renamed perm) splits) X y.
  Proof.
    intro H. unfold selection_module.
    assert (E : map (selection_sweep (N := Rnum) lm X' y' qs) splits = map (selection_sweep (N := Rnum) lm X y qs) (map (renamed perm) splits)); [|rr; now rewrite E].
    rewrite map_map. apply map_ext_in. intros sp Hsp. unfold selection_sweep, renamed. cbn [fst].
    assert (Hr : forall i, In i (fst sp) -> (i < n)%nat) by (intros i Hi; apply (H sp Hsp); now left).
    pose proof (rows_reordered n perm HP X (fst sp) Hr) as E1. pose proof (take_reordered n perm HP y (fst sp) Hr) as E2. rr. now rewrite E1, E2.
  Qed.

  Lemma target_renamed target sp : target_rows target (renamed perm sp) = map (fun i => nth i perm 0%nat) (target_rows target sp).
  Proof. unfold target_rows, renamed. destruct (target =? 0)%nat; reflexivity. Qed.
  Lemma target_within target sp : within n sp -> forall i, In i (target_rows target sp) -> (i < n)%nat.
  Proof. intros H i Hi. apply H. unfold target_rows in Hi. destruct (target =? 0)%nat; tauto. Qed.

  Lemma linear_score_reordered metric target (pred' pred : list nat -> list R) mask sp : within n sp ->
    pred' (target_rows target sp) = pred (target_rows target (renamed perm sp)) ->
    linear_score (N := Rnum) (r2_score (N := Rnum)) metric target y' pred' mask sp = linear_score (N := Rnum) (r2_score (N := Rnum)) metric target y pred mask (renamed perm sp).
  Proof.
    intros H E. unfold linear_score. rr. rewrite E. rewrite target_renamed.
    pose proof (take_reordered n perm HP y (target_rows target sp) (target_within target sp H)) as E2. rr. rewrite E2. reflexivity.
  Qed.
  Lemma estimate_reordered ols metric target sp mask : within n sp ->
    estimate_support (N := Rnum) ols metric target p X' y' sp mask = estimate_support (N := Rnum) ols metric target p X y (renamed perm sp) mask.
  Proof.
    intro H. unfold estimate_support. cbn [fst].
    assert (Hr : forall i, In i (fst sp) -> (i < n)%nat) by (intros i Hi; apply H; now left).
    pose proof (take_reordered n perm HP y (fst sp) Hr) as E2. pose proof (rows_reordered n perm HP X (fst sp) Hr) as E1.
    change (fst (renamed perm sp)) with (map (fun i => nth i perm 0%nat) (fst sp)). rr. rewrite E2, E1.
    destruct (existsb (fun b => b) mask).
    - rewrite (linear_score_reordered metric target _ (fun rows => ls_predict (N := Rnum) (ols (masked_columns (N := Rnum) mask (matrix_rows (N := Rnum) X (map (fun i => nth i perm 0%nat) (fst sp)))) (take_rows (N := Rnum) y (map (fun i => nth i perm 0%nat) (fst sp)))) (masked_columns (N := Rnum) mask (matrix_rows (N := Rnum) X rows))) mask sp H); [reflexivity|].
      rewrite target_renamed. pose proof (rows_reordered n perm HP X (target_rows target sp) (target_within target sp H)) as E3. rr. now rewrite E3.
    - rewrite (linear_score_reordered metric target _ (fun rows => repeat (nmean (N := Rnum) (take_rows (N := Rnum) y (map (fun i => nth i perm 0%nat) (fst sp)))) (length rows)) (repeat false p) sp H); [reflexivity|].
      rewrite target_renamed. now rewrite map_length.
  Qed.
  Lemma estimation_reordered ols metric target has supports splits : (forall sp, In sp splits -> within n sp) ->
    estimation_module (N := Rnum) ols metric target p has X' y' supports splits = estimation_module (N := Rnum) ols metric target p has X y supports (map (renamed perm) splits).
  Proof.
    intro H. unfold estimation_module. rewrite mapM_map.
    match goal with |- bind (mapM ?f splits) _ = bind (mapM ?g splits) _ => assert (E : mapM f splits = mapM g splits) end.
    { apply mapM_ext_in. intros sp Hsp. f_equal. apply mapM_ext_in. intros mask _. apply estimate_reordered. now apply H. }
    rr. rewrite E. destruct (mapM _ splits) as [best|e]; [|reflexivity]. cbn [bind]. do 2 f_equal. apply (linear_intercept_reordered n perm HP p X LX y Ly).
  Qed.
End Modules.

Section LinearOrder.
  Variables (n : nat) (perm : list nat).
  Hypothesis HP : reorders n perm.
  Variables (p : nat) (X : list (list R)) (y : list R).
  Hypothesis LX : length X = n.
  Hypothesis Ly : length y = n.
  Notation X' := (reordered [] perm X).
  Notation y' := (reordered 0 perm y).

  Lemma pre_reordered standardize has : linear_pre (N := Rnum) standardize has p X' y' =
    (reordered [] perm (fst (linear_pre (N := Rnum) standardize has p X y)), reordered 0 perm (snd (linear_pre (N := Rnum) standardize has p X y))).
  Proof.
    unfold linear_pre. cbn [fst snd]. pose proof (scaler_reordered n perm HP p X LX) as E1. pose proof (mean_reordered n perm HP y Ly) as E2.
    assert (E3 : column_scale (N := Rnum) y' = column_scale (N := Rnum) y) by (apply scale_perm, (reordered_perm n perm HP), Ly). rr. rewrite E1, E2, E3. f_equal.
    - symmetry. exact (reordered_map n perm HP (base_transform (N := Rnum) standardize has (fit_scaler (columns p X))) [] [] X LX).
    - destruct standardize; [|reflexivity]. symmetry.
      exact (reordered_map n perm HP (fun v : R => (if has then v - nmean (N := Rnum) y else v) / column_scale (N := Rnum) y) 0 0 y Ly).
  Qed.
  Lemma pre_lengths standardize has : length (fst (linear_pre (N := Rnum) standardize has p X y)) = n /\ length (snd (linear_pre (N := Rnum) standardize has p X y)) = n.
  Proof. unfold linear_pre. cbn [fst snd]. split; [now rewrite map_length|]. destruct standardize; [now rewrite map_length|exact Ly]. Qed.

  Lemma regressor_reordered standardize has metric target ols (select select' : list (list R) -> list R -> list (list bool)) est :
    (forall D dy, length D = n -> length dy = n -> select' (reordered [] perm D) (reordered 0 perm dy) = select D dy) ->
    (forall sp, In sp est -> within n sp) ->
    regressor_fit (N := Rnum) standardize has metric target p ols select' est X' y' =
    regressor_fit (N := Rnum) standardize has metric target p ols select (map (renamed perm) est) X y.
  Proof.
    intros Hs He. unfold regressor_fit. pose proof (pre_reordered standardize has) as E. rr. rewrite E. cbn [fst snd]. destruct (pre_lengths standardize has) as [L1 L2].
    set (D := linear_pre (N := Rnum) standardize has p X y) in *.
    pose proof (constant_reordered n perm HP (snd D) L2) as E2. pose proof (Hs (fst D) (snd D) L1 L2) as E3.
    pose proof (scaler_reordered n perm HP p X LX) as E4. pose proof (mean_reordered n perm HP y Ly) as E5.
    assert (E6 : column_scale (N := Rnum) y' = column_scale (N := Rnum) y) by (apply scale_perm, (reordered_perm n perm HP), Ly).
    pose proof (estimation_reordered n perm HP p (fst D) (snd D) L1 L2 ols metric target has (select (fst D) (snd D)) est He) as E7.
    pose proof (linear_intercept_reordered n perm HP p (fst D) L1 (snd D) L2 has (repeat 0 p)) as E8.
    rr. rewrite E2, E3, E4, E5, E6, E7. destruct (constant_response (snd D)); [|reflexivity]. cbn [bind fst snd].
    change (repeat (nzero (N := Rnum)) p) with (repeat 0 p). rr. now rewrite E8.
  Qed.

  Lemma lasso_select_reordered has eps num net ts sel D dy : length D = n -> length dy = n -> (forall sp, In sp sel -> within n sp) ->
    lasso_select (N := Rnum) has p eps num net ts sel (reordered [] perm D) (reordered 0 perm dy) = lasso_select (N := Rnum) has p eps num net ts (map (renamed perm) sel) D dy.
  Proof.
    intros L1 L2 H. unfold lasso_select, lasso_grid, alpha_grid. pose proof (alpha_max_reordered n perm p D dy has 1 HP L1 L2) as E. change (none (N := Rnum)) with 1. rr. rewrite E.
    destruct (neqb _ _); [reflexivity|]. destruct (nleb _ _); cbn [rmap select_with]; now apply (selection_reordered n perm HP).
  Qed.
  Lemma elastic_select_reordered has eps num alphas net ts sel D dy : length D = n -> length dy = n -> (forall sp, In sp sel -> within n sp) ->
    elastic_select (N := Rnum) has p eps num alphas net ts sel (reordered [] perm D) (reordered 0 perm dy) = elastic_select (N := Rnum) has p eps num alphas net ts (map (renamed perm) sel) D dy.
  Proof.
    intros L1 L2 H. unfold elastic_select, elastic_reg_params.
    rewrite (mapM_ext_in (fun a => alpha_grid (N := Rnum) has p (reordered [] perm D) (reordered 0 perm dy) a eps num) (fun a => alpha_grid (N := Rnum) has p D dy a eps num)).
    - destruct (mapM _ alphas); [|reflexivity]. cbn [rmap select_with]. now apply (selection_reordered n perm HP).
    - intros a _. unfold alpha_grid. pose proof (alpha_max_reordered n perm p D dy has a HP L1 L2) as E. rr. now rewrite E.
  Qed.
End LinearOrder.
