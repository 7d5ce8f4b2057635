(** Proofs about the zero points of the features (C131): the linear regressors. *)
From Coq Require Import ZArith String List Bool Arith Lia Reals Lra.
From Verif Require Import Prelude F64 Num Model_Intersection Model_Fit Model_Scores Model_Refit Model_Rescale Model_Poisson Model_Linear Model_Estimation Model_Selection
  Proofs_Intersection Spec_Rescale Proofs_Rescale Spec_Poisson Proofs_Poisson Spec_Linear Proofs_Linear
  Proofs_LinearUnits Spec_Estimation Proofs_Estimation Proofs_Estimation2 Proofs_Estimation3 Spec_Choice Proofs_Choice Spec_Units Proofs_Units Proofs_Flat Proofs_Totals Proofs_SampleOrder Spec_Origin.
Import ListNotations.
Local Open Scope R_scope.

(** ** Data *)
Section Displaced.
  Variables (n p : nat) (X : list (list R)) (d : list R).
  Hypothesis HX : matrix n p X.
  Hypothesis Ld : length d = p.
  Notation X' := (displaced d X).

  Lemma displaced_matrix : matrix n p X'.
  Proof.
    destruct HX as [L F]. split; [unfold displaced; now rewrite map_length|]. apply Forall_forall. intros r Hr. unfold displaced in Hr. apply in_map_iff in Hr as (x & <- & _).
    now rewrite map_length, seq_length.
  Qed.
  Lemma displaced_mat i j : (i < n)%nat -> (j < p)%nat -> mat X' i j = mat X i j + entry d j.
  Proof.
    intros Hi Hj. destruct HX as [L _]. unfold mat, displaced. set (f := fun x : list R => map (fun j => entry x j + entry d j) (seq 0 (length d))).
    rewrite (nth_indep (map f X) [] (f [])) by (rewrite map_length; lia). rewrite (map_nth f). unfold f. rewrite Ld. exact (entry_mapseq (fun j => entry (nth i X []) j + entry d j) p j Hj).
  Qed.
  Lemma displaced_rows rows : (forall i, In i rows -> (i < n)%nat) -> samples X' rows = displaced d (samples X rows).
  Proof.
    intro H. unfold samples, displaced. rewrite map_map. apply map_ext_in. intros i Hi. set (f := fun x : list R => map (fun j => entry x j + entry d j) (seq 0 (length d))).
    destruct HX as [L _]. rewrite (nth_indep (map f X) [] (f [])) by (rewrite map_length; specialize (H i Hi); lia). exact (map_nth f X [] i).
  Qed.
  Lemma displaced_part rows mask : (forall i, In i rows -> (i < n)%nat) -> length mask = p ->
    part X' rows mask = displaced (map (entry d) (chosen mask)) (part X rows mask).
  Proof.
    intros H Lm. unfold part, displaced. rewrite map_map. apply map_ext_in. intros i Hi. rewrite map_length.
    apply (list_eq_entries _ _ (length (chosen mask))); [now rewrite map_length|now rewrite map_length, seq_length|]. intros q Hq.
    pose proof (entry_mapseq (fun j => entry (map (mat X i) (chosen mask)) j + entry (map (entry d) (chosen mask)) j) (length (chosen mask)) q Hq) as E. rewrite E. clear E.
    assert (Q : forall f, entry (map f (chosen mask)) q = f (nth q (chosen mask) 0%nat)).
    { intro f. unfold entry. rewrite (nth_indep _ 0 (f 0%nat)) by (rewrite map_length; exact Hq). apply map_nth. }
    rewrite !Q. apply displaced_mat; [now apply H|]. pose proof (nth_In (chosen mask) 0%nat Hq) as I. revert I. generalize (nth q (chosen mask) 0%nat). intros v I. unfold chosen in I. apply filter_In in I as [I _]. apply in_seq in I. lia.
  Qed.
  Lemma displaced_eta (c : list R) b i : (i < n)%nat -> eta p X' c b i = eta p X c (b + offset d c) i.
  Proof.
    intro Hi. unfold eta, offset. rewrite Ld.
    rewrite (Sum_ext p _ (fun j => mat X i j * entry c j + entry d j * entry c j)) by (intros j Hj; rewrite displaced_mat by assumption; ring).
    rewrite Sum_plus. ring.
  Qed.
  Lemma displaced_average j : (0 < n)%nat -> (j < p)%nat -> average n (col n X' j) = average n (col n X j) + entry d j.
  Proof.
    intros Hn Hj. unfold average.
    assert (E : forall Y i, (i < n)%nat -> entry (col n Y j) i = mat Y i j) by (intros Y i Hi; unfold col; exact (entry_mapseq (fun i => mat Y i j) n i Hi)).
    rewrite (Sum_ext n (fun i => entry (col n X' j) i) (fun i => mat X i j + entry d j)) by (intros i Hi; rewrite E by exact Hi; now apply displaced_mat).
    rewrite (Sum_ext n (fun i => entry (col n X j) i) (fun i => mat X i j)) by (intros i Hi; now apply E).
    rewrite Sum_plus, Sum_const. field. apply not_0_INR. lia.
  Qed.
  Lemma displaced_comoment y j : (0 < n)%nat -> (j < p)%nat -> comoment true n X' y j = comoment true n X y j.
  Proof.
    intros Hn Hj. unfold comoment. apply Sum_ext. intros i Hi. rewrite displaced_mat, displaced_average by assumption. ring.
  Qed.
  Lemma displaced_alpha_max (y : list R) (mix : R) : (0 < n)%nat -> (0 < p)%nat -> length y = n -> alpha_max (N := Rnum) true p X' y mix = alpha_max (N := Rnum) true p X y mix.
  Proof.
    intros Hn Hp Ly. destruct (alpha_max_value true n p X y HX Hn Ly mix Hp) as (m & Hm & ->).
    destruct (alpha_max_value true n p X' y displaced_matrix Hn Ly mix Hp) as (m2 & Hm2 & ->).
    assert (E : m2 = m); [|now rewrite E]. apply (largest_unique p (comoment true n X y)); [|exact Hm]. destruct Hm2 as [A (j & Hj & Ea)]. split.
    - intros i Hi. rewrite <- displaced_comoment by assumption. now apply A.
    - exists j. split; [exact Hj|]. rewrite <- displaced_comoment by assumption. exact Ea.
  Qed.
End Displaced.

(** ** Minimizers *)
Section Minimizers.
  Variables (k p : nat) (X : list (list R)) (y d : list R).
  Hypothesis HX : matrix k p X.
  Hypothesis Ly : length y = k.
  Hypothesis Ld : length d = p.
  Notation X' := (displaced d X).

  Lemma net_displaced lam mix c b : net k p X' y lam mix c b = net k p X y lam mix c (b + offset d c).
  Proof. unfold net. do 2 f_equal. apply Sum_ext. intros i Hi. now rewrite (displaced_eta k p X d HX Ld). Qed.
  Lemma net_solution_displaced lam mix c : net_solution true k p X' y lam mix c -> net_solution true k p X y lam mix c.
  Proof.
    intros (b & Lc & _ & H). exists (b + offset d c). split; [exact Lc|]. split; [discriminate|]. intros c' b' Lc' _. rewrite <- net_displaced.
    replace b' with (b' - offset d c' + offset d c') by ring. rewrite <- net_displaced. now apply H.
  Qed.
  Lemma error_displaced c b : squared_error p X' y c b = squared_error p X y c (b + offset d c).
  Proof. unfold squared_error. apply Sum_ext. intros i Hi. rewrite (displaced_eta k p X d HX Ld) by lia. reflexivity. Qed.
  Lemma least_displaced m m2 : only_least_squares true p X y m -> least_squares true p X' y m2 -> fst m2 = fst m /\ snd m2 = snd m - offset d (fst m).
  Proof.
    intros [_ U] (Lc & _ & H).
    assert (Q : (fst m2, snd m2 + offset d (fst m2)) = m).
    { apply U. split; [exact Lc|]. split; [discriminate|]. cbn [fst snd]. intros c' b' Lc' _. rewrite <- error_displaced.
      replace b' with (b' - offset d c' + offset d c') by ring. rewrite <- error_displaced. now apply H. }
    rewrite <- Q. cbn [fst snd]. split; [reflexivity|ring].
  Qed.
End Minimizers.

(** ** Selection *)
Lemma selection_same p ts qs splits X X' (y : list R) (lm : solver_net (N := Rnum)) :
  (forall sp q, In sp splits -> In q qs -> same_features p (apply_params (N := Rnum) lm (samples X' (fst sp)) (part_y y (fst sp)) q) (apply_params (N := Rnum) lm (samples X (fst sp)) (part_y y (fst sp)) q)) ->
  selection_module (N := Rnum) lm p ts qs splits X' y = selection_module (N := Rnum) lm p ts qs splits X y.
Proof.
  intro H. unfold selection_module. f_equal. rewrite !flat_map_concat_map. f_equal. apply map_ext. intro z. apply stable_same.
  induction splits as [|sp l IH]; [constructor|]. cbn [map]. constructor; [|apply IH; intros sp' q Hsp; apply H; now right].
  intros r j Hr Hj. set (q0 := nth r qs (RegAlpha 0)).
  assert (E : forall D, nth r (selection_sweep (N := Rnum) lm D y qs sp) [] = apply_params (N := Rnum) lm (samples D (fst sp)) (part_y y (fst sp)) q0).
  { intro D. unfold selection_sweep, q0. rewrite (nth_indep _ [] (apply_params (N := Rnum) lm (matrix_rows (N := Rnum) D (fst sp)) (take_rows (N := Rnum) y (fst sp)) (RegAlpha 0))) by (rewrite map_length; exact Hr). exact (map_nth _ qs (RegAlpha 0) r). }
  pose proof (E X) as E1. pose proof (E X') as E2. rr. rewrite E1, E2. apply (H sp q0 (or_introl eq_refl)); [now apply nth_In|exact Hj].
Qed.
Lemma selection_lengths p ts qs splits X (y : list R) (lm : solver_net (N := Rnum)) mask : In mask (selection_module (N := Rnum) lm p ts qs splits X y) -> length mask = p.
Proof.
  unfold selection_module. intro H. apply (proj1 (usort_rows_in _ _)) in H. apply in_flat_map in H as (t & _ & H). unfold stable_rows in H. apply in_map_iff in H as (r & <- & _).
  now rewrite map_length, seq_length.
Qed.

(** ** Estimation *)
Lemma offset_spread mask (d c : list R) : length mask = length d -> length c = count (fun b => b) mask ->
  offset d (spread_values (N := Rnum) mask c) = offset (map (entry d) (chosen mask)) c.
Proof.
  intros Lm Lc.
  assert (HM : matrix 1 (length d) [d]) by (split; [reflexivity|repeat constructor]).
  pose proof (eta_part 1 (length d) [d] [0%nat] mask c 0 0 HM Lm ltac:(intros i [<-|[]]; lia) Lc ltac:(cbn; lia)) as E.
  unfold offset. rewrite map_length, length_chosen. unfold eta in E. cbn [nth] in E. apply Rplus_eq_reg_l in E. symmetry. exact E.
Qed.

Section Estimate.
  Variables (n p : nat) (X : list (list R)) (y d : list R).
  Hypothesis HX : matrix n p X.
  Hypothesis Ly : length y = n.
  Hypothesis Ld : length d = p.
  Notation X' := (displaced d X).

  (** Predictions of a model on the features of a support. *)
  Lemma decision_displaced mask (m m2 : list R * R) r : length mask = p -> length (fst m) = count (fun b => b) mask ->
    fst m2 = fst m -> snd m2 = snd m - offset (map (entry d) (chosen mask)) (fst m) -> (r < n)%nat ->
    decision (N := Rnum) (fst m2) (snd m2) (pick mask (nth r X' [])) = decision (N := Rnum) (fst m) (snd m) (pick mask (nth r X [])).
  Proof.
    intros Lm Lc E1 E2 Hr.
    refine (eq_trans (decision_part n p X' (displaced_matrix n p X d HX Ld) mask m2 r Lm (eq_trans (f_equal (@length R) E1) Lc) Hr) _).
    refine (eq_trans _ (eq_sym (decision_part n p X HX mask m r Lm Lc Hr))).
    rewrite (displaced_eta n p X d HX Ld) by exact Hr. rewrite E1, E2. rewrite offset_spread by (rewrite ?Ld; assumption). f_equal. ring.
  Qed.

  Lemma estimate_displaced (ols : solver_ls (N := Rnum)) metric target sp mask : (forall i, In i (fst sp) \/ In i (snd sp) -> (i < n)%nat) -> length mask = p ->
    (existsb (fun b => b) mask = true -> let k := count (fun b => b) mask in let yr := part_y y (fst sp) in
       only_least_squares true k (part X (fst sp) mask) yr (ols (part X (fst sp) mask) yr) /\ least_squares true k (part X' (fst sp) mask) yr (ols (part X' (fst sp) mask) yr)) ->
    estimate_support (N := Rnum) ols metric target p X' y sp mask = estimate_support (N := Rnum) ols metric target p X y sp mask.
  Proof.
    intros Hsp Lm H. unfold estimate_support. destruct (existsb (fun b => b) mask); [|reflexivity].
    assert (Hr : forall i, In i (fst sp) -> (i < n)%nat) by (intros i Hi; apply Hsp; now left).
    pose proof (part_masked n p X (fst sp) mask HX Lm Hr) as E1. pose proof (part_masked n p X' (fst sp) mask (displaced_matrix n p X d HX Ld) Lm Hr) as E2. rr. rewrite E1, E2.
    change (take_rows (N := Rnum) y (fst sp)) with (part_y y (fst sp)).
    destruct (H eq_refl) as [U S]. set (m := ols (part X (fst sp) mask) (part_y y (fst sp))) in *. set (m2 := ols (part X' (fst sp) mask) (part_y y (fst sp))) in *.
    assert (HM : matrix (length (fst sp)) (count (fun b => b) mask) (part X (fst sp) mask)).
    { split; [unfold part; now rewrite map_length|]. apply Forall_forall. intros v Hv. unfold part in Hv. apply in_map_iff in Hv as (i & <- & _). now rewrite map_length, length_chosen. }
    rewrite (displaced_part n p X d HX Ld (fst sp) mask Hr Lm) in S.
    destruct (least_displaced (length (fst sp)) (count (fun b => b) mask) (part X (fst sp) mask) (part_y y (fst sp)) (map (entry d) (chosen mask)) HM (map_length _ _) ltac:(now rewrite map_length, length_chosen) m m2 U S) as [F1 F2].
    assert (Lc : length (fst m) = count (fun b => b) mask) by apply U.
    assert (EP : ls_predict (N := Rnum) m2 (masked_columns (N := Rnum) mask (matrix_rows (N := Rnum) X' (target_rows target sp))) = ls_predict (N := Rnum) m (masked_columns (N := Rnum) mask (matrix_rows (N := Rnum) X (target_rows target sp)))).
    { unfold ls_predict, masked_columns, matrix_rows. rewrite !map_map. apply map_ext_in. intros r Hi. apply decision_displaced; try assumption.
      apply Hsp. unfold target_rows in Hi. destruct (target =? 0)%nat; tauto. }
    unfold linear_score. rr. rewrite EP. assert (F3 : spread_values (N := Rnum) mask (fst m2) = spread_values (N := Rnum) mask (fst m)) by (f_equal; exact F1). rr. now rewrite F3.
  Qed.

  Lemma intercept_displaced c : (0 < n)%nat -> length c = p -> linear_intercept (N := Rnum) true p X' y c = linear_intercept (N := Rnum) true p X y c - offset d c.
  Proof.
    intros Hn Lc. pose proof (Proofs_PoissonOpt.linear_intercept_value n p X y c HX Hn Ly Lc) as E1. pose proof (Proofs_PoissonOpt.linear_intercept_value n p X' y c (displaced_matrix n p X d HX Ld) Hn Ly Lc) as E2. rr. rewrite E1, E2.
    unfold offset. rewrite Ld. assert (HN' : INR n <> 0) by (apply not_0_INR; lia).
    assert (Q : forall Y j, matrix n p Y -> average n (map (fun r => entry r j) Y) = Sum n (fun i => mat Y i j) / INR n).
    { intros Y j [LY _]. unfold average. f_equal. apply Sum_ext. intros i Hi. unfold mat. unfold entry at 1. rewrite (nth_indep _ 0 (entry [] j)) by (rewrite map_length; lia). exact (map_nth (fun r => entry r j) Y [] i). }
    rewrite (Sum_ext p (fun j => average n (map (fun r => entry r j) X') * entry c j) (fun j => average n (map (fun r => entry r j) X) * entry c j + entry d j * entry c j)); [rewrite Sum_plus; ring|].
    intros j Hj. rewrite (Q X' j (displaced_matrix n p X d HX Ld)), (Q X j HX).
    rewrite (Sum_ext n (fun i => mat X' i j) (fun i => mat X i j + entry d j)) by (intros i Hi; now apply (displaced_mat n p X d HX Ld)).
    rewrite Sum_plus, Sum_const. field. exact HN'.
  Qed.
End Estimate.

(** ** The fit *)
Section Fit.
  Variables (n p : nat) (X : list (list R)) (y d : list R).
  Hypothesis HX : matrix n p X.
  Hypothesis Hn : (0 < n)%nat.
  Hypothesis Hp : (0 < p)%nat.
  Hypothesis Ly : length y = n.
  Hypothesis Ld : length d = p.
  Notation X' := (displaced d X).

  Lemma regressor_displaced metric target (ols : solver_ls (N := Rnum)) select est : select X' y = select X y ->
    (forall mask, In mask (select X y) -> length mask = p) ->
    (forall sp, In sp est -> (forall i, In i (fst sp) \/ In i (snd sp) -> (i < n)%nat) /\
       forall mask, In mask (select X y) -> existsb (fun b => b) mask = true -> let k := count (fun b => b) mask in let yr := part_y y (fst sp) in
       only_least_squares true k (part X (fst sp) mask) yr (ols (part X (fst sp) mask) yr) /\ least_squares true k (part X' (fst sp) mask) yr (ols (part X' (fst sp) mask) yr)) ->
    regressor_fit (N := Rnum) false true metric target p ols select est X' y = rmap (moved_model d) (regressor_fit (N := Rnum) false true metric target p ols select est X y).
  Proof.
    intros ES HL H. unfold regressor_fit.
    assert (E0 : forall D, linear_pre (N := Rnum) false true p D y = (D, y)) by (intro D; unfold linear_pre, base_transform; now rewrite map_id).
    pose proof (E0 X) as E1. pose proof (E0 X') as E2. rr. rewrite E1, E2. clear E0 E1 E2. cbn [fst snd]. rewrite ES.
    destruct (constant_response y).
    - cbn [bind rmap fst snd]. unfold linear_post, moved_model. cbn [fst snd]. do 2 f_equal.
      exact (intercept_displaced n p X y d HX Ly Ld (repeat 0 p) Hn (repeat_length _ _)).
    - unfold estimation_module.
      match goal with |- bind (bind (mapM ?f est) _) _ = rmap _ (bind (bind (mapM ?g est) _) _) => assert (E : mapM f est = mapM g est) end.
      { apply mapM_ext_in. intros sp Hsp. destruct (H sp Hsp) as [H1 H2]. f_equal. apply mapM_ext_in. intros mask Hm.
        apply (estimate_displaced n p X y d HX Ld); [exact H1|now apply HL|exact (H2 mask Hm)]. }
      rr. rewrite E. clear E. match goal with |- context [mapM ?g est] => destruct (mapM g est) as [best|e] end; [|reflexivity]. cbn [bind rmap fst snd]. unfold linear_post, moved_model. cbn [fst snd]. do 2 f_equal.
      apply (intercept_displaced n p X y d HX Ly Ld _ Hn). unfold bagged. now rewrite map_length, seq_length.
  Qed.
End Fit.

Section Regressors.
  Variables (n p : nat) (X : list (list R)) (y d : list R).
  Hypothesis HX : matrix n p X.
  Hypothesis Hn : (0 < n)%nat.
  Hypothesis Hp : (0 < p)%nat.
  Hypothesis Ly : length y = n.
  Hypothesis Ld : length d = p.
  Notation X' := (displaced d X).

  Lemma samples_matrix rows : (forall i, In i rows -> (i < n)%nat) -> matrix (length rows) p (samples X rows).
  Proof.
    intro H. split; [unfold samples; now rewrite map_length|]. apply Forall_forall. intros r Hr. unfold samples in Hr. apply in_map_iff in Hr as (i & <- & Hi).
    exact (row_length n p X i HX (H i Hi)).
  Qed.
  Lemma features_displaced (net : solver_net (N := Rnum)) rows (lam mix : R) : (forall i, In i rows -> (i < n)%nat) ->
    let yr := part_y y rows in let k := length rows in
    clear_features true k p (samples X rows) yr lam mix -> net_solution true k p (samples X rows) yr lam mix (net (samples X rows) yr lam mix) ->
    net_solution true k p (samples X' rows) yr lam mix (net (samples X' rows) yr lam mix) ->
    same_features p (net (samples X' rows) yr lam mix) (net (samples X rows) yr lam mix).
  Proof.
    intros Hr yr k U S1 S2. apply U; [|exact S1]. revert S2. rewrite (displaced_rows n p X d HX Ld rows Hr) at 1. intro S2.
    exact (net_solution_displaced k p (samples X rows) yr d (samples_matrix rows Hr) Ld lam mix _ S2).
  Qed.

  Lemma lasso_displaced metric target eps num ts (net : solver_net (N := Rnum)) (ols : solver_ls (N := Rnum)) sel est :
    (forall sp (lam : R) (g : list R), In sp sel -> lasso_grid (N := Rnum) true p X y eps num = Ok g -> In lam g ->
       let yr := part_y y (fst sp) in let k := length (fst sp) in
       (forall i, In i (fst sp) -> (i < n)%nat) /\ clear_features true k p (samples X (fst sp)) yr lam 1 /\
       net_solution true k p (samples X (fst sp)) yr lam 1 (net (samples X (fst sp)) yr lam 1) /\
       net_solution true k p (samples X' (fst sp)) yr lam 1 (net (samples X' (fst sp)) yr lam 1)) ->
    let supports := lasso_select (N := Rnum) true p eps num net ts sel X y in
    (forall sp, In sp est -> (forall i, In i (fst sp) \/ In i (snd sp) -> (i < n)%nat) /\
       forall mask, In mask supports -> existsb (fun b => b) mask = true -> let k := count (fun b => b) mask in let yr := part_y y (fst sp) in
       only_least_squares true k (part X (fst sp) mask) yr (ols (part X (fst sp) mask) yr) /\ least_squares true k (part X' (fst sp) mask) yr (ols (part X' (fst sp) mask) yr)) ->
    lasso_select (N := Rnum) true p eps num net ts sel X' y = supports /\
    lasso_fit (N := Rnum) false true eps num ts metric target p net ols sel est X' y = rmap (moved_model d) (lasso_fit (N := Rnum) false true eps num ts metric target p net ols sel est X y).
  Proof.
    intros Hs supports He.
    assert (EG : lasso_grid (N := Rnum) true p X' y eps num = lasso_grid (N := Rnum) true p X y eps num).
    { unfold lasso_grid, alpha_grid. pose proof (displaced_alpha_max n p X d HX Ld y 1 Hn Hp Ly) as E. change (none (N := Rnum)) with 1. rr. now rewrite E. }
    assert (ES : lasso_select (N := Rnum) true p eps num net ts sel X' y = supports).
    { unfold supports, lasso_select. rewrite EG. destruct (lasso_grid (N := Rnum) true p X y eps num) as [g|e] eqn:Eg; [|reflexivity]. cbn [rmap select_with].
      apply selection_same. intros sp q Hsp Hq. apply in_map_iff in Hq as (lam & <- & Hl). destruct (Hs sp lam g Hsp eq_refl Hl) as (Hr & U & S1 & S2). cbn [apply_params].
      exact (features_displaced net (fst sp) lam 1 Hr U S1 S2). }
    split; [exact ES|]. unfold lasso_fit. apply (regressor_displaced n p X y d HX Hn Ly Ld); [exact ES| |exact He].
    intros mask. unfold lasso_select. destruct (lasso_grid _ _ _ _ _ _) as [g|e]; [|intros []]. cbn [rmap select_with]. apply selection_lengths.
  Qed.

  Lemma elastic_displaced metric target eps num alphas ts (net : solver_net (N := Rnum)) (ols : solver_ls (N := Rnum)) sel est :
    (forall sp (lam mix : R) g, In sp sel -> elastic_reg_params (N := Rnum) true p X y eps num alphas = Ok g -> In (RegPair lam mix) g ->
       let yr := part_y y (fst sp) in let k := length (fst sp) in
       (forall i, In i (fst sp) -> (i < n)%nat) /\ clear_features true k p (samples X (fst sp)) yr lam mix /\
       net_solution true k p (samples X (fst sp)) yr lam mix (net (samples X (fst sp)) yr lam mix) /\
       net_solution true k p (samples X' (fst sp)) yr lam mix (net (samples X' (fst sp)) yr lam mix)) ->
    let supports := elastic_select (N := Rnum) true p eps num alphas net ts sel X y in
    (forall sp, In sp est -> (forall i, In i (fst sp) \/ In i (snd sp) -> (i < n)%nat) /\
       forall mask, In mask supports -> existsb (fun b => b) mask = true -> let k := count (fun b => b) mask in let yr := part_y y (fst sp) in
       only_least_squares true k (part X (fst sp) mask) yr (ols (part X (fst sp) mask) yr) /\ least_squares true k (part X' (fst sp) mask) yr (ols (part X' (fst sp) mask) yr)) ->
    elastic_select (N := Rnum) true p eps num alphas net ts sel X' y = supports /\
    elastic_fit (N := Rnum) false true eps num alphas ts metric target p net ols sel est X' y = rmap (moved_model d) (elastic_fit (N := Rnum) false true eps num alphas ts metric target p net ols sel est X y).
  Proof.
    intros Hs supports He.
    assert (EG : elastic_reg_params (N := Rnum) true p X' y eps num alphas = elastic_reg_params (N := Rnum) true p X y eps num alphas).
    { unfold elastic_reg_params. f_equal. apply mapM_ext_in. intros a _. unfold alpha_grid. pose proof (displaced_alpha_max n p X d HX Ld y a Hn Hp Ly) as E. rr. now rewrite E. }
    assert (ES : elastic_select (N := Rnum) true p eps num alphas net ts sel X' y = supports).
    { unfold supports, elastic_select. rewrite EG. destruct (elastic_reg_params (N := Rnum) true p X y eps num alphas) as [g|e] eqn:Eg; [|reflexivity]. cbn [select_with].
      apply selection_same. intros sp q Hsp Hq.
      assert (Q : exists lam mix : R, q = RegPair lam mix).
      { unfold elastic_reg_params in Eg. destruct (mapM _ alphas) as [gs|e]; [|discriminate]. cbn [rmap] in Eg. apply ok_inj in Eg. subst g. destruct (pairs_in _ _ _ Hq) as (a & g0 & lam & E & _). eauto. }
      destruct Q as (lam & mix & ->). destruct (Hs sp lam mix g Hsp eq_refl Hq) as (Hr & U & S1 & S2). cbn [apply_params].
      exact (features_displaced net (fst sp) lam mix Hr U S1 S2). }
    split; [exact ES|]. unfold elastic_fit. apply (regressor_displaced n p X y d HX Hn Ly Ld); [exact ES| |exact He].
    intros mask. unfold elastic_select. destruct (elastic_reg_params _ _ _ _ _ _ _) as [g|e]; [|intros []]. cbn [select_with]. apply selection_lengths.
  Qed.
End Regressors.
