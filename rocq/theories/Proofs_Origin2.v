(** Proofs about the zero points of the features (C131): UoI_Poisson. *)
From Coq Require Import ZArith String List Bool Arith Lia Reals Lra.
From Verif Require Import Prelude F64 Num Model_Intersection Model_Fit Model_Scores Model_Refit Model_Rescale Model_Poisson Model_Linear Model_Estimation Model_Selection Model_CountFit
  Proofs_Intersection Spec_Rescale Proofs_Rescale Spec_Poisson Proofs_Poisson Proofs_PoissonOpt Spec_Linear Proofs_Linear
  Proofs_LinearUnits Spec_Estimation Proofs_Estimation Proofs_Estimation2 Proofs_Estimation3 Spec_Choice Proofs_Choice Spec_Units Proofs_Units Spec_CountFit Proofs_CountFit Proofs_Flat Proofs_Totals Proofs_SampleOrder Spec_Origin Proofs_Origin.
Import ListNotations.
Local Open Scope R_scope.

Section CountMinimizers.
  Variables (k p : nat) (X : list (list R)) (y d : list R) (w : nat -> R).
  Hypothesis HX : matrix k p X.
  Hypothesis Ld : length d = p.
  Notation X' := (displaced d X).

  Lemma count_objective_displaced lam mix c b : count_objective w k p X' y lam mix c b = count_objective w k p X y lam mix c (b + offset d c).
  Proof. unfold count_objective. do 2 f_equal. apply Sum_ext. intros i Hi. now rewrite (displaced_eta k p X d HX Ld). Qed.
  Lemma count_minimizer_displaced lam mix m : count_minimizer w k p X' y lam mix m -> count_minimizer w k p X y lam mix (fst m, snd m + offset d (fst m)).
  Proof.
    intros (Lc & H). split; [exact Lc|]. cbn [fst snd]. intros c' b' Lc'. rewrite <- count_objective_displaced.
    replace b' with (b' - offset d c' + offset d c') by ring. rewrite <- count_objective_displaced. now apply H.
  Qed.
  Lemma only_count_displaced lam mix m m2 : only_minimizer w k p X y lam mix m -> count_minimizer w k p X' y lam mix m2 -> fst m2 = fst m /\ snd m2 = snd m - offset d (fst m).
  Proof. intros [_ U] H. pose proof (U _ (count_minimizer_displaced lam mix m2 H)) as Q. rewrite <- Q. cbn [fst snd]. split; [reflexivity|ring]. Qed.
End CountMinimizers.

Section CountOrigin.
  Variables (n p : nat) (X : list (list R)) (y d : list R).
  Hypothesis HX : matrix n p X.
  Hypothesis Hn : (0 < n)%nat.
  Hypothesis Hp : (0 < p)%nat.
  Hypothesis Ly : length y = n.
  Hypothesis Ld : length d = p.
  Notation X' := (displaced d X).

  Lemma residual_zero : Sum n (fun i => entry y i - average n y) = 0.
  Proof.
    set (a := average n y). rewrite (Sum_ext n _ (fun i => entry y i + - a)) by (intros; ring).
    rewrite (Sum_plus n (fun i => entry y i) (fun _ => - a)), Sum_const. unfold a, average. field. apply not_0_INR. lia.
  Qed.
  Lemma lambda_displaced (mix : R) : poisson_lambda_max (N := Rnum) p X' y mix = poisson_lambda_max (N := Rnum) p X y mix.
  Proof.
    destruct (lambda_max_value n p X y HX Hn Hp Ly mix) as (m & A & (j & Hj & Ea) & ->).
    destruct (lambda_max_value n p X' y (displaced_matrix n p X d HX Ld) Hn Hp Ly mix) as (m2 & A2 & (j2 & Hj2 & Ea2) & ->).
    assert (E : forall j, (j < p)%nat -> cov n X' y j = cov n X y j).
    { intros i Hi. unfold cov. rewrite (Sum_ext n _ (fun q => mat X q i * (entry y q - average n y) + entry d i * (entry y q - average n y))) by (intros q Hq; rewrite (displaced_mat n p X d HX Ld) by assumption; ring).
      rewrite Sum_plus, (Sum_scal n (fun q => entry y q - average n y) (entry d i)), residual_zero. ring. }
    assert (Q : m2 = m); [|now rewrite Q]. apply Rle_antisym; [rewrite <- Ea2, (E j2 Hj2); now apply A|rewrite <- Ea, <- (E j Hj); now apply A2].
  Qed.
  Lemma count_intercept_displaced (c : list R) : 0 < average n y -> length c = p -> uoi_poisson_intercept (N := Rnum) true X' y c = uoi_poisson_intercept (N := Rnum) true X y c - offset d c.
  Proof.
    intros Hy Lc. assert (HN' : 0 < INR n) by (now apply lt_0_INR).
    assert (T : 0 < Sum n (fun i => entry y i)).
    { unfold average in Hy. apply (Rmult_lt_compat_r _ _ _ HN') in Hy. unfold Rdiv in Hy. rewrite Rmult_assoc, Rinv_l, Rmult_1_r, Rmult_0_l in Hy by lra. exact Hy. }
    pose proof (poisson_intercept_total n p X y c HX Hn Ly Lc T) as E1. pose proof (poisson_intercept_total n p X' y c (displaced_matrix n p X d HX Ld) Hn Ly Lc T) as E2.
    set (b := uoi_poisson_intercept (N := Rnum) true X y c) in *. set (b2 := uoi_poisson_intercept (N := Rnum) true X' y c) in *.
    rewrite (Sum_ext n _ (fun i => exp (b2 + offset d c - b) * exp (eta p X c b i))) in E2.
    - rewrite (Sum_scal n (fun i => exp (eta p X c b i)) (exp (b2 + offset d c - b))) in E2. rr. rewrite E1 in E2.
      assert (Q : exp (b2 + offset d c - b) = 1) by (apply (Rmult_eq_reg_r (Sum n (fun i => entry y i))); lra).
      rewrite <- exp_0 in Q. apply exp_inv in Q. rr. lra.
    - intros i Hi. rewrite (displaced_eta n p X d HX Ld) by exact Hi. rewrite <- exp_plus. f_equal. unfold eta. rr. ring.
  Qed.
End CountOrigin.

Section CountFitOrigin.
  Variables (n p : nat) (X : list (list R)) (y d : list R).
  Hypothesis HX : matrix n p X.
  Hypothesis Hn : (0 < n)%nat.
  Hypothesis Hp : (0 < p)%nat.
  Hypothesis Ly : length y = n.
  Hypothesis Ld : length d = p.
  Notation X' := (displaced d X).

  Lemma estimate_count_displaced (lm : solver_glm (N := Rnum)) metric target sp mask : (forall i, In i (fst sp) \/ In i (snd sp) -> (i < n)%nat) -> length mask = p ->
    (existsb (fun b => b) mask = true -> let k := count (fun b => b) mask in let yr := part_y y (fst sp) in let m := lm (part X (fst sp) mask) yr 0 1 in let m2 := lm (part X' (fst sp) mask) yr 0 1 in
       (exists w, only_minimizer w (length (fst sp)) k (part X (fst sp) mask) yr 0 1 m /\ count_minimizer w (length (fst sp)) k (part X' (fst sp) mask) yr 0 1 m2) /\
       (metric = "log"%string \/ (snd m = 0 <-> snd m2 = 0))) ->
    estimate_count (N := Rnum) lm metric target p X' y sp mask = estimate_count (N := Rnum) lm metric target p X y sp mask.
  Proof.
    intros Hsp Lm H. unfold estimate_count. destruct (existsb (fun b => b) mask); [|reflexivity].
    assert (Hr : forall i, In i (fst sp) -> (i < n)%nat) by (intros i Hi; apply Hsp; now left).
    pose proof (part_masked n p X (fst sp) mask HX Lm Hr) as E1. pose proof (part_masked n p X' (fst sp) mask (displaced_matrix n p X d HX Ld) Lm Hr) as E2. rr. rewrite E1, E2.
    change (take_rows (N := Rnum) y (fst sp)) with (part_y y (fst sp)). change (nzero (N := Rnum)) with 0. change (none (N := Rnum)) with 1.
    destruct (H eq_refl) as [(w & U & S) HI]. set (m := lm (part X (fst sp) mask) (part_y y (fst sp)) 0 1) in *. set (m2 := lm (part X' (fst sp) mask) (part_y y (fst sp)) 0 1) in *.
    assert (HM : matrix (length (fst sp)) (count (fun b => b) mask) (part X (fst sp) mask)).
    { split; [unfold part; now rewrite map_length|]. apply Forall_forall. intros v Hv. unfold part in Hv. apply in_map_iff in Hv as (i & <- & _). now rewrite map_length, length_chosen. }
    rewrite (displaced_part n p X d HX Ld (fst sp) mask Hr Lm) in S.
    destruct (only_count_displaced (length (fst sp)) (count (fun b => b) mask) (part X (fst sp) mask) (part_y y (fst sp)) (map (entry d) (chosen mask)) w HM ltac:(now rewrite map_length, length_chosen) 0 1 m m2 U S) as [F1 F2].
    assert (Lc : length (fst m) = count (fun b => b) mask) by apply U.
    assert (EP : predict_mean (N := Rnum) (mkPoisson (Some (fst m2)) (Some (snd m2))) (masked_columns (N := Rnum) mask (matrix_rows (N := Rnum) X' (target_rows target sp))) =
                 predict_mean (N := Rnum) (mkPoisson (Some (fst m)) (Some (snd m))) (masked_columns (N := Rnum) mask (matrix_rows (N := Rnum) X (target_rows target sp)))).
    { unfold predict_mean. cbn [coef_ intercept_]. f_equal. unfold matvec, masked_columns, matrix_rows. rewrite !map_map. apply map_ext_in. intros r Hi.
      assert (Hi' : (r < n)%nat) by (apply Hsp; unfold target_rows in Hi; destruct (target =? 0)%nat; tauto).
      pose proof (decision_displaced n p X d HX Ld mask m m2 r Lm Lc F1 F2 Hi') as E. unfold decision in E.
      match type of E with nadd ?u ?v = nadd ?a ?b => change (u + v = a + b) in E; change (exp (v + u) = exp (b + a)) end. f_equal. rr. lra. }
    assert (F3 : spread_values (N := Rnum) mask (fst m2) = spread_values (N := Rnum) mask (fst m)) by (f_equal; exact F1).
    unfold poisson_score. rr. rewrite EP, F3. clear EP F3. destruct (predict_mean _ _) as [yp|e]; [|reflexivity]. cbn [bind].
    destruct HI as [->|HI]; [reflexivity|].
    assert (EN : nnonzero (N := Rnum) (snd m2) = nnonzero (N := Rnum) (snd m)).
    { unfold nnonzero, nzero. cbn [neqb nofZ Rnum]. unfold Reqb. destruct (Req_EM_T (snd m2) 0), (Req_EM_T (snd m) 0); tauto. }
    rr. now rewrite EN.
  Qed.

  Lemma poisson_displaced metric target eps num alphas ts (sel_lm est_lm : solver_glm (N := Rnum)) sel est (w : list nat -> nat -> R) : 0 < average n y ->
    (forall sp (lam mix : R), In sp sel -> In (RegPair lam mix) (poisson_reg_params (N := Rnum) p X y eps num alphas) ->
       let yr := part_y y (fst sp) in let k := length (fst sp) in
       (forall i, In i (fst sp) -> (i < n)%nat) /\ clear_counts (w (fst sp)) k p (samples X (fst sp)) yr lam mix /\
       count_minimizer (w (fst sp)) k p (samples X (fst sp)) yr lam mix (sel_lm (samples X (fst sp)) yr lam mix) /\
       count_minimizer (w (fst sp)) k p (samples X' (fst sp)) yr lam mix (sel_lm (samples X' (fst sp)) yr lam mix)) ->
    let supports := count_select (N := Rnum) p eps num alphas sel_lm ts sel X y in
    (forall sp, In sp est -> (forall i, In i (fst sp) \/ In i (snd sp) -> (i < n)%nat) /\
       forall mask, In mask supports -> existsb (fun b => b) mask = true ->
       let k := count (fun b => b) mask in let yr := part_y y (fst sp) in let m := est_lm (part X (fst sp) mask) yr 0 1 in let m2 := est_lm (part X' (fst sp) mask) yr 0 1 in
       (exists w, only_minimizer w (length (fst sp)) k (part X (fst sp) mask) yr 0 1 m /\ count_minimizer w (length (fst sp)) k (part X' (fst sp) mask) yr 0 1 m2) /\
       (metric = "log"%string \/ (snd m = 0 <-> snd m2 = 0))) ->
    count_select (N := Rnum) p eps num alphas sel_lm ts sel X' y = supports /\
    count_fit (N := Rnum) false true eps num alphas ts metric target p sel_lm est_lm sel est X' y = rmap (moved_model d) (count_fit (N := Rnum) false true eps num alphas ts metric target p sel_lm est_lm sel est X y).
  Proof.
    intros Hy Hs supports He.
    assert (EG : poisson_reg_params (N := Rnum) p X' y eps num alphas = poisson_reg_params (N := Rnum) p X y eps num alphas).
    { unfold poisson_reg_params. f_equal. apply map_ext. intro a. unfold poisson_grid. pose proof (lambda_displaced n p X y d HX Hn Hp Ly Ld a) as E. rr. now rewrite E. }
    assert (ES : count_select (N := Rnum) p eps num alphas sel_lm ts sel X' y = supports).
    { unfold supports, count_select. rewrite EG. apply selection_same. intros sp q Hsp Hq.
      assert (Q : exists lam mix : R, q = RegPair lam mix) by (unfold poisson_reg_params in Hq; destruct (pairs_in _ _ _ Hq) as (a & g0 & lam & E & _); eauto).
      destruct Q as (lam & mix & ->). destruct (Hs sp lam mix Hsp Hq) as (Hr & U & S1 & S2). cbn [apply_params].
      intros j Hj. set (m2 := sel_lm (samples X' (fst sp)) (part_y y (fst sp)) lam mix) in *. rewrite (displaced_rows n p X d HX Ld (fst sp) Hr) in S2.
      exact (U _ _ (count_minimizer_displaced _ p _ _ d (w (fst sp)) (samples_matrix n p X HX (fst sp) Hr) Ld lam mix m2 S2) S1 j Hj). }
    split; [exact ES|]. unfold count_fit.
    assert (E0 : forall D, map (centering_transform (N := Rnum) false (fit_scaler (columns p D))) D = D) by (intro D; unfold centering_transform; apply map_id).
    pose proof (E0 X) as E1. pose proof (E0 X') as E2. rr. rewrite E1, E2. clear E0 E1 E2. rewrite ES. fold supports.
    destruct (constant_response y).
    - cbn [bind rmap fst snd]. unfold poisson_post, moved_model. cbn [fst snd]. do 2 f_equal.
      exact (count_intercept_displaced n p X y d HX Hn Ly Ld (repeat 0 p) Hy (repeat_length _ _)).
    - unfold count_module.
      match goal with |- bind (bind (mapM ?f est) _) _ = rmap _ (bind (bind (mapM ?g est) _) _) => assert (E : mapM f est = mapM g est) end.
      { apply mapM_ext_in. intros sp Hsp. destruct (He sp Hsp) as [H1 H2]. f_equal. apply mapM_ext_in. intros mask Hm.
        apply estimate_count_displaced; [exact H1|exact (selection_lengths _ _ _ _ _ _ _ _ Hm)|exact (H2 mask Hm)]. }
      rr. rewrite E. clear E. match goal with |- context [mapM ?g est] => destruct (mapM g est) as [best|e] end; [|reflexivity]. cbn [bind rmap fst snd]. unfold poisson_post, moved_model. cbn [fst snd]. do 2 f_equal.
      apply (count_intercept_displaced n p X y d HX Hn Ly Ld); [exact Hy|]. unfold bagged. now rewrite map_length, seq_length.
  Qed.
End CountFitOrigin.
