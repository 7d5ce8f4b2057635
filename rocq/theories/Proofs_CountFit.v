(** Proofs about UoI_Poisson in other units of the response (C125). *)
From Coq Require Import ZArith String List Bool Arith Lia Reals Lra Psatz.
From Verif Require Import Prelude F64 Num Model_Intersection Model_Fit Model_Scores Model_Refit Model_Rescale Model_Poisson Model_Linear Model_Estimation Model_Selection Model_CountFit
  Proofs_Intersection Spec_Rescale Proofs_Rescale Spec_Poisson Proofs_Poisson Proofs_PoissonOpt Spec_Linear Proofs_Linear
  Proofs_LinearUnits Spec_Estimation Proofs_Estimation Proofs_Estimation2 Spec_Choice Proofs_Choice Proofs_LogisticLost Spec_Units Proofs_Units Proofs_Units2 Proofs_Units3 Spec_CountFit.
Import ListNotations.
Local Open Scope R_scope.

Notation times s y := (map (Rmult s) y).
Lemma part_times s (y : list R) rows : part_y (times s y) rows = times s (part_y y rows).
Proof. unfold part_y. rewrite map_map. apply map_ext. intro i. apply entry_scaled. Qed.

Section Scale.
  Variable s : R.
  Hypothesis Hs : 0 < s.

  (** ** The objective *)
  Lemma eta_plus p X c b k i : eta p X c (b + k) i = eta p X c b i + k.
  Proof. unfold eta. ring. Qed.
  Lemma penalty_lam p k lam mix c : penalty p (k * lam) mix c = k * penalty p lam mix c.
  Proof. unfold penalty. ring. Qed.
  Lemma objective_times d n p X y lam mix c b :
    count_objective d n p X (times s y) (s * lam) mix c (b + ln s)
    = s * count_objective d n p X y lam mix c b - s * ln s * (/ INR n * Sum n (fun i => entry y i)).
  Proof.
    unfold count_objective. rewrite penalty_lam.
    rewrite (Sum_ext n _ (fun i => s * (exp (eta p X c b i) - entry y i * eta p X c b i) - s * ln s * entry y i)).
    - rewrite (Sum_minus n (fun i => s * (exp (eta p X c b i) - entry y i * eta p X c b i)) (fun i => s * ln s * entry y i)).
      rewrite (Sum_scal n (fun i => exp (eta p X c b i) - entry y i * eta p X c b i) s), (Sum_scal n (fun i => entry y i) (s * ln s)). ring.
    - intros i _. rewrite eta_plus, entry_scaled, exp_plus, exp_ln by exact Hs. ring.
  Qed.
  Lemma minimizer_times d n p X y lam mix m :
    count_minimizer d n p X (times s y) (s * lam) mix m -> count_minimizer d n p X y lam mix (fst m, snd m - ln s).
  Proof.
    intros [L H]. split; [exact L|]. cbn [fst snd]. intros c' b' L'. specialize (H c' (b' + ln s) L').
    replace (snd m) with (snd m - ln s + ln s) in H by ring. rewrite !objective_times in H.
    apply (Rmult_le_reg_l s); [exact Hs|lra].
  Qed.

  (** ** Penalties *)
  Lemma average_times n y : average n (times s y) = s * average n y.
  Proof. unfold average. rewrite (Sum_ext n _ (fun i => s * entry y i)) by (intros i _; apply entry_scaled). rewrite (Sum_scal n (fun i => entry y i) s). unfold Rdiv. ring. Qed.
  Lemma lambda_times n p X (y : list R) (mix : R) : matrix n p X -> (0 < n)%nat -> (0 < p)%nat -> length y = n ->
    poisson_lambda_max (N := Rnum) p X (times s y) mix = s * poisson_lambda_max (N := Rnum) p X y mix.
  Proof.
    intros HX Hn Hp Ly. destruct (lambda_max_value n p X y HX Hn Hp Ly mix) as (m & A & (j & Hj & Ea) & ->).
    destruct (lambda_max_value n p X (times s y) HX Hn Hp (eq_trans (map_length _ _) Ly) mix) as (m2 & A2 & (j2 & Hj2 & Ea2) & ->).
    unfold cov in A, A2, Ea, Ea2.
    assert (C : forall j, Sum n (fun i => mat X i j * (entry (times s y) i - average n (times s y))) = s * Sum n (fun i => mat X i j * (entry y i - average n y))).
    { intro q. rewrite <- (Sum_scal n (fun i => mat X i q * (entry y i - average n y)) s). apply Sum_ext. intros i _. rewrite average_times, entry_scaled. ring. }
    assert (E : m2 = s * m); [|rr; rewrite E; unfold Rdiv; ring].
    rewrite <- Ea. rewrite <- Ea2. apply Rle_antisym.
    - rewrite C, Rabs_mult, (Rabs_pos_eq s) by lra. apply Rmult_le_compat_l; [lra|]. rewrite Ea. now apply A.
    - rewrite Ea2. refine (Rle_trans _ _ _ _ (A2 j Hj)). rewrite C, Rabs_mult, (Rabs_pos_eq s) by lra. apply Rle_refl.
  Qed.
  Lemma linspace_shift (a b k : R) num : linspace (N := Rnum) (a + k) (b + k) num = map (fun v => v + k) (linspace (N := Rnum) a b num).
  Proof.
    unfold linspace. rewrite map_map. apply map_ext. intro i. destruct (_ && _)%bool; [reflexivity|].
    change (nofnat (N := Rnum) i * ((b + k - (a + k)) / nofnat (N := Rnum) (num - 1)) + (a + k) = nofnat (N := Rnum) i * ((b - a) / nofnat (N := Rnum) (num - 1)) + a + k).
    replace (b + k - (a + k)) with (b - a) by ring. ring.
  Qed.
  Lemma log10_times (x : R) : 0 < x -> log10 (N := Rnum) (s * x) = log10 (N := Rnum) x + log10 (N := Rnum) s.
  Proof. intro Hx. change (ln (s * x) / ln 10 = ln x / ln 10 + ln s / ln 10). rewrite ln_mult by assumption. unfold Rdiv. ring. Qed.
  Lemma pow10_times (x : R) : pow10 (N := Rnum) (x + log10 (N := Rnum) s) = s * pow10 (N := Rnum) x.
  Proof.
    rewrite <- (pow10_log10 s Hs) at 2. change (exp ((x + log10 (N := Rnum) s) * ln 10) = exp (log10 (N := Rnum) s * ln 10) * exp (x * ln 10)). rewrite <- exp_plus. f_equal. ring.
  Qed.
  Lemma grid_times n p X (y : list R) (eps : R) num (mix : R) : matrix n p X -> (0 < n)%nat -> (0 < p)%nat -> length y = n -> 0 < eps ->
    0 < poisson_lambda_max (N := Rnum) p X y mix ->
    poisson_grid (N := Rnum) p X (times s y) eps num mix = times s (poisson_grid (N := Rnum) p X y eps num mix).
  Proof.
    intros HX Hn Hp Ly He Hl. unfold poisson_grid. rewrite (lambda_times n p X y mix HX Hn Hp Ly). set (l := poisson_lambda_max (N := Rnum) p X y mix) in *.
    unfold logspace. cbn [nmul Rnum]. rr. replace (eps * (s * l)) with (s * (eps * l)) by ring.
    rewrite !log10_times by (try exact Hl; apply Rmult_lt_0_compat; assumption). rewrite linspace_shift, !map_map. apply map_ext. intro x. apply pow10_times.
  Qed.
  Definition times_param (q : reg_param R R) : reg_param R R :=
    match q with RegAlpha l => RegAlpha (s * l) | RegPair l a => RegPair (s * l) a | RegC l => RegC (s * l) end.
  Lemma params_times n p X (y : list R) (eps : R) num alphas : matrix n p X -> (0 < n)%nat -> (0 < p)%nat -> length y = n -> 0 < eps ->
    (forall a, In a alphas -> 0 < poisson_lambda_max (N := Rnum) p X y a) ->
    poisson_reg_params (N := Rnum) p X (times s y) eps num alphas = map times_param (poisson_reg_params (N := Rnum) p X y eps num alphas).
  Proof.
    intros HX Hn Hp Ly He Hl. unfold poisson_reg_params, pairs. induction alphas as [|a l IH]; [reflexivity|]. cbn [map combine flat_map fst snd].
    rewrite map_app. f_equal; [|apply IH; intros x Hx; apply Hl; now right].
    rewrite (grid_times n p X y eps num a HX Hn Hp Ly He (Hl a (or_introl eq_refl))), !map_map. reflexivity.
  Qed.

  (** ** Supports *)
  Lemma count_select_times d n p X (y : list R) (eps : R) num alphas ts (sel_lm : solver_glm (N := Rnum)) splits :
    matrix n p X -> (0 < n)%nat -> (0 < p)%nat -> length y = n -> 0 < eps ->
    (forall a, In a alphas -> 0 < poisson_lambda_max (N := Rnum) p X y a) ->
    (forall sp (lam mix : R), In sp splits -> In (RegPair lam mix) (poisson_reg_params (N := Rnum) p X y eps num alphas) ->
       let Xr := samples X (fst sp) in let yr := part_y y (fst sp) in let k := length (fst sp) in
       clear_counts (d Xr) k p Xr yr lam mix /\
       count_minimizer (d Xr) k p Xr yr lam mix (sel_lm Xr yr lam mix) /\
       count_minimizer (d Xr) k p Xr (times s yr) (s * lam) mix (sel_lm Xr (times s yr) (s * lam) mix)) ->
    count_select (N := Rnum) p eps num alphas sel_lm ts splits X (times s y) = count_select (N := Rnum) p eps num alphas sel_lm ts splits X y.
  Proof.
    intros HX Hn Hp Ly He Hl Hsol. unfold count_select. rewrite (params_times n p X y eps num alphas HX Hn Hp Ly He Hl).
    set (ps := poisson_reg_params (N := Rnum) p X y eps num alphas) in *.
    assert (Hps : forall q, In q ps -> exists lam mix, q = RegPair lam mix).
    { intros q Hq. unfold ps, poisson_reg_params, pairs in Hq. apply in_flat_map in Hq as (x & _ & Hq). apply in_map_iff in Hq as (l & <- & _). now exists l, (fst x). }
    unfold selection_module. f_equal. rewrite map_length. rewrite !flat_map_concat_map. f_equal. apply map_ext. intro z. symmetry. apply stable_same.
    induction splits as [|sp l IH]; [constructor|]. cbn [map]. constructor; [|apply IH; intros sp' lam mix Hsp; apply Hsol; now right].
    intros r j Hr Hj. unfold selection_sweep. set (q0 := RegPair (L := R) (A := R) 0 0).
    assert (E : forall f : reg_param R R -> list R, nth r (map f ps) [] = f (nth r ps q0)).
    { intro f. rewrite (nth_indep _ [] (f q0)) by (rewrite map_length; exact Hr). apply map_nth. }
    rewrite map_map, !E. rewrite !part_y_take. change (matrix_rows (N := Rnum) X (fst sp)) with (samples X (fst sp)). rewrite part_times.
    pose proof (nth_In ps q0 Hr) as Hin. destruct (Hps _ Hin) as (lam & mix & Eq). rewrite Eq in *. cbn [times_param apply_params].
    destruct (Hsol sp lam mix (or_introl eq_refl) Hin) as (U & S1 & S2). exact (U _ _ S1 (minimizer_times _ _ _ _ _ _ _ _ S2) j Hj).
  Qed.

  (** ** Scores *)
  Lemma ll_times (yt yp : list R) : length yt = length yp -> yp <> [] -> (forall v, In v yp -> 0 < v) ->
    ll_poisson (N := Rnum) (times s yt) (times s yp) = s * ll_poisson (N := Rnum) yt yp + s * ln s * average (length yt) yt.
  Proof.
    intros L Hne Hp. unfold ll_poisson.
    assert (A : forall l : list R, l <> [] -> (forall v, In v l -> 0 < v) -> nany (N := Rnum) l = true).
    { intros [|v l] H1 H2; [easy|]. unfold nany. cbn [existsb]. assert (E : nnonzero (N := Rnum) v = true).
      { unfold nnonzero, nzero. cbn [neqb nofZ Rnum]. unfold Reqb. destruct (Req_EM_T v 0) as [E|]; [specialize (H2 v (or_introl eq_refl)); lra|reflexivity]. }
      now rewrite E. }
    rewrite (A yp Hne Hp). rewrite (A (times s yp)); [|destruct yp; [easy|discriminate]|].
    2:{ intros v Hv. apply in_map_iff in Hv as (w & <- & Hw). apply Rmult_lt_0_compat; [exact Hs|now apply Hp]. }
    cbn [negb]. set (f := fun yt yp : R => yt * ln yp - yp).
    assert (Lf : length (map2 f yt yp) = length yt) by (rewrite map2_length; lia).
    assert (Lf2 : length (map2 f (times s yt) (times s yp)) = length yt) by (rewrite map2_length, !map_length; lia).
    change (nmean (N := Rnum) (map2 f (times s yt) (times s yp)) = s * nmean (N := Rnum) (map2 f yt yp) + s * ln s * average (length yt) yt).
    refine (eq_trans (mean_n (length yt) _ Lf2) _).
    refine (eq_trans _ (eq_sym (f_equal (fun v : R => s * v + s * ln s * average (length yt) yt) (mean_n (length yt) _ Lf)))).
    rewrite (Sum_ext (length yt) _ (fun i => s * entry (map2 f yt yp) i + s * ln s * entry yt i)).
    - rewrite (Sum_plus (length yt) (fun i => s * entry (map2 f yt yp) i) (fun i => s * ln s * entry yt i)).
      rewrite (Sum_scal _ (fun i => entry (map2 f yt yp) i) s), (Sum_scal _ (fun i => entry yt i) (s * ln s)). unfold average, Rdiv. ring.
    - intros i Hi. refine (eq_trans (entry_map2 f (times s yt) (times s yp) i ltac:(rewrite map_length; lia) ltac:(rewrite map_length; lia)) _).
      rewrite (entry_map2 f yt yp i) by lia. rewrite !entry_scaled. unfold f. rewrite ln_mult; [ring|exact Hs|]. apply Hp. apply nth_In. lia.
  Qed.
  Lemma argmax_from_affine k (l : list R) : forall i (best : R) besti,
    argmax_from (N := Rnum) i (s * best + k) besti (map (fun v => s * v + k) l) = argmax_from (N := Rnum) i best besti l.
  Proof.
    induction l as [|v l IH]; intros i best besti; [reflexivity|]. cbn [map argmax_from]. rewrite !nan_R.
    assert (E : nleb (n := Rnum) (s * v + k) (s * best + k) = nleb (n := Rnum) v best).
    { cbn [nleb Rnum]. unfold Rleb. destruct (Rle_dec (s * v + k) (s * best + k)) as [A|A], (Rle_dec v best) as [B|B]; try reflexivity; exfalso.
      - apply B. apply (Rmult_le_reg_l s); [exact Hs|lra].
      - apply A. apply (Rmult_le_compat_l s) in B; lra. }
    rewrite E. destruct (nleb (n := Rnum) v best); apply IH.
  Qed.
  Lemma argmax_affine k (l : list R) : argmax (N := Rnum) (map (fun v => s * v + k) l) = argmax (N := Rnum) l.
  Proof. destruct l as [|v l]; [reflexivity|]. cbn [map argmax]. rewrite !nan_R. f_equal. apply argmax_from_affine. Qed.
  Definition rescored (k : R) (o : list R * R) : list R * R := (fst o, s * snd o + k).
  Lemma best_rescored k out : best_estimate (N := Rnum) (map (rescored k) out) = best_estimate (N := Rnum) out.
  Proof.
    unfold best_estimate. rewrite !map_map.
    assert (E : map (fun x => snd (rescored k x)) out = map (fun v => s * v + k) (map snd out)) by (rewrite map_map; reflexivity).
    rr. rewrite E, argmax_affine. reflexivity.
  Qed.
  Lemma mapM_rescored {A} (f f2 : A -> result (list R * R)) k l :
    (forall x, In x l -> exists o, f x = Ok o /\ f2 x = Ok (rescored k o)) ->
    exists out, mapM f l = Ok out /\ mapM f2 l = Ok (map (rescored k) out) /\ length out = length l.
  Proof.
    induction l as [|x l IH]; intro H; [exists []; repeat split|].
    destruct (H x (or_introl eq_refl)) as (o & E & E2). destruct IH as (out & F & F2 & L); [intros z Hz; apply H; now right|].
    exists (o :: out). cbn. rewrite E, E2. cbn. rewrite F, F2. cbn. rewrite L. repeat split.
  Qed.

  Lemma log_mean_times (y : list R) : 0 < average (length y) y -> (0 < length y)%nat ->
    exp (no_features_intercept (N := Rnum) (times s y)) = s * exp (no_features_intercept (N := Rnum) y).
  Proof.
    intros H Hn. assert (P : 0 < Sum (length y) (fun i => entry y i)).
    { unfold average in H. pose proof (lt_0_INR _ Hn) as I. apply (Rmult_lt_compat_r _ _ _ I) in H. unfold Rdiv in H. rewrite Rmult_assoc, Rinv_l in H by lra. lra. }
    unfold no_features_intercept, log_mean. rewrite (nany_pos (length y) y eq_refl P).
    rewrite (nany_pos (length y) (times s y) (map_length _ _)).
    2:{ rewrite (Sum_ext _ _ (fun i => s * entry y i)) by (intros i _; apply entry_scaled). rewrite (Sum_scal _ (fun i => entry y i) s). apply Rmult_lt_0_compat; assumption. }
    rewrite (mean_n (length y) y eq_refl), (mean_n (length y) (times s y) (map_length _ _)). cbn [nln Rnum].
    change (exp (ln (average (length y) (times s y))) = s * exp (ln (average (length y) y))).
    rewrite average_times, !exp_ln; [reflexivity|exact H|apply Rmult_lt_0_compat; assumption].
  Qed.

  (** ** One support in one bootstrap *)
  Lemma estimate_times est_lm target n p X (y : list R) sp mask : matrix n p X -> length mask = p -> (forall i, In i (fst sp) -> (i < n)%nat) ->
    let Xr := part X (fst sp) mask in let yr := part_y y (fst sp) in let k := count (fun b => b) mask in
    fst sp <> [] -> scored target sp <> [] -> 0 < average (length (fst sp)) yr ->
    (existsb (fun b => b) mask = true -> exists d,
       only_minimizer d (length (fst sp)) k Xr yr 0 1 (est_lm Xr yr 0 1) /\
       count_minimizer d (length (fst sp)) k Xr (times s yr) 0 1 (est_lm Xr (times s yr) 0 1)) ->
    exists o, estimate_count (N := Rnum) est_lm "log" target p X y sp mask = Ok o /\
      estimate_count (N := Rnum) est_lm "log" target p X (times s y) sp mask
      = Ok (rescored (s * ln s * average (length (scored target sp)) (part_y y (scored target sp))) o).
  Proof.
    intros HX Lm0 Htr Xr yr k Hne Hrows Hav Hfit. unfold estimate_count. rewrite !part_y_take, part_times. fold yr.
    rewrite (part_masked n p X (fst sp) mask HX Lm0 Htr). fold Xr.
    unfold poisson_score. change ("log" =? "log")%string with true. rewrite !part_y_take, part_times.
    assert (Er : target_rows target sp = scored target sp) by reflexivity. rewrite Er. set (rows := scored target sp) in *.
    assert (Lt : length (part_y y rows) = length rows) by apply map_length.
    destruct (existsb (fun b => b) mask) eqn:Ex.
    - destruct (Hfit eq_refl) as (d & [M1 U] & M2).
      assert (M2' : count_minimizer d (length (fst sp)) k Xr (times s yr) (s * 0) 1 (est_lm Xr (times s yr) 0 1)) by (rewrite Rmult_0_r; exact M2).
      pose proof (U _ (minimizer_times _ _ _ _ _ _ _ _ M2')) as E2. clear M2'.
      assert (E3 : est_lm Xr (times s yr) 0 1 = (fst (est_lm Xr yr 0 1), snd (est_lm Xr yr 0 1) + ln s)).
      { rewrite <- E2. cbn [fst snd]. replace (snd (est_lm Xr (times s yr) 0 1) - ln s + ln s) with (snd (est_lm Xr (times s yr) 0 1)) by ring. apply surjective_pairing. }
      change (nzero (N := Rnum)) with 0. change (none (N := Rnum)) with 1. rr. rewrite E3. set (m := est_lm Xr yr 0 1). cbn [fst snd].
      unfold predict_mean. cbn [coef_ intercept_ bind].
      set (mv := matvec (N := Rnum) (masked_columns mask (matrix_rows X rows)) (fst m)).
      assert (Lm : length mv = length rows) by (unfold mv, matvec, masked_columns, matrix_rows; now rewrite !map_length).
      assert (Ep : map (fun v : R => nexp (n := Rnum) (nadd (n := Rnum) (snd m + ln s) v)) mv = times s (map (fun v : R => nexp (n := Rnum) (nadd (n := Rnum) (snd m) v)) mv)).
      { rewrite map_map. apply map_ext. intro v. cbn [nexp nadd Rnum]. replace (snd m + ln s + v) with (snd m + v + ln s) by ring. rewrite exp_plus, exp_ln by exact Hs. ring. }
      rr. rewrite Ep. rewrite ll_times.
      + eexists. split; [reflexivity|]. unfold rescored. cbn [fst snd]. rewrite Lt. reflexivity.
      + rewrite map_length, Lm. exact Lt.
      + intro C. apply (f_equal (@length R)) in C. rewrite map_length, Lm in C. destruct rows; [easy|discriminate].
      + intros v Hv. apply in_map_iff in Hv as (w & <- & _). apply exp_pos.
    - cbn [bind]. set (b := no_features_intercept (N := Rnum) yr).
      assert (Lr : length yr = length (fst sp)) by apply map_length.
      assert (Ep : repeat (nexp (n := Rnum) (no_features_intercept (N := Rnum) (times s yr))) (length rows) = times s (repeat (nexp (n := Rnum) b) (length rows))).
      { rewrite map_repeat'. f_equal. apply log_mean_times; rewrite Lr; [exact Hav|]. destruct (fst sp); [easy|cbn; lia]. }
      rr. rewrite Ep. rewrite ll_times.
      + eexists. split; [reflexivity|]. unfold rescored. cbn [fst snd]. rewrite Lt. reflexivity.
      + rewrite repeat_length. exact Lt.
      + destruct rows; [easy|discriminate].
      + intros v Hv. apply repeat_spec in Hv. rewrite Hv. apply exp_pos.
  Qed.
End Scale.
