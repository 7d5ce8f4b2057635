(** Proofs about UoI_Poisson in other units of the response (C125): the whole fit. *)
From Coq Require Import ZArith String List Bool Arith Lia Reals Lra Psatz.
From Verif Require Import Prelude F64 Num Model_Intersection Model_Fit Model_Scores Model_Refit Model_Rescale Model_Poisson Model_Linear Model_Estimation Model_Selection Model_CountFit
  Proofs_Intersection Spec_Rescale Proofs_Rescale Spec_Poisson Proofs_Poisson Proofs_PoissonOpt Spec_Linear Proofs_Linear
  Proofs_LinearUnits Spec_Estimation Proofs_Estimation Proofs_Estimation2 Proofs_Estimation3 Spec_Choice Proofs_Choice Spec_Units Proofs_Units Proofs_Units2 Proofs_Units3 Spec_CountFit Proofs_CountFit.
Import ListNotations.
Local Open Scope R_scope.

Lemma mapM_ext_in {A B} (f g : A -> result B) l : (forall x, In x l -> f x = g x) -> mapM f l = mapM g l.
Proof. induction l as [|x l IH]; intro H; [reflexivity|]. cbn. rewrite (H x (or_introl eq_refl)), IH; [reflexivity|]. intros z Hz. apply H. now right. Qed.
Lemma mapM_exists {A B} (f : A -> result B) l : (forall x, In x l -> exists o, f x = Ok o) -> exists out, mapM f l = Ok out /\ length out = length l.
Proof.
  induction l as [|x l IH]; intro H; [now exists []|]. destruct (H x (or_introl eq_refl)) as (o & E). destruct IH as (out & F & L); [intros z Hz; apply H; now right|].
  exists (o :: out). cbn. rewrite E, F. cbn. now rewrite L.
Qed.
Lemma centered_matrix standardize n p X (y : list R) : matrix n p X -> (0 < n)%nat -> length y = n ->
  matrix n p (map (centering_transform (N := Rnum) standardize (fit_scaler (columns p X))) X).
Proof.
  intros HX Hn Ly. destruct standardize; [|unfold centering_transform; now rewrite map_id].
  exact (pre_matrix true n p X y HX).
Qed.

Section Whole.
  Variables (s : R) (n p : nat) (y : list R).
  Hypothesis Hs : 0 < s.
  Hypothesis Hn : (0 < n)%nat.
  Hypothesis Ly : length y = n.
  Hypothesis Hy : 0 < average n y.

  Lemma total_pos : 0 < Sum n (fun i => entry y i).
  Proof. unfold average in Hy. pose proof (lt_0_INR _ Hn) as I. pose proof (Rmult_lt_compat_r _ _ _ I Hy) as H. unfold Rdiv in H. rewrite Rmult_assoc, Rinv_l in H by lra. lra. Qed.
  Lemma intercept_times X c : matrix n p X -> length c = p ->
    uoi_poisson_intercept (N := Rnum) true X (times s y) c = uoi_poisson_intercept (N := Rnum) true X y c + ln s.
  Proof.
    intros HX Lc. unfold uoi_poisson_intercept. rewrite (nany_pos n y Ly total_pos).
    assert (P : nany (N := Rnum) (times s y) = true).
    { apply (nany_pos n); [exact (eq_trans (map_length _ _) Ly)|]. rewrite (Sum_ext n _ (fun i => s * entry y i)) by (intros i _; apply entry_scaled).
      rewrite (Sum_scal n (fun i => entry y i) s). apply Rmult_lt_0_compat; [exact Hs|exact total_pos]. }
    rewrite P. set (mu := map (nexp (n := Rnum)) (matvec (N := Rnum) X c)).
    assert (Lm : length mu = n) by (unfold mu; rewrite map_length; apply (length_matvec n p X HX)).
    assert (Pm : 0 < nmean (N := Rnum) mu).
    { rewrite (mean_n n mu Lm). apply Rdiv_lt_0_compat; [|now apply lt_0_INR]. destruct n as [|k] eqn:En; [lia|]. rewrite Sum_S.
      assert (Q : forall i, (i < S k)%nat -> 0 < entry mu i).
      { intros i Hi. unfold mu. assert (Lv : length (matvec (N := Rnum) X c) = S k) by (apply (length_matvec (S k) p X HX)).
        pose proof (entry_mapn exp (S k) _ i Lv Hi) as E. refine (eq_rect_r (fun v => 0 < v) (exp_pos _) E). }
      apply Rplus_le_lt_0_compat; [apply Sum_nonneg; intros j Hj; left; apply Q; lia|apply Q; lia]. }
    change (ln (nmean (N := Rnum) (times s y) / nmean (N := Rnum) mu) = ln (nmean (N := Rnum) y / nmean (N := Rnum) mu) + ln s).
    rewrite (mean_n n y Ly), (mean_n n (times s y) (eq_trans (map_length _ _) Ly)).
    change (ln (average n (times s y) / nmean (N := Rnum) mu) = ln (average n y / nmean (N := Rnum) mu) + ln s).
    rewrite average_times. replace (s * average n y / nmean (N := Rnum) mu) with (average n y / nmean (N := Rnum) mu * s) by (unfold Rdiv; ring).
    apply ln_mult; [now apply Rdiv_lt_0_compat|exact Hs].
  Qed.

  Lemma module_times est_lm target X supports splits : matrix n p X -> splits <> [] -> supports <> [] ->
    (forall mask, In mask supports -> length mask = p) ->
    (forall sp, In sp splits ->
       let yr := part_y y (fst sp) in
       (forall i, In i (fst sp) -> (i < n)%nat) /\ fst sp <> [] /\ scored target sp <> [] /\ 0 < average (length (fst sp)) yr /\
       forall mask, In mask supports -> existsb (fun b => b) mask = true -> exists d,
         let Xr := part X (fst sp) mask in let k := count (fun b => b) mask in
         only_minimizer d (length (fst sp)) k Xr yr 0 1 (est_lm Xr yr 0 1) /\
         count_minimizer d (length (fst sp)) k Xr (times s yr) 0 1 (est_lm Xr (times s yr) 0 1)) ->
    exists c b, length c = p /\ count_module (N := Rnum) est_lm "log" target p true X y supports splits = Ok (c, b) /\
      count_module (N := Rnum) est_lm "log" target p true X (times s y) supports splits = Ok (c, b + ln s).
  Proof.
    intros HX Hsp Hsup Hlen Hok.
    set (one := fun y sp => let* out := mapM (estimate_count (N := Rnum) est_lm "log" target p X y sp) supports in best_estimate out).
    assert (H : forall sp, In sp splits -> (exists e, one y sp = Ok e) /\ one (times s y) sp = one y sp).
    { intros sp Hin. destruct (Hok sp Hin) as (H1 & H2 & H3 & H4 & H5).
      destruct (mapM_rescored s (estimate_count (N := Rnum) est_lm "log" target p X y sp) (estimate_count (N := Rnum) est_lm "log" target p X (times s y) sp)
        (s * ln s * average (length (scored target sp)) (part_y y (scored target sp))) supports) as (out & F & F2 & L).
      { intros mask Hm. exact (estimate_times s Hs est_lm target n p X y sp mask HX (Hlen mask Hm) H1 H2 H3 H4 (H5 mask Hm)). }
      unfold one. rr. rewrite F, F2. cbn [bind]. rewrite (best_rescored s Hs). split; [|reflexivity].
      assert (Hne : map snd out <> []) by (destruct out; [destruct supports; [easy|discriminate]|discriminate]).
      unfold best_estimate. destruct (argmax_spec (map snd out) Hne) as (m & Em & _). rr. rewrite Em. cbn [rmap]. eexists. reflexivity. }
    destruct (mapM_exists (one y) splits (fun sp Hin => proj1 (H sp Hin))) as (best & E & L).
    assert (E2 : mapM (one (times s y)) splits = Ok best) by (rewrite <- E; apply mapM_ext_in; intros sp Hin; exact (proj2 (H sp Hin))).
    assert (Lc : length (bagged (N := Rnum) p best) = p) by (unfold bagged; now rewrite map_length, seq_length).
    exists (bagged (N := Rnum) p best), (uoi_poisson_intercept (N := Rnum) true X y (bagged (N := Rnum) p best)). split; [exact Lc|]. split.
    - unfold count_module. fold (one y). rr. change (fun sp => one y sp) with (one y). rewrite E. reflexivity.
    - unfold count_module. fold (one (times s y)). rr. change (fun sp => one (times s y) sp) with (one (times s y)). rewrite E2. cbn [bind]. rewrite (intercept_times X _ HX Lc). reflexivity.
  Qed.
End Whole.

Lemma params_cons p X (y : list R) eps num alphas : alphas <> [] -> (0 < num)%nat -> poisson_reg_params (N := Rnum) p X y eps num alphas <> [].
Proof.
  intros Ha Hn. destruct alphas as [|a l]; [easy|]. destruct num as [|k]; [lia|]. discriminate.
Qed.

Lemma count_converted standardize target n p X (y : list R) s eps num alphas ts (sel_lm est_lm : solver_glm (N := Rnum)) sel est (d : list (list R) -> nat -> R) :
  matrix n p X -> length y = n -> (0 < p)%nat -> 0 < s -> 0 < eps -> (0 < num)%nat -> alphas <> [] -> ts <> [] -> est <> [] ->
  (exists i j, (i < n)%nat /\ (j < n)%nat /\ entry y i <> entry y j) -> 0 < average n y ->
  let Xs := map (centering_transform (N := Rnum) standardize (fit_scaler (columns p X))) X in
  (forall a, In a alphas -> 0 < poisson_lambda_max (N := Rnum) p Xs y a) ->
  (forall sp (lam mix : R), In sp sel -> In (RegPair lam mix) (poisson_reg_params (N := Rnum) p Xs y eps num alphas) ->
     let Xr := samples Xs (fst sp) in let yr := part_y y (fst sp) in let k := length (fst sp) in
     clear_counts (d Xr) k p Xr yr lam mix /\
     count_minimizer (d Xr) k p Xr yr lam mix (sel_lm Xr yr lam mix) /\
     count_minimizer (d Xr) k p Xr (map (Rmult s) yr) (s * lam) mix (sel_lm Xr (map (Rmult s) yr) (s * lam) mix)) ->
  let supports := count_select (N := Rnum) p eps num alphas sel_lm ts sel Xs y in
  (forall sp, In sp est ->
     let yr := part_y y (fst sp) in
     (forall i, In i (fst sp) -> (i < n)%nat) /\ fst sp <> [] /\ scored target sp <> [] /\ 0 < average (length (fst sp)) yr /\
     forall mask, In mask supports -> existsb (fun b => b) mask = true -> exists w,
       let Xr := part Xs (fst sp) mask in let k := count (fun b => b) mask in
       only_minimizer w (length (fst sp)) k Xr yr 0 1 (est_lm Xr yr 0 1) /\
       count_minimizer w (length (fst sp)) k Xr (map (Rmult s) yr) 0 1 (est_lm Xr (map (Rmult s) yr) 0 1)) ->
  count_select (N := Rnum) p eps num alphas sel_lm ts sel Xs (map (Rmult s) y) = supports /\
  exists c b,
    count_fit (N := Rnum) standardize true eps num alphas ts "log" target p sel_lm est_lm sel est X y = Ok (c, b) /\
    count_fit (N := Rnum) standardize true eps num alphas ts "log" target p sel_lm est_lm sel est X (map (Rmult s) y) = Ok (c, b + ln s) /\
    forall Z, predict_mean (N := Rnum) (mkPoisson (Some c) (Some (b + ln s))) Z = rmap (map (Rmult s)) (predict_mean (N := Rnum) (mkPoisson (Some c) (Some b)) Z).
Proof.
  intros HX Ly Hp Hs He Hnum Ha Hts Hest Hvar Hy Xs Hl Hsol supports Hok.
  assert (Hn : (0 < n)%nat) by (destruct Hvar as (i & _ & H & _); lia).
  assert (HXs : matrix n p Xs) by exact (centered_matrix standardize n p X y HX Hn Ly).
  pose proof (count_select_times s Hs d n p Xs y eps num alphas ts sel_lm sel HXs Hn Hp Ly He Hl Hsol) as Es. split; [exact Es|].
  destruct (module_times s n p y Hs Hn Ly Hy est_lm target Xs supports est HXs Hest) as (c & b & Lc & E & E2).
  - unfold supports, count_select. apply module_cons; [exact Hts|now apply params_cons].
  - intros mask Hm. exact (module_length mask Hm).
  - exact Hok.
  - assert (C : constant_response (N := Rnum) y = false) by exact (not_constant n y Ly y Ly Hvar).
    assert (C2 : constant_response (N := Rnum) (times s y) = false).
    { apply (not_constant n y Ly); [exact (eq_trans (map_length _ _) Ly)|]. destruct Hvar as (i & j & Hi & Hj & D). exists i, j. split; [exact Hi|]. split; [exact Hj|].
      rewrite !entry_scaled. intro Q. apply D. apply (Rmult_eq_reg_l s); [exact Q|lra]. }
    set (sX := fit_scaler (N := Rnum) (columns p X)) in *.
    assert (P : poisson_post (N := Rnum) standardize true sX c (b + ln s) = (fst (poisson_post (N := Rnum) standardize true sX c b), snd (poisson_post (N := Rnum) standardize true sX c b) + ln s)).
    { unfold poisson_post. destruct standardize; [|reflexivity]. cbn [fst snd]. f_equal.
      match goal with |- nsub (b + ln s) ?q = _ => change (b + ln s - q = b - q + ln s) end. ring. }
    exists (fst (poisson_post (N := Rnum) standardize true sX c b)), (snd (poisson_post (N := Rnum) standardize true sX c b)). split; [|split].
    + unfold count_fit. fold sX. fold Xs. rr. rewrite C. fold supports. rewrite E. cbn [bind fst snd]. now rewrite <- surjective_pairing.
    + unfold count_fit. fold sX. fold Xs. rr. rewrite C2, Es. fold supports. rewrite E2. cbn [bind fst snd]. now rewrite P.
    + intro Z. unfold predict_mean. cbn [coef_ intercept_ rmap]. f_equal. rewrite map_map. apply map_ext. intro v.
      match goal with |- nexp (nadd (?q + ln s) v) = _ => change (exp (q + ln s + v) = s * exp (q + v)); replace (q + ln s + v) with (q + v + ln s) by ring end.
      rewrite exp_plus, exp_ln by exact Hs. ring.
Qed.
