(** Proofs about the choice that the estimation module of UoI_Poisson makes (C127). *)
From Coq Require Import ZArith String List Bool Arith Lia Reals Lra Psatz.
From Verif Require Import Prelude F64 Num Model_Intersection Model_Fit Model_Scores Model_Refit Model_Rescale Model_Poisson Model_Linear Model_Estimation Model_Selection Model_CountFit
  Proofs_Intersection Spec_Rescale Proofs_Rescale Spec_Poisson Proofs_Poisson Proofs_PoissonOpt Spec_Linear Proofs_Linear
  Proofs_LinearUnits Spec_Estimation Proofs_Estimation Proofs_Estimation2 Proofs_Estimation3 Spec_Choice Proofs_Choice Spec_Units Proofs_Units3 Spec_CountFit Proofs_CountFit Proofs_CountFit2 Proofs_CountFit4 Spec_CountChoice.
Import ListNotations.
Local Open Scope R_scope.

Definition exact_count (b : R) : nat := if Req_EM_T b 0 then 0%nat else 1%nat.

Section Score.
  Variables (n p : nat) (X : list (list R)) (y : list R).
  Hypothesis HX : matrix n p X.
  Variable est_lm : solver_glm (N := Rnum).
  Variables (metric : string) (target : nat) (sp : Model_Fit.split).
  Hypothesis Hmetric : In metric ["log"; "BIC"; "AIC"; "AICc"]%string.
  Hypothesis Htrain : forall r, In r (fst sp) -> (r < n)%nat.
  Notation rows := (scored target sp).
  Hypothesis Hrows : forall r, In r rows -> (r < n)%nat.
  Hypothesis Hne : rows <> [].
  Notation yt := (part_y y rows).
  Hypothesis Hav : 0 < average (length (fst sp)) (part_y y (fst sp)).
  Hypothesis Htr : fst sp <> [].
  Notation fit_of mask := (est_lm (part X (fst sp) mask) (part_y y (fst sp)) 0 1).
  Notation merit mask := (count_merit X y (fst sp) rows mask (fit_of mask)).
  Notation params mask := (count_parameters y (fst sp) mask (fit_of mask)).

  Lemma ll_value (f : nat -> R) : ll_poisson (N := Rnum) yt (map (fun r => exp (f r)) rows) = mean_likelihood (length rows) yt (fun i => f (nth i rows 0%nat)).
  Proof.
    unfold ll_poisson. assert (A : nany (N := Rnum) (map (fun r => exp (f r)) rows) = true).
    { destruct rows as [|r l]; [easy|]. unfold nany. cbn [map existsb]. rewrite nonzero_pos; [reflexivity|]. pose proof (exp_pos (f r)). lra. }
    rewrite A. cbn [negb]. set (g := fun yt yp : R => yt * ln yp - yp).
    assert (Lt : length yt = length rows) by apply map_length.
    assert (Lf : length (map2 g yt (map (fun r => exp (f r)) rows)) = length rows) by (rewrite map2_length, Lt, map_length; apply Nat.min_id).
    refine (eq_trans (mean_n (length rows) _ Lf) _). unfold mean_likelihood, Rdiv. rewrite Rmult_comm. f_equal. apply Sum_ext. intros i Hi.
    refine (eq_trans (entry_map2 g yt _ i ltac:(rewrite Lt; exact Hi) ltac:(rewrite map_length; exact Hi)) _). unfold g.
    assert (E : entry (map (fun r => exp (f r)) rows) i = exp (f (nth i rows 0%nat))).
    { unfold entry. rewrite (nth_indep _ 0 (exp (f 0%nat))) by (rewrite map_length; exact Hi). exact (map_nth (fun r => exp (f r)) rows 0%nat i). }
    rewrite E, ln_exp. reflexivity.
  Qed.

  Lemma score_cost (mask : list bool) (pr : list nat -> result (list R)) (f : nat -> R) (b : R) : pr rows = Ok (map (fun r => exp (f r)) rows) ->
    poisson_score (N := Rnum) metric target y pr b mask sp =
    Ok (- count_cost metric (length rows) (count (fun b => b) mask + exact_count b) (mean_likelihood (length rows) yt (fun i => f (nth i rows 0%nat)))).
  Proof.
    intro E. unfold poisson_score. change (target_rows target sp) with rows. rr. rewrite E, part_y_take. cbn [bind]. rewrite (ll_value f).
    set (ll := mean_likelihood _ _ _). unfold count_cost. destruct (String.eqb_spec metric "log"%string) as [Em|Em]; [f_equal; ring|].
    assert (Lt : length yt = length rows) by apply map_length. rewrite Lt. set (N := length rows).
    assert (Ek : (Z.of_nat (count (fun b => b) mask) + (if nnonzero (N := Rnum) b then 1 else 0))%Z = Z.of_nat (count (fun b => b) mask + exact_count b)).
    { unfold nnonzero, nzero. cbn. unfold Reqb, exact_count. destruct (Req_EM_T b 0); cbn; lia. }
    rr. rewrite Ek. set (k := (count (fun b => b) mask + exact_count b)%nat).
    unfold criterion, price. destruct Hmetric as [C|[C|[C|[C|[]]]]]; rewrite <- C; cbn [String.eqb Ascii.eqb Bool.eqb rmap]; [congruence| | |];
      f_equal; unfold BIC, AIC, AICc; cbn [nofZ ndiv nadd nln nmul nsub nopp Rnum].
    + rewrite <- !INR_IZR_INZ. rr. ring.
    + rewrite mult_IZR, <- !INR_IZR_INZ. rr. ring.
    + destruct (Z.ltb_spec (Z.of_nat k + 1) (Z.of_nat N)), (Nat.ltb_spec (k + 1) N); try lia; unfold AIC; cbn [nofZ ndiv nadd nln nmul nsub nopp Rnum]; rewrite ?minus_IZR, ?mult_IZR, ?plus_IZR, ?mult_IZR, <- ?INR_IZR_INZ.
      * assert (INR N - INR k - 1 <> 0) by (assert (INR (k + 1) < INR N) by (now apply lt_INR); rewrite plus_INR in *; cbn in *; lra). rr. field. assumption.
      * rr. ring.
  Qed.

  Lemma estimate_cost mask : length mask = p -> (existsb (fun b => b) mask = true -> length (fst (fit_of mask)) = count (fun b => b) mask) ->
    exists e, estimate_count (N := Rnum) est_lm metric target p X y sp mask = Ok (e, - count_cost metric (length rows) (params mask) (merit mask)) /\
      estimate_of p mask (fit_of mask) e.
  Proof.
    intros Lm HL. unfold estimate_count, count_merit, count_parameters. destruct (existsb (fun b : bool => b) mask) eqn:Em.
    - specialize (HL eq_refl). eexists. split; [|apply spread_estimate; [exact Lm|exact HL]].
      rewrite (part_masked n p X (fst sp) mask HX Lm Htrain), part_y_take. change (nzero (N := Rnum)) with 0. change (none (N := Rnum)) with 1. rr. set (m := fit_of mask) in *.
      rewrite (score_cost mask _ (eta p X (spread_values (N := Rnum) mask (fst m)) (snd m)) (snd m)).
      + cbn [bind]. f_equal. f_equal. f_equal. fold (exact_count (snd m)). f_equal. unfold mean_likelihood. f_equal. apply Sum_ext. intros i Hi.
        pose proof (eta_part n p X rows mask (fst m) (snd m) i HX Lm Hrows HL Hi) as E. exact (f_equal (fun z => entry yt i * z - exp z) (eq_sym E)).
      + unfold predict_mean. cbn [coef_ intercept_]. f_equal. unfold matvec, masked_columns, matrix_rows. rewrite !map_map. apply map_ext_in. intros r Hr.
        pose proof (decision_part n p X HX mask m r Lm HL (Hrows r Hr)) as E. refine (eq_trans _ (f_equal exp E)). unfold decision.
        match goal with |- nexp (nadd ?u ?v) = _ => change (exp (u + v) = exp (v + u)) end. f_equal. apply Rplus_comm.
    - eexists. split; [|exact (zeros_estimate p mask _ Em)].
      assert (C0 : forall q, count (fun b : bool => b) (repeat false q) = 0%nat) by (induction q; [reflexivity|exact IHq]).
      assert (C1 : count (fun b : bool => b) mask = 0%nat) by (clear -Em; induction mask as [|b m IH]; [reflexivity|]; cbn in *; destruct b; [discriminate|now apply IH]).
      rewrite part_y_take. set (mu := average (length (fst sp)) (part_y y (fst sp))).
      assert (Eb : no_features_intercept (N := Rnum) (part_y y (fst sp)) = ln mu).
      { assert (Ltr : length (part_y y (fst sp)) = length (fst sp)) by apply map_length.
        assert (In0 : 0 < INR (length (fst sp))) by (apply lt_0_INR; destruct (fst sp); [easy|cbn; lia]).
        unfold no_features_intercept, log_mean. rewrite (nany_pos (length (fst sp)) (part_y y (fst sp)) Ltr).
        - rewrite (mean_n (length (fst sp)) (part_y y (fst sp)) Ltr). reflexivity.
        - unfold average in Hav. apply (Rmult_lt_compat_r _ _ _ In0) in Hav. unfold Rdiv in Hav. rewrite Rmult_assoc, Rinv_l, Rmult_1_r, Rmult_0_l in Hav by lra. exact Hav. }
      rr. rewrite Eb. rewrite (score_cost (repeat false p) _ (fun _ => ln mu) (ln mu)).
      + cbn [bind]. rewrite C0, C1. reflexivity.
      + f_equal. change (nexp (n := Rnum)) with exp. generalize (exp (ln mu)). intro v. generalize rows. clear. intro l. induction l as [|a l IH]; [reflexivity|]. exact (f_equal (cons v) IH).
  Qed.

  Lemma best_count supports : supports <> [] -> (forall mask, In mask supports -> length mask = p) ->
    (forall mask, In mask supports -> existsb (fun b => b) mask = true -> length (fst (fit_of mask)) = count (fun b => b) mask) ->
    exists e mask, (let* out := mapM (estimate_count (N := Rnum) est_lm metric target p X y sp) supports in best_estimate out) = Ok e /\
      In mask supports /\ estimate_of p mask (fit_of mask) e /\
      forall mask', In mask' supports -> count_cost metric (length rows) (params mask) (merit mask) <= count_cost metric (length rows) (params mask') (merit mask').
  Proof.
    intros Hs Hlen Hok.
    set (Q := fun (mask : list bool) (o : list R * R) => estimate_of p mask (fit_of mask) (fst o) /\ snd o = - count_cost metric (length rows) (params mask) (merit mask)).
    destruct (mapM_ok (estimate_count (N := Rnum) est_lm metric target p X y sp) Q supports) as (out & Eo & F).
    { intros mask Hm. destruct (estimate_cost mask (Hlen mask Hm) (Hok mask Hm)) as (e & Ee & He). eexists. split; [exact Ee|]. split; [exact He|reflexivity]. }
    rewrite Eo. cbn [bind]. unfold best_estimate.
    assert (Hsp : map snd out <> []).
    { destruct out; [|discriminate]. inversion F. subst. easy. }
    destruct (argmax_spec (map snd out) Hsp) as (m & Em & Hm & Hmax). rr. rewrite Em. cbn [rmap]. rewrite map_length in Hm, Hmax.
    assert (N1 : forall k, nth k (map snd out) 0 = snd (nth k out ([], 0))) by (intros k; exact (map_nth snd out ([], 0) k)).
    assert (N2 : forall k, nth k (map fst out) [] = fst (nth k out ([], 0))) by (intros k; exact (map_nth fst out ([], 0) k)).
    destruct (Forall2_at _ _ _ m ([], 0) F Hm) as (mask & Hmask & _ & Q1 & Q2).
    exists (nth m (map fst out) []), mask. split; [reflexivity|]. split; [exact Hmask|]. split; [rewrite N2; exact Q1|].
    intros mask' Hm'. destruct (Forall2_find _ _ _ mask' ([], 0) F Hm') as (k & Hk & _ & _ & Q3).
    pose proof (Hmax k Hk) as G. rewrite (N1 k), (N1 m), Q3, Q2 in G. lra.
  Qed.
End Score.

Lemma count_choice standardize has eps num alphas ts metric target n p X y (sel_lm est_lm : solver_glm (N := Rnum)) sel est :
  matrix n p X -> length y = n -> In metric ["log"; "BIC"; "AIC"; "AICc"]%string -> (0 < num)%nat -> alphas <> [] -> ts <> [] -> est <> [] ->
  (exists i j, (i < n)%nat /\ (j < n)%nat /\ entry y i <> entry y j) ->
  let Xs := map (centering_transform (N := Rnum) standardize (fit_scaler (columns p X))) X in
  let supports := count_select (N := Rnum) p eps num alphas sel_lm ts sel Xs y in
  let fit_of sp mask := est_lm (part Xs (fst sp) mask) (part_y y (fst sp)) 0 1 in
  let price_of sp mask := count_cost metric (length (scored target sp)) (count_parameters y (fst sp) mask (fit_of sp mask))
                            (count_merit Xs y (fst sp) (scored target sp) mask (fit_of sp mask)) in
  (forall sp, In sp est ->
     (forall r, In r (fst sp) -> (r < n)%nat) /\ fst sp <> [] /\ (forall r, In r (scored target sp) -> (r < n)%nat) /\ scored target sp <> [] /\
     0 < average (length (fst sp)) (part_y y (fst sp)) /\
     forall mask, In mask supports -> existsb (fun b => b) mask = true -> length (fst (fit_of sp mask)) = count (fun b => b) mask) ->
  exists best c b,
    count_fit (N := Rnum) standardize has eps num alphas ts metric target p sel_lm est_lm sel est X y = Ok (c, b) /\
    Forall2 (fun sp e => exists mask, In mask supports /\ estimate_of p mask (fit_of sp mask) e /\
      forall mask', In mask' supports -> price_of sp mask <= price_of sp mask') est best /\
    length c = p /\
    forall j, (j < p)%nat -> median_of (map (fun e => entry e j) best) (entry c j * if standardize then column_scale (N := Rnum) (col n X j) else 1).
Proof.
  intros HX0 Ly Hmetric Hnum Ha Hts Hest Hvar Xs supports fit_of price_of Hok.
  assert (Hn : (0 < n)%nat) by (destruct Hvar as (i & _ & Hi & _); lia).
  pose proof (centered_matrix standardize n p X y HX0 Hn Ly) as HX. fold Xs in HX.
  set (P := fun (sp : Model_Fit.split) (e : list R) => exists mask, In mask supports /\ estimate_of p mask (fit_of sp mask) e /\
      forall mask', In mask' supports -> price_of sp mask <= price_of sp mask').
  destruct (mapM_ok (fun sp => let* out := mapM (estimate_count (N := Rnum) est_lm metric target p Xs y sp) supports in best_estimate out) P est) as (best & Eb & F).
  { intros sp Hsp. destruct (Hok sp Hsp) as (H1 & H2 & H3 & H4 & H5 & H6).
    destruct (best_count n p Xs y HX est_lm metric target sp Hmetric H1 H3 H4 H5 H2 supports) as (e & mask & Ee & Hm & He & Hc).
    - unfold supports, count_select. apply module_cons; [exact Hts|now apply params_cons].
    - intros mask Hm. exact (module_length mask Hm).
    - exact H6.
    - exists e. split; [exact Ee|]. exists mask. split; [exact Hm|]. split; [exact He|exact Hc]. }
  pose proof (Forall2_len _ _ _ F) as Lb.
  assert (Lc : length (bagged (N := Rnum) p best) = p) by (unfold bagged; now rewrite map_length, seq_length).
  set (post := poisson_post (N := Rnum) standardize has (fit_scaler (columns p X)) (bagged (N := Rnum) p best) (uoi_poisson_intercept (N := Rnum) has Xs y (bagged (N := Rnum) p best))).
  exists best, (fst post), (snd post). split; [|split; [|split]].
  - unfold count_fit. fold Xs. rr. rewrite (not_constant n y Ly y Ly Hvar). unfold count_module. fold supports. rr. rewrite Eb. cbn [bind fst snd]. fold post. now destruct post.
  - eapply Forall2_weaken; [|exact F]. intros sp e _ [_ H]. exact H.
  - unfold post, poisson_post. rewrite (scaler_value n p X HX0). destruct standardize; [|exact Lc]. cbn [fst scale_]. rewrite map2_length, length_scales. rr. rewrite Lc. apply Nat.min_id.
  - intros j Hj. assert (Ej : entry (bagged (N := Rnum) p best) j = median (N := Rnum) (map (fun e => entry e j) best)).
    { unfold bagged. exact (entry_mapseq (fun j => median (N := Rnum) (map (fun e => nth j e 0) best)) p j Hj). }
    assert (Ec : entry (fst post) j * (if standardize then column_scale (N := Rnum) (col n X j) else 1) = entry (bagged (N := Rnum) p best) j).
    { unfold post, poisson_post. rewrite (scaler_value n p X HX0). destruct standardize; [|cbn [fst]; rr; ring]. cbn [fst scale_].
      pose proof (entry_map2n Rdiv p (bagged (N := Rnum) p best) (scales n p X) j Lc (length_scales n p X) Hj) as E. rewrite entry_scales in E by exact Hj.
      refine (eq_trans (f_equal (fun z => z * column_scale (N := Rnum) (col n X j)) E) _).
      pose proof (scale_pos n (col n X j) Hn (length_col n X j)). rr. field. lra. }
    refine (eq_ind_r (fun z => median_of _ z) _ Ec). rewrite Ej. apply median_value. destruct best; [|discriminate]. cbn in Lb. destruct est; [easy|discriminate].
Qed.
