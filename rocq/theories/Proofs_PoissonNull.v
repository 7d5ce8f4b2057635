(** Proofs about the intercept of Poisson coordinate descent (C116). *)
From Coq Require Import ZArith List Bool Arith Reals Lra Lia Floats.SpecFloat.
From Verif Require Import Prelude F64 F64Order Num Model_Rescale Model_Refit Spec_Rescale Model_Poisson Spec_Poisson
  Proofs_Rescale Proofs_Poisson Proofs_PoissonOpt Proofs_PoissonFit Proofs_PoissonMore Spec_PoissonNull.
Import ListNotations.
Local Open Scope R_scope.

Lemma Sum_pos n (f : nat -> R) : (0 < n)%nat -> (forall i, (i < n)%nat -> 0 < f i) -> 0 < Sum n f.
Proof.
  intros Hn H. destruct n as [|n]; [lia|]. clear Hn. induction n.
  - rewrite Sum_S, Sum_0. specialize (H 0%nat). assert (0 < f 0%nat) by (apply H; lia). lra.
  - rewrite Sum_S. assert (0 < Sum (S n) f) by (apply IHn; intros; apply H; lia).
    assert (0 < f (S n)) by (apply H; lia). lra.
Qed.

Section Null.
  Variables (n p : nat) (X : list (list R)) (y sw : list R) (c : config Rnum).
  Hypothesis HX : matrix n p X.
  Hypothesis Hn : (0 < n)%nat.
  Hypothesis Hy : length y = n.
  Hypothesis Hsw : length sw = n.
  Hypothesis Hsw0 : forall i, (i < n)%nat -> 0 < entry sw i.
  Hypothesis Hf : fit_intercept c = true.

  (** One sweep: b' = b - 1 + sum(sw y) / sum(sw exp(eta)). *)
  Lemma iter_intercept (coef : list R) (b : R) active : length coef = p ->
    snd (cd_iteration (N := Rnum) c X y sw active (coef, b))
    = b - 1 + Sum n (fun i => entry sw i * entry y i) / Sum n (fun i => entry sw i * exp (eta p X coef b i)).
  Proof.
    intro Hc. unfold cd_iteration. cbn [fst snd].
    pose proof (sweep_intercept n p X (wk X y sw coef b) (zk X y coef b) c HX
      (length_wk n p X y sw coef b HX Hy Hsw) (length_zk n p X y coef b HX Hy) coef Hc Hf active) as E.
    refine (eq_trans E _). clear E.
    assert (EW : Sum n (fun i => entry (wk X y sw coef b) i) = Sum n (fun i => entry sw i * exp (eta p X coef b i))).
    { apply Sum_ext. intros i Hi. rewrite (entry_wk n p X y sw coef b HX Hy Hsw Hc) by exact Hi. ring. }
    assert (WP : 0 < Sum n (fun i => entry sw i * exp (eta p X coef b i))).
    { apply Sum_pos; [exact Hn|]. intros i Hi. apply Rmult_lt_0_compat; [now apply Hsw0|apply exp_pos]. }
    assert (EN : Sum n (fun i => entry (wk X y sw coef b) i * (entry (zk X y coef b) i - eta p X coef 0 i))
      = Sum n (fun i => entry sw i * entry y i) + (b - 1) * Sum n (fun i => entry sw i * exp (eta p X coef b i))).
    { rewrite <- Sum_scal, <- Sum_plus. apply Sum_ext. intros i Hi.
      pose proof (wk_res n p X y sw coef b HX Hy Hsw Hc i Hi) as E.
      pose proof (entry_wk n p X y sw coef b HX Hy Hsw Hc i Hi) as E'.
      replace (entry (zk X y coef b) i - eta p X coef 0 i) with ((entry (zk X y coef b) i - eta p X coef b i) + b) by (unfold eta; ring).
      rewrite Rmult_plus_distr_l, E, E'. ring. }
    rewrite EW, EN. req. field. lra.
  Qed.

  Lemma zeros_eta (b : R) i : eta p X (repeat 0 p) b i = b.
  Proof.
    unfold eta. rewrite (Sum_zero p); [lra|]. intros j Hj. rewrite entry_repeat by exact Hj. lra.
  Qed.
  Lemma sw_pos : 0 < Sum n (fun i => entry sw i).
  Proof. now apply Sum_pos. Qed.

  Lemma first_intercept active :
    snd (cd_iteration (N := Rnum) c X y sw active (repeat 0 p, 0)) = waverage n sw y - 1.
  Proof.
    rewrite (iter_intercept (repeat 0 p) 0 active (repeat_length _ _)).
    rewrite (Sum_ext n (fun i => entry sw i * exp (eta p X (repeat 0 p) 0 i)) (fun i => entry sw i)).
    - unfold waverage. req. ring.
    - intros i Hi. rewrite zeros_eta, exp_0. ring.
  Qed.

  (** ** No sweep lowers the intercept by more than one *)
  Lemma iter_lag (s : list R * R) active : length (fst s) = p -> (forall i, (i < n)%nat -> 0 <= entry y i) ->
    snd s - 1 <= snd (cd_iteration (N := Rnum) c X y sw active s).
  Proof.
    destruct s as [coef b]. cbn [fst snd]. intros Hc Hy0. rewrite (iter_intercept coef b active Hc). rr.
    assert (A : 0 <= Sum n (fun i => entry sw i * entry y i)).
    { apply Sum_nonneg. intros i Hi. apply Rmult_le_pos; [left; now apply Hsw0|now apply Hy0]. }
    assert (B : 0 < Sum n (fun i => entry sw i * exp (eta p X coef b i))).
    { apply Sum_pos; [exact Hn|]. intros i Hi. apply Rmult_lt_0_compat; [now apply Hsw0|apply exp_pos]. }
    apply Rinv_0_lt_compat in B. unfold Rdiv.
    pose proof (Rmult_le_pos _ _ A (Rlt_le _ _ B)). lra.
  Qed.
  Lemma loop_lag k : forall active (s : list R * R), length (fst s) = p -> (forall i, (i < n)%nat -> 0 <= entry y i) ->
    snd s - INR k <= snd (cd_loop (N := Rnum) c X y sw k active s).
  Proof.
    induction k; intros active s Hs Hy0; [cbn; lra|].
    cbn [cd_loop]. pose proof (iter_lag s active Hs Hy0) as I1.
    pose proof (iter_length c X y sw active s) as L. rr.
    set (s' := cd_iteration (N := Rnum) c X y sw active s) in *.
    rewrite S_INR. destruct (nltb _ _).
    - pose proof (pos_INR k). lra.
    - specialize (IHk (nonzeros (N := Rnum) (fst s')) s'). rr. rewrite L in IHk. specialize (IHk Hs Hy0). lra.
  Qed.

  (** ** The null model *)
  Lemma first_num b j : (j < p)%nat ->
    num n p X (wk X y sw (repeat 0 p) 0) (zk X y (repeat 0 p) 0) (repeat 0 p) b j
    = Sum n (fun i => entry sw i * mat X i j * (entry y i - 1 - b)) / INR n.
  Proof.
    intro Hj. unfold num. f_equal. apply Sum_ext. intros i Hi.
    rewrite (entry_wk n p X y sw (repeat 0 p) 0 HX Hy Hsw (repeat_length _ _)) by exact Hi.
    rewrite zeros_eta, exp_0. unfold partial.
    rewrite (upd_inj_same (repeat 0 p) j 0) by (rewrite ?repeat_length, ?entry_repeat; auto).
    rewrite zeros_eta. unfold zk.
    rewrite (proj2 (entry_working n p X y (repeat 0 p) 0 i HX Hy (repeat_length _ _) Hi)).
    rewrite zeros_eta, exp_0. field.
  Qed.

  Lemma first_update j : (j < p)%nat -> nothing_selected n p X y sw (alpha c) (l1_ratio c) ->
    cd_update (N := Rnum) c X (wk X y sw (repeat 0 p) 0) (zk X y (repeat 0 p) 0) (waverage n sw y - 1) (repeat 0 p) j = repeat 0 p.
  Proof.
    intros Hj Hs.
    rewrite (update_value n p X _ _ c HX Hn (length_wk n p X y sw (repeat 0 p) 0 HX Hy Hsw)
      (length_zk n p X y (repeat 0 p) 0 HX Hy) (repeat 0 p) _ j (repeat_length _ _) Hj).
    rewrite first_num by exact Hj.
    specialize (Hs j Hj).
    rewrite (Sum_ext n (fun i => entry sw i * mat X i j * (entry y i - 1 - (waverage n sw y - 1)))
      (fun i => entry sw i * mat X i j * (entry y i - waverage n sw y))) by (intros; ring).
    set (S0 := Sum n (fun i => entry sw i * mat X i j * (entry y i - waverage n sw y))) in *.
    assert (Hp : 0 < INR n) by now apply lt_0_INR.
    set (t := (l1_ratio c : R) * (alpha c : R)).
    assert (Hs' : Rabs S0 <= INR n * t) by (unfold t; rewrite <- Rmult_assoc; exact Hs).
    assert (Ht : 0 <= t).
    { pose proof (Rabs_pos S0). apply Rmult_le_reg_l with (INR n); [exact Hp|]. lra. }
    assert (Hb : Rabs (S0 / INR n) <= t).
    { unfold Rdiv. rewrite Rabs_mult, (Rabs_right (/ INR n)) by (apply Rle_ge; left; now apply Rinv_0_lt_compat).
      apply Rmult_le_reg_l with (INR n); [exact Hp|]. rewrite (Rmult_comm (Rabs S0)), <- Rmult_assoc, Rinv_r, Rmult_1_l by lra. exact Hs'. }
    assert (E : soft (S0 / INR n) t = 0).
    { destruct (soft_cases (S0 / INR n) t Ht) as [[H _]|[[H _]|[_ H]]]; [| |exact H];
        pose proof (Rle_abs (S0 / INR n)); pose proof (Rle_abs (- (S0 / INR n))) as H2; rewrite Rabs_Ropp in H2; lra. }
    rewrite E. apply upd_inj_same; [now rewrite repeat_length|]. rewrite entry_repeat by exact Hj.
    unfold Rdiv. apply Rmult_0_l.
  Qed.

  Lemma first_sweep : nothing_selected n p X y sw (alpha c) (l1_ratio c) ->
    cd_iteration (N := Rnum) c X y sw (seq 0 p) (repeat 0 p, 0) = (repeat 0 p, waverage n sw y - 1).
  Proof.
    intro Hs. pose proof (first_intercept (seq 0 p)) as Ei.
    apply injective_projections; [|exact Ei]. cbn [fst].
    unfold cd_iteration, cd_sweep in *. cbn [fst snd] in *. rewrite Ei.
    assert (G : forall l, (forall j, In j l -> (j < p)%nat) ->
      fold_left (cd_update (N := Rnum) c X (wk X y sw (repeat 0 p) 0) (zk X y (repeat 0 p) 0) (waverage n sw y - 1)) l (repeat 0 p) = repeat 0 p).
    { induction l as [|j l IH]; intro H; [reflexivity|]. cbn [fold_left].
      refine (eq_trans (f_equal (fold_left _ l) (first_update j (H j (or_introl eq_refl)) Hs)) _).
      apply IH. intros; apply H; now right. }
    apply G. intros j Hj. apply in_seq in Hj. lia.
  Qed.

  Lemma null_loop m : (0 < p)%nat -> (0 < m)%nat -> 0 < tol c -> nothing_selected n p X y sw (alpha c) (l1_ratio c) ->
    cd_loop (N := Rnum) c X y sw m (seq 0 p) (repeat 0 p, 0) = (repeat 0 p, waverage n sw y - 1).
  Proof.
    intros Hp Hm Ht Hs. destruct m as [|m]; [lia|]. cbn [cd_loop]. pose proof (first_sweep Hs) as E. rr.
    rewrite E. cbn [fst].
    assert (C : nltb (n := Rnum) (nmaxl (N := Rnum) (map (nabs (n := Rnum)) (map2 (nsub (n := Rnum)) (repeat 0 p) (repeat 0 p)))) (tol c) = true).
    { apply (max_abs_lt (repeat 0 p) (repeat 0 p) p (tol c)); try apply repeat_length; [exact Hp|].
      intros j Hj. rewrite Rminus_diag_eq, Rabs_R0; [exact Ht|reflexivity]. }
    rr. rewrite C. reflexivity.
  Qed.
End Null.

(** ** The fit *)
Section NullFit.
  Variables (n p : nat) (X : list (list R)) (y : list R) (swo : option (list R)) (c : config Rnum).
  Variables (opt : optimizer (N := Rnum)) (o : poisson Rnum).
  Notation sw := (sample_weights n swo).
  Hypothesis HX : matrix n p X.
  Hypothesis Hn : (0 < n)%nat.
  Hypothesis Hy : length y = n.
  Hypothesis Hsw : length sw = n.
  Hypothesis Hsw0 : forall i, (i < n)%nat -> 0 < entry sw i.
  Hypothesis Hf : fit_intercept c = true.
  Hypothesis Hw : warm_start c = false.
  Hypothesis Hst : standardize c = false.
  Hypothesis Hc : constant_response (N := Rnum) y = false.

  Lemma fit_is_loop : poisson_fit (N := Rnum) c Cd opt p X y swo o
    = let r := cd_loop (N := Rnum) c X y sw (max_iter c) (seq 0 p) (repeat 0 p, 0) in
      (mkPoisson (N := Rnum) (Some (fst r)) (Some (snd r)), Ok tt).
  Proof.
    unfold poisson_fit. rewrite Hc, Hst. cbn [poisson_post].
    assert (EX : map (centering_transform (N := Rnum) false (fit_scaler (N := Rnum) (columns (N := Rnum) p X))) X = X) by apply columns_ok.
    rewrite EX. clear EX.
    assert (S1 : start_coef (N := Rnum) c p (fit_scaler (N := Rnum) (columns (N := Rnum) p X)) o = repeat 0 p) by (unfold start_coef; rewrite Hw; now destruct (coef_ o)).
    assert (S2 : start_intercept (N := Rnum) c o = 0) by (unfold start_intercept; rewrite Hw; now destruct (intercept_ o)).
    rewrite S1, S2. unfold cd. rewrite Hw. cbn [andb].
    assert (ES : match swo with Some s => s | None => ones (N := Rnum) (length X) end = sw).
    { unfold sample_weights. destruct swo; [reflexivity|]. destruct HX as [L _]. rr. rewrite L. reflexivity. }
    rr. rewrite ES, repeat_length. destruct (cd_loop _ _ _ _ _ _ _) as [v d]. unfold poisson_post. cbn [fst snd]. now rewrite Hf.
  Qed.

  Lemma null_fit : (0 < p)%nat -> (0 < max_iter c)%nat -> 0 < tol c -> nothing_selected n p X y sw (alpha c) (l1_ratio c) ->
    poisson_fit (N := Rnum) c Cd opt p X y swo o
    = (mkPoisson (N := Rnum) (Some (repeat 0 p)) (Some (waverage n sw y - 1)), Ok tt).
  Proof.
    intros Hp Hm Ht Hs. rewrite fit_is_loop.
    pose proof (null_loop n p X y sw c HX Hn Hy Hsw Hsw0 Hf (max_iter c) Hp Hm Ht Hs) as E.
    cbv zeta. rr. rewrite E. reflexivity.
  Qed.

  Lemma lag_fit : (0 < max_iter c)%nat -> (forall i, (i < n)%nat -> 0 <= entry y i) ->
    exists v b, poisson_fit (N := Rnum) c Cd opt p X y swo o = (mkPoisson (N := Rnum) (Some v) (Some b), Ok tt) /\
      length v = p /\ waverage n sw y - INR (max_iter c) <= b.
  Proof.
    intros Hm Hy0. rewrite fit_is_loop. cbv zeta.
    set (r := cd_loop _ _ _ _ _ _ _). exists (fst r), (snd r). split; [reflexivity|]. split.
    - unfold r. pose proof (loop_length (N := Rnum) c X y sw (max_iter c) (seq 0 p) (repeat 0 p, 0)) as L.
      refine (eq_trans L _). cbn [fst]. apply repeat_length.
    - unfold r. destruct (max_iter c) as [|m]; [lia|]. cbn [cd_loop].
      pose proof (first_intercept n p X y sw c HX Hn Hy Hsw Hsw0 Hf (seq 0 p)) as E1.
      pose proof (iter_length c X y sw (seq 0 p) (repeat 0 p, 0)) as L. cbn [fst] in L. rewrite repeat_length in L. rr.
      set (s' := cd_iteration (N := Rnum) c X y sw (seq 0 p) (repeat 0 p, 0)) in *.
      rewrite S_INR. destruct (nltb _ _).
      + pose proof (pos_INR m). rr. rewrite E1. lra.
      + pose proof (loop_lag n p X y sw c HX Hn Hy Hsw Hsw0 Hf m (nonzeros (N := Rnum) (fst s')) s' L Hy0) as H.
        rr. rewrite E1 in H. lra.
  Qed.
End NullFit.

(** ** Predictions, and standardized fits *)
Lemma predict_zeros p (d : R) Xn :
  predict_mean (N := Rnum) (mkPoisson (N := Rnum) (Some (repeat 0 p)) (Some d)) Xn = Ok (repeat (exp d) (length Xn)).
Proof.
  unfold predict_mean. cbn [coef_ intercept_]. f_equal. unfold matvec. rewrite map_map.
  induction Xn as [|x Xn IH]; [reflexivity|]. cbn [map length repeat]. f_equal; [|exact IH].
  cbn [nexp nadd Rnum]. f_equal. pose proof (dot_zeros x p) as E. rr. rewrite E. apply Rplus_0_r.
Qed.

Lemma exp_minus1 m : m <= exp (m - 1).
Proof. pose proof (exp_ineq1_le (m - 1)). lra. Qed.
Lemma exp_minus1_lt m : m <> 1 -> m < exp (m - 1).
Proof. intro H. assert (m - 1 <> 0) by lra. pose proof (exp_ineq1 (m - 1) H0). lra. Qed.

Lemma null_objective n p X (y sw : list R) lam mix b : (0 < n)%nat -> 0 < Sum n (fun i => entry sw i) ->
  objective n p X y sw lam mix (repeat 0 p) b
  = Sum n (fun i => entry sw i) / INR n * (exp b - waverage n sw y * b).
Proof.
  intros Hn HS. unfold objective.
  assert (P0 : penalty p lam mix (repeat 0 p) = 0).
  { unfold penalty. rewrite !(Sum_zero p); [ring| |]; intros j Hj; rewrite entry_repeat by exact Hj; [ring|apply Rabs_R0]. }
  rewrite P0.
  rewrite (Sum_ext n (fun i => entry sw i * (exp (eta p X (repeat 0 p) b i) - entry y i * eta p X (repeat 0 p) b i))
    (fun i => exp b * entry sw i - b * (entry sw i * entry y i))).
  - rewrite Sum_minus, !Sum_scal. unfold waverage. assert (Hi : INR n <> 0) by (apply not_0_INR; lia).
    change (Sum n (entry sw)) with (Sum n (fun i => entry sw i)). field. split; lra.
  - intros i Hi. rewrite zeros_eta. ring.
Qed.

Lemma null_gap n p X (y sw : list R) lam mix : (0 < n)%nat -> 0 < Sum n (fun i => entry sw i) ->
  0 < waverage n sw y -> waverage n sw y <> 1 ->
  objective n p X y sw lam mix (repeat 0 p) (ln (waverage n sw y))
  < objective n p X y sw lam mix (repeat 0 p) (waverage n sw y - 1).
Proof.
  intros Hn HS Hm H1. rewrite !null_objective by assumption. set (m := waverage n sw y) in *.
  apply Rmult_lt_compat_l.
  - apply Rdiv_lt_0_compat; [exact HS|]. apply lt_0_INR. exact Hn.
  - rewrite exp_ln by exact Hm.
    assert (Hd : m - 1 - ln m <> 0).
    { intro E. pose proof (exp_minus1_lt m H1) as L. replace (m - 1) with (ln m) in L by lra. rewrite exp_ln in L by exact Hm. lra. }
    pose proof (exp_ineq1 _ Hd) as L.
    replace (exp (m - 1)) with (m * exp (m - 1 - ln m)).
    2:{ replace (m - 1) with (ln m + (m - 1 - ln m)) at 2 by ring. rewrite exp_plus, exp_ln by exact Hm. reflexivity. }
    nra.
Qed.

Lemma standardizing_same (c : config Rnum) b : standardize c = b -> standardizing c b = c.
Proof. intros <-. now destruct c. Qed.

Section NullStd.
  Variables (n p : nat) (X : list (list R)) (y : list R) (swo : option (list R)) (c : config Rnum).
  Variables (opt : optimizer (N := Rnum)) (o : poisson Rnum).
  Notation sw := (sample_weights n swo).
  Notation s := (fit_scaler (N := Rnum) (columns (N := Rnum) p X)).
  Notation T := (transform (N := Rnum) s true).
  Hypothesis HX : matrix n p X.
  Hypothesis Hn : (0 < n)%nat.
  Hypothesis Hy : length y = n.
  Hypothesis Hsw : length sw = n.
  Hypothesis Hsw0 : forall i, (i < n)%nat -> 0 < entry sw i.
  Hypothesis Hf : fit_intercept c = true.
  Hypothesis Hw : warm_start c = false.
  Hypothesis Hst : standardize c = true.
  Hypothesis Hc : constant_response (N := Rnum) y = false.

  Lemma T_length x : length x = p -> length (T x) = p.
  Proof. intro H. unfold transform. apply length_map2n; [|apply len_scale]. apply length_map2n; [exact H|apply len_mean]. Qed.
  Lemma T_matrix : matrix n p (map T X).
  Proof.
    destruct HX as [L F]. split; [now rewrite map_length|].
    apply Forall_map. refine (Forall_impl _ _ F). exact T_length.
  Qed.

  (** The optimizer is not used by the 'cd' solver. *)
  Definition no_opt : optimizer (N := Rnum) := fun _ _ _ _ => Raise ValueError.
  Lemma cd_opt c' X' opt' o' : poisson_fit (N := Rnum) c' Cd opt' p X' y swo o' = poisson_fit (N := Rnum) c' Cd no_opt p X' y swo o'.
  Proof. reflexivity. Qed.

  Lemma std_as_plain Xn : Forall (fun x => length x = p) Xn ->
    let a := poisson_fit (N := Rnum) c Cd opt p X y swo o in
    let b := poisson_fit (N := Rnum) (standardizing c false) Cd opt p (map T X) y swo o in
    snd a = snd b /\ (snd a = Ok tt -> predict_mean (N := Rnum) (fst a) Xn = predict_mean (N := Rnum) (fst b) (map T Xn)).
  Proof.
    intros HXn. rewrite (cd_opt c), (cd_opt (standardizing c false)).
    pose proof (std_fit p X c Cd no_opt y swo o Xn Hw Hf) as H. cbv zeta in H.
    rewrite (standardizing_same c true Hst) in H. apply H; [discriminate|exact HXn].
  Qed.

  Lemma null_std Xn : Forall (fun x => length x = p) Xn ->
    (0 < p)%nat -> (0 < max_iter c)%nat -> 0 < tol c -> nothing_selected n p (map T X) y sw (alpha c) (l1_ratio c) ->
    let a := poisson_fit (N := Rnum) c Cd opt p X y swo o in
    snd a = Ok tt /\ predict_mean (N := Rnum) (fst a) Xn = Ok (repeat (exp (waverage n sw y - 1)) (length Xn)).
  Proof.
    intros HXn Hp Hm Ht Hs a. destruct (std_as_plain Xn HXn) as [E1 E2]. fold a in E1, E2.
    pose proof (null_fit n p (map T X) y swo (standardizing c false) opt o T_matrix Hn Hy Hsw Hsw0 Hf Hw eq_refl Hc Hp Hm Ht Hs) as E.
    rewrite E in E1, E2. cbn [fst snd] in E1, E2. split; [exact E1|]. rewrite (E2 E1), predict_zeros, map_length. reflexivity.
  Qed.

  Lemma center_value : T (mean_ s) = repeat 0 p.
  Proof.
    apply (nth_ext _ _ 0 0).
    - rewrite repeat_length. apply T_length. apply len_mean.
    - intros j Hj. pose proof (T_length (mean_ s) (len_mean p X)) as L. rr. rewrite L in Hj.
      pose proof (transform_entry' p (mean_ s) (scale_ s) (mean_ s) (len_mean p X) (scale_ok p X) (len_mean p X) true j Hj) as E.
      unfold entry in E. refine (eq_trans E _). rewrite nth_repeat. unfold Rdiv. rewrite Rminus_diag_eq by reflexivity. apply Rmult_0_l.
  Qed.
  Lemma center_mean : mean_ s = map (fun j => Sum n (fun i => mat X i j) / INR n) (seq 0 p).
  Proof.
    cbn [mean_ fit_scaler]. unfold columns. rewrite map_map. apply map_ext. intro j.
    refine (eq_trans (mean_n n _ (length_column n p X HX j)) _). f_equal. apply Sum_ext. intros i Hi.
    apply (entry_column n p X HX). exact Hi.
  Qed.

  Lemma lag_std : (0 < max_iter c)%nat -> (forall i, (i < n)%nat -> 0 <= entry y i) ->
    let a := poisson_fit (N := Rnum) c Cd opt p X y swo o in
    let x0 := map (fun j => Sum n (fun i => mat X i j) / INR n) (seq 0 p) in
    snd a = Ok tt /\ exists q, predict_mean (N := Rnum) (fst a) [x0] = Ok [q] /\
      exp (waverage n sw y - INR (max_iter c)) <= q.
  Proof.
    intros Hm Hy0 a x0.
    assert (Hx0 : Forall (fun x : list R => length x = p) [x0]).
    { constructor; [|constructor]. unfold x0. now rewrite map_length, seq_length. }
    destruct (std_as_plain [x0] Hx0) as [E1 E2]. fold a in E1, E2.
    destruct (lag_fit n p (map T X) y swo (standardizing c false) opt o T_matrix Hn Hy Hsw Hsw0 Hf Hw eq_refl Hc Hm Hy0) as (v & d & E & Lv & L).
    rewrite E in E1, E2. cbn [fst snd] in E1, E2. split; [exact E1|]. exists (exp d). split.
    - rewrite (E2 E1). unfold x0. rewrite <- center_mean. cbn [map]. rewrite center_value.
      unfold predict_mean. cbn [coef_ intercept_ matvec map]. f_equal. f_equal. cbn [nexp nadd Rnum]. f_equal.
      assert (D : ndot (N := Rnum) (repeat 0 p) v = 0).
      { rewrite (dot_n p); [|apply repeat_length|exact Lv]. apply Sum_zero. intros j Hj. rewrite entry_repeat by exact Hj. ring. }
      rr. rewrite D. apply Rplus_0_r.
    - cbn [max_iter standardizing] in L. destruct (Rle_lt_or_eq_dec _ _ L) as [H|H]; [left; now apply exp_increasing|right; now rewrite H].
  Qed.
End NullStd.
