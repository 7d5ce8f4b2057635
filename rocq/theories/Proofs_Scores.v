(** Proofs about the scores. *)
From Coq Require Import ZArith List Bool String Reals Lra Lia Floats.SpecFloat Psatz Arith.
From Verif Require Import Prelude F64 F64Order Num Model_Intersection Model_Mpi Spec_Mpi Model_Fit Spec_Fit Proofs_FitFind
  Proofs_FitProps Proofs_FitDist Model_Scores Spec_Scores Proofs_FitMpi Proofs_FitRuns Proofs_FitSerial Proofs_Fit.
Import ListNotations.

Local Open Scope R_scope.

Ltac rn := cbn [nadd nsub nmul ndiv nopp nabs nofZ nleb nltb neqb nexp nln nsqrt nneginf Rnum carrier].
Notation RBIC := (BIC (N := Rnum)).
Notation RAIC := (AIC (N := Rnum)).
Notation RAICc := (AICc (N := Rnum)).

Lemma ln_pos_gt1 n : (1 < n)%Z -> 0 < ln (IZR n).
Proof.
  intro H. rewrite <- ln_1. apply ln_increasing; [lra|]. now apply IZR_lt.
Qed.

Lemma bic_features ll k k' n : (1 < n)%Z -> (k < k')%Z -> RBIC ll k n < RBIC ll k' n.
Proof.
  intros Hn Hk. unfold BIC; rn. apply Rplus_lt_compat_r.
  apply Rmult_lt_compat_r; [now apply ln_pos_gt1|now apply IZR_lt].
Qed.

Lemma aic_features ll k k' : (k < k')%Z -> RAIC ll k < RAIC ll k'.
Proof. intro H. unfold AIC; rn. apply Rplus_lt_compat_r. apply IZR_lt. lia. Qed.

Lemma aicc_aic ll k n : (0 <= k)%Z ->
  RAIC ll k <= RAICc ll k n /\
  ((n <= k + 1)%Z -> RAICc ll k n = RAIC ll k) /\
  ((k + 1 < n)%Z -> (0 < k)%Z -> RAIC ll k < RAICc ll k n).
Proof.
  intro Hk. unfold AICc. destruct (Z.ltb_spec (k + 1) n) as [H|H]; rn.
  - set (a := AIC _ _). assert (0 < IZR (n - k - 1)) by (apply IZR_lt; lia).
    assert (0 <= IZR (2 * (k * k + k))) by (apply IZR_le; nia).
    split; [|split].
    + assert (0 <= IZR (2 * (k * k + k)) / IZR (n - k - 1)); [|lra].
      apply Rmult_le_pos; [assumption|]. apply Rlt_le, Rinv_0_lt_compat; assumption.
    + lia.
    + intros _ Hp. assert (0 < IZR (2 * (k * k + k))) by (apply IZR_lt; nia).
      assert (0 < IZR (2 * (k * k + k)) / IZR (n - k - 1)); [|lra].
      now apply Rdiv_lt_0_compat.
  - split; [lra|]. split; [reflexivity|lia].
Qed.

Lemma aicc_features ll k n : (0 <= k)%Z -> (k + 2 < n)%Z -> RAICc ll k n < RAICc ll (k + 1) n.
Proof.
  intros Hk Hn. unfold AICc.
  destruct (Z.ltb_spec (k + 1) n); [|lia]. destruct (Z.ltb_spec (k + 1 + 1) n); [|lia].
  rn. apply Rplus_lt_le_compat.
  - apply (aic_features ll k (k + 1)). lia.
  - replace (n - (k + 1) - 1)%Z with (n - k - 1 - 1)%Z by lia.
    set (u := (n - k - 1)%Z). assert (0 < IZR u) by (apply IZR_lt; lia).
    assert (0 < IZR (u - 1)) by (apply IZR_lt; lia).
    unfold Rdiv. apply Rmult_le_compat.
    + apply IZR_le; nia.
    + apply Rlt_le, Rinv_0_lt_compat; lra.
    + apply IZR_le; nia.
    + apply Rinv_le_contravar; [lra|]. apply IZR_le; lia.
Qed.

Lemma aicc_drop ll k n : (1 <= k)%Z -> n = (k + 2)%Z -> RAICc ll (k + 1) n < RAICc ll k n.
Proof.
  intros Hk ->. unfold AICc.
  destruct (Z.ltb_spec (k + 1) (k + 2)); [|lia]. destruct (Z.ltb_spec (k + 1 + 1) (k + 2)); [lia|].
  replace (k + 2 - k - 1)%Z with 1%Z by lia. rn.
  unfold AIC; rn.
  assert (IZR (2 * (k + 1)) < IZR (2 * k) + IZR (2 * (k * k + k)) / 1); [|lra].
  unfold Rdiv. rewrite Rinv_1, Rmult_1_r, <- plus_IZR. apply IZR_lt. nia.
Qed.

Lemma criteria_ll ll ll' k n : ll < ll' ->
  RBIC ll' k n < RBIC ll k n /\ RAIC ll' k < RAIC ll k /\ RAICc ll' k n < RAICc ll k n.
Proof.
  intro H. assert (A : RAIC ll' k < RAIC ll k) by (unfold AIC; cbn; lra).
  split; [unfold BIC; cbn; lra|]. split; [exact A|].
  unfold AICc. destruct (_ <? _)%Z; cbn; lra.
Qed.

(** ** Poisson log-likelihood *)

Lemma rsum_app_le (f g : R -> R -> R) y p :
  Forall2 (fun a b => f a b <= g a b) y p ->
  nsum (N := Rnum) (map2 f y p) <= nsum (N := Rnum) (map2 g y p).
Proof.
  induction 1; cbn; [lra|]. unfold nsum in *. cbn in *. lra.
Qed.

Lemma log_bound a b : 0 < a -> 0 < b -> a * ln b - b <= a * ln a - a /\
  (a * ln b - b = a * ln a - a -> b = a).
Proof.
  intros Ha Hb.
  assert (E : a * ln b - a * ln a = a * ln (b / a)).
  { unfold Rdiv. rewrite ln_mult; [|assumption|now apply Rinv_0_lt_compat].
    rewrite ln_Rinv by assumption. ring. }
  assert (Hq : 0 < b / a) by now apply Rdiv_lt_0_compat.
  assert (Hle : b / a - 1 = (b - a) / a) by (field; lra).
  destruct (Req_dec (b / a) 1) as [H1|H1].
  - assert (b = a) by (apply (f_equal (fun t => t * a)) in H1; field_simplify in H1; lra).
    subst b. split; [lra|auto].
  - assert (L : ln (b / a) < b / a - 1).
    { apply exp_lt_inv. rewrite exp_ln by assumption.
      replace (b / a) with (1 + (b / a - 1)) at 1 by ring.
      apply exp_ineq1. lra. }
    apply (Rmult_lt_compat_l a) in L; [|assumption].
    rewrite Hle in L. replace (a * ((b - a) / a)) with (b - a) in L by (field; lra).
    split; [lra|]. intro K. lra.
Qed.

Lemma any_pos (p : list Rnum) : p <> [] -> Forall (fun v => 0 < v) p -> nany (N := Rnum) p = true.
Proof.
  destruct p as [|a p]; [congruence|]. intros _ H. inversion H; subst.
  cbn. unfold nnonzero. cbn. unfold Reqb. destruct (Req_EM_T a 0); [lra|reflexivity].
Qed.

Lemma nofnat_R n : nofnat (N := Rnum) n = INR n.
Proof. unfold nofnat. cbn. symmetry. apply INR_IZR_INZ. Qed.

Lemma length_map2 {A B C} (f : A -> B -> C) a b : List.length a = List.length b ->
  List.length (map2 f a b) = List.length a.
Proof.
  revert b. induction a as [|x a IH]; intros [|z b] H; cbn in *; try congruence.
  now rewrite IH by congruence.
Qed.

Lemma mean_le (l1 l2 : list Rnum) : List.length l1 = List.length l2 ->
  nsum (N := Rnum) l1 <= nsum (N := Rnum) l2 -> nmean (N := Rnum) l1 <= nmean (N := Rnum) l2.
Proof.
  intros H L. unfold nmean. rewrite H, nofnat_R. cbn. unfold Rdiv.
  destruct l2 as [|a l2].
  - destruct l1; [|discriminate]. lra.
  - apply Rmult_le_compat_r; [|exact L].
    apply Rlt_le, Rinv_0_lt_compat. apply lt_0_INR. cbn. lia.
Qed.

Lemma poisson_saturated (y p : list Rnum) : List.length y = List.length p -> y <> [] ->
  Forall (fun v => 0 <= v) y -> Forall (fun v => 0 < v) p ->
  ll_poisson (N := Rnum) y p <= saturated y.
Proof.
  intros HL Hy H0 Hp. unfold ll_poisson.
  assert (p <> []) by (intros ->; destruct y; [now apply Hy|discriminate]).
  rewrite any_pos by assumption. cbn [negb].
  unfold saturated, nmean. rewrite length_map2 by assumption. rewrite nofnat_R. cbn [ndiv Rnum].
  unfold Rdiv. apply Rmult_le_compat_r.
  { apply Rlt_le, Rinv_0_lt_compat, lt_0_INR. destruct y; cbn; [now elim Hy|lia]. }
  clear Hy H. revert p HL Hp. induction H0 as [|a y Ha Hy IH]; intros [|b p] HL Hp; try discriminate.
  - unfold nsum; cbn. lra.
  - inversion Hp; subst. cbn [map2 map fold_right nsum]. cbn [nadd nsub nmul nln Rnum carrier].
    specialize (IH p ltac:(injection HL as HL; exact HL) H2). unfold nsum in IH. cbn in IH.
    apply Rplus_le_compat; [|exact IH].
    destruct (Req_EM_T a 0) as [->|Hn]; [lra|]. apply log_bound; lra.
Qed.

Lemma poisson_best (y p : list Rnum) : List.length y = List.length p ->
  Forall (fun v => 0 < v) y -> Forall (fun v => 0 < v) p ->
  ll_poisson (N := Rnum) y p <= ll_poisson (N := Rnum) y y /\
  (ll_poisson (N := Rnum) y p = ll_poisson (N := Rnum) y y -> p = y).
Proof.
  intros HL H0 Hp. destruct y as [|a y].
  { destruct p; [|discriminate]. split; [lra|reflexivity]. }
  assert (p <> []) by (intros ->; discriminate).
  unfold ll_poisson. rewrite !any_pos by (assumption || discriminate). cbn [negb].
  set (f := fun yt yp : Rnum => nsub (nmul yt (nln yp)) yp).
  assert (K : forall (y p : list Rnum), List.length y = List.length p ->
    Forall (fun v => 0 < v) y -> Forall (fun v => 0 < v) p ->
    nsum (N := Rnum) (map2 f y p) <= nsum (N := Rnum) (map2 f y y) /\
    (nsum (N := Rnum) (map2 f y p) = nsum (N := Rnum) (map2 f y y) -> p = y)).
  { clear. induction y as [|a y IH]; intros [|b p] HL H0 Hp; try discriminate.
    - split; [lra|reflexivity].
    - inversion H0; inversion Hp; subst. cbn [map2 nsum fold_right].
      destruct (IH p) as [I1 I2]; [injection HL as HL; exact HL|assumption|assumption|].
      destruct (log_bound a b) as [J1 J2]; [assumption|assumption|].
      unfold nsum in I1, I2. cbn in I1, I2 |- *.
      split; [lra|]. intro E.
      assert (E1 : a * ln b - b = a * ln a - a) by lra. rewrite (J2 E1). f_equal. apply I2.
      rewrite E1 in E. lra. }
  destruct (K (a :: y) p HL H0 Hp) as [K1 K2].
  split.
  - apply mean_le; [|exact K1]. rewrite (length_map2 f (a :: y) p HL), (length_map2 f (a :: y) (a :: y) eq_refl). reflexivity.
  - intro E. apply K2. unfold nmean in E. rewrite (length_map2 f (a :: y) p HL), (length_map2 f (a :: y) (a :: y) eq_refl) in E.
    rewrite nofnat_R in E. cbn [ndiv Rnum] in E.
    assert (Hn : INR (List.length (a :: y)) <> 0) by (apply not_0_INR; cbn; lia).
    apply (f_equal (fun t => t * INR (List.length (a :: y)))) in E. unfold Rdiv in E.
    rewrite !Rmult_assoc, Rinv_l, !Rmult_1_r in E by assumption. exact E.
Qed.

Local Close Scope R_scope.

(** In binary64: a zero count predicted as zero. *)
Lemma fadd_nan_l x : fadd fnan x = fnan.
Proof. reflexivity. Qed.
Lemma fadd_nan_r x : fadd x fnan = fnan.
Proof. now destruct x. Qed.

Definition is_zero64 (x : f64) : bool := negb (nonzero64 x).

Lemma neqb_zero_F e l (x : f64) : nnonzero (N := Fnum e l) x = nonzero64 x.
Proof. destruct x as [s|s| |s m ex]; try destruct s; reflexivity. Qed.

Lemma sum_nan e l (v : list (Fnum e l)) : In fnan v -> nsum (N := Fnum e l) v = fnan.
Proof.
  induction v as [|a v IH]; intros H; [contradiction|].
  unfold nsum in *. cbn. destruct H as [->|H].
  - apply fadd_nan_l.
  - cbn in IH. rewrite (IH H). apply fadd_nan_r.
Qed.

Lemma map2_in {A B C} (f : A -> B -> C) a b i da db : i < List.length a -> i < List.length b ->
  In (f (nth i a da) (nth i b db)) (map2 f a b).
Proof.
  revert b i. induction a as [|x a IH]; intros [|z b] i H1 H2; cbn in *; try lia.
  destruct i as [|i]; [now left|right]. apply IH; lia.
Qed.

Lemma poisson_nan exp64 ln64 (y p : list (Fnum exp64 ln64)) i j :
  (forall s, ln64 (S754_zero s) = fninf) ->
  i < List.length y -> i < List.length p -> j < List.length p ->
  nonzero64 (nth i y fnan) = false -> nonzero64 (nth i p fnan) = false ->
  nonzero64 (nth j p fnan) = true ->
  ll_poisson (N := Fnum exp64 ln64) y p = fnan.
Proof.
  intros Hln Hi Hi' Hj Hy Hp Hnz. unfold ll_poisson.
  assert (A : nany (N := Fnum exp64 ln64) p = true).
  { apply existsb_exists. exists (nth j p fnan). split; [now apply nth_In|].
    now rewrite neqb_zero_F. }
  rewrite A. cbn [negb]. unfold nmean.
  rewrite sum_nan; [reflexivity|].
  pose (f := fun yt yp : Fnum exp64 ln64 => nsub (nmul yt (nln yp)) yp).
  assert (Ef : f (nth i y fnan) (nth i p fnan) = fnan).
  { revert Hy Hp. generalize (nth i y fnan) (nth i p fnan). intros u v.
    destruct u as [s|s| |s m e]; try discriminate.
    destruct v as [s'|s'| |s' m e]; try discriminate. intros _ _.
    unfold f. cbn [nsub nmul nln Fnum]. rewrite Hln. destruct s; reflexivity. }
  rewrite <- Ef at 1. now apply (map2_in f).
Qed.

(** ** Validation *)

Lemma init_metric_spec metrics default metric target :
  (init_metric metrics default metric target = Raise ValueError <->
     ~ In metric metrics \/ exists t, target = Some t /\ t <> "train"%string /\ t <> "test"%string) /\
  (In metric metrics ->
     init_metric metrics default metric (Some "train"%string) = Ok (metric, 0) /\
     init_metric metrics default metric (Some "test"%string) = Ok (metric, 1) /\
     init_metric metrics default metric None = Ok (metric, default metric)).
Proof.
  unfold init_metric.
  assert (E : existsb (String.eqb metric) metrics = true <-> In metric metrics).
  { rewrite existsb_exists. split.
    - intros (x & Hx & K). apply String.eqb_eq in K. now subst.
    - intro H. exists metric. split; [assumption|apply String.eqb_refl]. }
  destruct (existsb _ _) eqn:X; cbn [negb].
  - assert (I : In metric metrics) by now apply E.
    split; [|intros _; split; [|split]; reflexivity].
    split.
    + destruct target as [t|]; [|discriminate].
      destruct (String.eqb_spec t "train"); [discriminate|].
      destruct (String.eqb_spec t "test"); [discriminate|]. intros _. right. exists t. auto.
    + intros [H|(t & -> & H1 & H2)]; [contradiction|].
      apply String.eqb_neq in H1, H2. now rewrite H1, H2.
  - split.
    + split; [|reflexivity]. intros _. left. intro I. apply E in I. discriminate.
    + intro I. apply E in I. discriminate.
Qed.

Lemma linear_defaults metric : In metric linear_metrics ->
  linear_default metric = if string_dec metric "r2" then 1 else 0.
Proof.
  cbn. intros [<-|[<-|[<-|[<-|[]]]]]; reflexivity.
Qed.

Lemma glm_defaults metric : In metric glm_metrics ->
  glm_default metric =
  if string_dec metric "log" then 1 else if string_dec metric "acc" then 1 else 0.
Proof. cbn. intros [<-|[<-|[<-|[<-|[<-|[]]]]]]; reflexivity. Qed.

(** ** Ranking *)

Lemma fleb_opp a b : fleb (fopp a) (fopp b) = fleb b a.
Proof.
  destruct a as [s|s| |s m e], b as [s'|s'| |s' m' e']; try destruct s; try destruct s'; try reflexivity.
  - unfold fleb, SFleb. cbn [fopp SFopp negb SFcompare].
    change (Pos.compare_cont Eq m m') with (m ?= m')%positive; change (Pos.compare_cont Eq m' m) with (m' ?= m)%positive.
    rewrite (Z.compare_antisym e e'), (Pos.compare_antisym m m').
    destruct (e ?= e')%Z; cbn; try reflexivity; destruct (m ?= m')%positive; reflexivity.
  - unfold fleb, SFleb. cbn [fopp SFopp negb SFcompare].
    change (Pos.compare_cont Eq m m') with (m ?= m')%positive; change (Pos.compare_cont Eq m' m) with (m' ?= m)%positive.
    rewrite (Z.compare_antisym e e'), (Pos.compare_antisym m m').
    destruct (e ?= e')%Z; cbn; try reflexivity; destruct (m ?= m')%positive; reflexivity.
Qed.

Lemma fopp_nan a : is_nan64 (fopp a) = is_nan64 a.
Proof. now destruct a. Qed.

Lemma criterion_named {N : NumOps} metric (ll : N) k n c :
  criterion metric ll k n = Ok c -> named_criterion metric ll k n c.
Proof.
  unfold criterion, named_criterion.
  destruct (String.eqb_spec metric "BIC"); [intro H; injection H as <-; auto|].
  destruct (String.eqb_spec metric "AIC"); [intro H; injection H as <-; auto|].
  destruct (String.eqb_spec metric "AICc"); [intro H; injection H as <-; auto|]. discriminate.
Qed.

Lemma count_filter (mask : list bool) : count (fun b => b) mask = List.length (filter (fun b => b) mask).
Proof. induction mask as [|[] m IH]; cbn; congruence. Qed.

Lemma target_rows_eq target sp : target_rows target sp = scored_rows target sp.
Proof. now destruct target. Qed.


(** The chosen support has the lowest criterion, for any way [crit] of relating
    negated scores to supports. *)
Section Rank.
  Context {S E Rng : Type}.
  Variable env : np_env.
  Variable d : dims.
  Variable sol : nat -> solver S E.
  Variable draw : bool -> Rng -> result (split * Rng).
  Variable post : nd -> nd -> result (nd * nd).
  Variable crit : nat -> list bool -> split -> f64 -> Prop.
  Hypothesis score_crit : forall i e mask sp v,
    existsb (fun b => b) mask = true ->
    est_fit (sol i) mask (fst sp) = Ok e -> score (sol i) e mask sp = Ok v ->
    exists c, v = fopp c /\ crit i mask sp c.
  Hypothesis null_crit : forall i e mask sp v,
    existsb (fun b => b) mask = false ->
    null_fit (sol i) (fst sp) = Ok e -> null_score (sol i) e sp = Ok v ->
    exists c, v = fopp c /\ crit i mask sp c.

  Lemma existsb_nth (mask : list bool) : existsb (fun b => b) mask = true <-> exists k, nth k mask false = true.
  Proof.
    rewrite existsb_exists. split.
    - intros (x & Hx & ->). destruct (In_nth _ _ false Hx) as (k & _ & Hk). eauto.
    - intros (k & Hk). exists true. split; [|reflexivity].
      destruct (Nat.lt_ge_cases k (List.length mask)) as [L|L].
      + rewrite <- Hk. now apply nth_In.
      + rewrite nth_overflow in Hk by assumption. discriminate.
  Qed.

  Lemma lowest n R s0 F :
    1 <= n_boots_sel d -> (forall i, shapes_ok d (sol i)) ->
    2 <= List.length (thresholds d) * n_reg d -> 2 <= n_coef d ->
    returned env d sol draw post n false R s0 F ->
    exists sel p rows sps r1 sps2 r2,
      f_sel F = Some sel /\ s_supports sel = Arr2 p rows /\
      drawn draw true (R 0) sps r1 /\ List.length sps = n_boots_sel d /\ drawn draw false r1 sps2 r2 /\
      forall b, b < n_boots_est d ->
      (forall j, j < List.length rows -> is_nan64 (at2 (s_scores sel) b j) = false) ->
      exists C : nat -> f64,
        (forall j, j < List.length rows ->
           exists i, i < n /\ crit i (nth j rows []) (nth b sps2 ([], [])) (C j)) /\
        index_at (s_rp_max_idx sel) b < List.length rows /\
        forall j, j < List.length rows -> fleb (C (index_at (s_rp_max_idx sel) b)) (C j) = true.
  Proof.
    intros H1 H2 H3 H4 HR.
    destruct (estimates_provenance env d sol draw post H1 H2 n R s0 F H3 H4 HR)
      as (sel & p & rows & sps & r1 & sps2 & r2 & Es & Ep & D1 & L1 & D2 & Hest).
    destruct (best_support env d sol draw post H1 H2 n R s0 F HR)
      as (sel' & ns & coef & ic & Es' & Sh & She & _ & Hmax & _).
    rewrite Es in Es'. injection Es' as <-.
    assert (Ens : ns = List.length rows).
    { destruct (returned_step env d sol draw post H1 H2 _ _ _ _ HR)
        as (sel' & ns' & ? & ? & Es' & She' & _ & _ & _ & _ & _ & _ & _ & ? & ? & ? & ? & ? & _ & _ & _ & _ & _ & Hn & _).
      rewrite Es in Es'. injection Es' as <-. rewrite Ep in Hn. cbn in Hn. injection Hn as Hn.
      rewrite She in She'. congruence. }
    subst ns. exists sel, p, rows, sps, r1, sps2, r2.
    do 5 (split; [assumption|]).
    intros b Hb Hnan. specialize (Hmax b Hb Hnan).
    exists (fun j => fopp (at2 (s_scores sel) b j)). split.
    - intros j Hj. destruct (Hest b j Hb Hj) as (i & Hi & [(Hk & e & E1 & E2 & _)|(Hk & e & E1 & E2 & _)]);
        exists i; split; try assumption.
      + apply existsb_nth in Hk.
        destruct (score_crit _ _ _ _ _ Hk E1 E2) as (c & -> & Hc).
        replace (fopp (fopp c)) with c by (destruct c as [[]|[]| |[] ? ?]; reflexivity). exact Hc.
      + assert (K : existsb (fun b => b) (nth j rows []) = false).
        { destruct (existsb _ _) eqn:X; [|reflexivity]. apply existsb_nth in X as (k & X).
          rewrite Hk in X. discriminate. }
        destruct (null_crit _ _ _ _ _ K E1 E2) as (c & -> & Hc).
        replace (fopp (fopp c)) with c by (destruct c as [[]|[]| |[] ? ?]; reflexivity). exact Hc.
    - destruct Hmax as [Hlt Hmax]. rewrite map_length, seq_length in Hlt.
      split; [exact Hlt|]. intros j Hj. rewrite fleb_opp.
      rewrite map_length, seq_length in Hmax.
      destruct (Hmax j Hj) as [K _].
      rewrite !(nth_indep _ fnan (at2 (s_scores sel) b 0)) in K by (rewrite map_length, seq_length; assumption).
      rewrite !map_nth, !seq_nth in K by assumption. exact K.
  Qed.
End Rank.

Lemma rmap_opp_inv exp64 ln64 (r : result (Fnum exp64 ln64)) v : rmap nopp r = Ok v ->
  exists c, r = Ok c /\ v = fopp c.
Proof. destruct r as [c|]; cbn; intro H; [|discriminate]. injection H as <-. exists c. split; reflexivity. Qed.

Lemma empty_size (mask : list bool) : existsb (fun b => b) mask = false -> support_size mask = 0%Z.
Proof.
  unfold support_size. induction mask as [|[] m IH]; cbn; intro H; try discriminate; [reflexivity|].
  now apply IH.
Qed.

Lemma count_repeat_false n : count (fun b : bool => b) (repeat false n) = 0.
Proof. induction n; cbn; auto. Qed.

Section RankLinear.
  Context {S E Rng : Type}.
  Variables exp64 ln64 : f64 -> f64.
  Variable env : np_env.
  Variable d : dims.
  Variable sol : nat -> solver S E.
  Variable draw : bool -> Rng -> result (split * Rng).
  Variable post : nd -> nd -> result (nd * nd).
  Variable metric : string.
  Variable target : nat.
  Notation N := (Fnum exp64 ln64).
  Hypothesis Hmetric : In metric ["AIC"; "AICc"; "BIC"]%string.

  Section Linear.
    Variable r2 : list N -> list N -> N.
    Variable y : list N.
    Variable pred : E -> list bool -> list nat -> list N.
    Hypothesis Hscore : forall i e mask sp,
      score (sol i) e mask sp = linear_score (N := N) r2 metric target y (pred e mask) mask sp.
    Hypothesis Hnull : forall i e sp mask, existsb (fun b => b) mask = false ->
      null_score (sol i) e sp
      = linear_score (N := N) r2 metric target y (pred e mask) (repeat false (n_feat d)) sp.

    Lemma linear_score_crit e mask mask' sp v :
      linear_score (N := N) r2 metric target y (pred e mask) mask' sp = Ok v ->
      exists c, v = fopp c /\
        named_criterion (N := N) metric (linear_ll (N := N) y pred e mask (scored_rows target sp))
          (support_size mask') (Z.of_nat (List.length (scored_rows target sp))) c.
    Proof.
      unfold linear_score. destruct (negb _); [discriminate|].
      assert (Hr : String.eqb metric "r2" = false).
      { cbn in Hmetric. destruct Hmetric as [<-|[<-|[<-|[]]]]; reflexivity. }
      rewrite Hr. intro H. apply rmap_opp_inv in H as (c & Hc & ->). exists c. split; [reflexivity|].
      apply criterion_named in Hc. unfold take_rows in Hc. rewrite map_length in Hc.
      rewrite target_rows_eq, count_filter in Hc. exact Hc.
    Qed.

    Definition linear_lowest := lowest env d sol draw post
      (fun i mask sp c => estimated_criterion (N := N) (sol i) (linear_ll (N := N) y pred) (fun _ => 0%Z) metric target mask sp c).

    Lemma linear_score_hyp i e mask sp v :
      existsb (fun b => b) mask = true ->
      est_fit (sol i) mask (fst sp) = Ok e -> score (sol i) e mask sp = Ok v ->
      exists c, v = fopp c /\
        estimated_criterion (N := N) (sol i) (linear_ll (N := N) y pred) (fun _ => 0%Z) metric target mask sp c.
    Proof.
      intros Hm He Hs. rewrite Hscore in Hs. apply linear_score_crit in Hs as (c & -> & Hc).
      exists c. split; [reflexivity|]. exists e. rewrite Hm. split; [exact He|].
      cbn. rewrite Z.add_0_r. exact Hc.
    Qed.
    Lemma linear_null_hyp i e mask sp v :
      existsb (fun b => b) mask = false ->
      null_fit (sol i) (fst sp) = Ok e -> null_score (sol i) e sp = Ok v ->
      exists c, v = fopp c /\
        estimated_criterion (N := N) (sol i) (linear_ll (N := N) y pred) (fun _ => 0%Z) metric target mask sp c.
    Proof.
      intros Hm He Hs. rewrite (Hnull i e sp mask Hm) in Hs. apply linear_score_crit in Hs as (c & -> & Hc).
      exists c. split; [reflexivity|]. exists e. rewrite Hm. split; [exact He|].
      cbn. rewrite Z.add_0_r, (empty_size _ Hm).
      unfold support_size in Hc. rewrite <- count_filter, count_repeat_false in Hc. exact Hc.
    Qed.
    Definition linear_ranking := linear_lowest linear_score_hyp linear_null_hyp.
  End Linear.

  Section Logistic.
    Variable acc log_loss : E -> list bool -> list nat -> result N.
    Hypothesis Hscore : forall i e mask sp,
      score (sol i) e mask sp = glm_score (N := N) (acc e mask) (log_loss e mask) metric target mask sp.
    Hypothesis Hnull : forall i e sp mask, existsb (fun b => b) mask = false ->
      null_score (sol i) e sp
      = glm_score (N := N) (acc e mask) (log_loss e mask) metric target (repeat false (n_feat d)) sp.

    Lemma logistic_score_crit e mask mask' sp v :
      glm_score (N := N) (acc e mask) (log_loss e mask) metric target mask' sp = Ok v ->
      exists c, v = fopp c /\
        named_criterion (N := N) metric (logistic_ll exp64 ln64 log_loss e mask (scored_rows target sp))
          (support_size mask') (Z.of_nat (List.length (scored_rows target sp))) c.
    Proof.
      unfold glm_score.
      assert (Hr : String.eqb metric "acc" = false /\ String.eqb metric "log" = false).
      { cbn in Hmetric. destruct Hmetric as [<-|[<-|[<-|[]]]]; split; reflexivity. }
      destruct Hr as [Hr1 Hr2]. rewrite Hr1, Hr2, !target_rows_eq. unfold logistic_ll.
      destruct (log_loss e mask (scored_rows target sp)) as [l|]; cbn [bind]; [|discriminate].
      intro H. apply rmap_opp_inv in H as (c & Hc & ->). exists c. split; [reflexivity|].
      apply criterion_named in Hc. rewrite count_filter in Hc. exact Hc.
    Qed.

    Lemma logistic_score_hyp i e mask sp v :
      existsb (fun b => b) mask = true ->
      est_fit (sol i) mask (fst sp) = Ok e -> score (sol i) e mask sp = Ok v ->
      exists c, v = fopp c /\
        estimated_criterion (N := N) (sol i) (logistic_ll exp64 ln64 log_loss) (fun _ => 0%Z) metric target mask sp c.
    Proof.
      intros Hm He Hs. rewrite Hscore in Hs. apply logistic_score_crit in Hs as (c & -> & Hc).
      exists c. split; [reflexivity|]. exists e. rewrite Hm. split; [exact He|].
      cbn. rewrite Z.add_0_r. exact Hc.
    Qed.
    Lemma logistic_null_hyp i e mask sp v :
      existsb (fun b => b) mask = false ->
      null_fit (sol i) (fst sp) = Ok e -> null_score (sol i) e sp = Ok v ->
      exists c, v = fopp c /\
        estimated_criterion (N := N) (sol i) (logistic_ll exp64 ln64 log_loss) (fun _ => 0%Z) metric target mask sp c.
    Proof.
      intros Hm He Hs. rewrite (Hnull i e sp mask Hm) in Hs. apply logistic_score_crit in Hs as (c & -> & Hc).
      exists c. split; [reflexivity|]. exists e. rewrite Hm. split; [exact He|].
      cbn. rewrite Z.add_0_r, (empty_size _ Hm).
      unfold support_size in Hc. rewrite <- count_filter, count_repeat_false in Hc. exact Hc.
    Qed.
    Definition logistic_ranking := lowest env d sol draw post _ logistic_score_hyp logistic_null_hyp.
  End Logistic.

  Section Poisson.
    Variable y : list N.
    Variable pred : E -> list bool -> list nat -> result (list N).
    Variable icpt : E -> N.
    Hypothesis Hscore : forall i e mask sp,
      score (sol i) e mask sp = poisson_score (N := N) metric target y (pred e mask) (icpt e) mask sp.
    Hypothesis Hnull : forall i e sp mask, existsb (fun b => b) mask = false ->
      null_score (sol i) e sp
      = poisson_score (N := N) metric target y (pred e mask) (icpt e) (repeat false (n_feat d)) sp.

    Lemma poisson_score_crit e mask mask' sp v :
      poisson_score (N := N) metric target y (pred e mask) (icpt e) mask' sp = Ok v ->
      exists c, v = fopp c /\
        named_criterion (N := N) metric (poisson_ll exp64 ln64 y pred e mask (scored_rows target sp))
          (support_size mask' + icpt_params icpt e) (Z.of_nat (List.length (scored_rows target sp))) c.
    Proof.
      unfold poisson_score.
      assert (Hr : String.eqb metric "log" = false).
      { cbn in Hmetric. destruct Hmetric as [<-|[<-|[<-|[]]]]; reflexivity. }
      rewrite Hr, !target_rows_eq. unfold poisson_ll.
      destruct (pred e mask (scored_rows target sp)) as [l|]; cbn [bind]; [|discriminate].
      intro H. apply rmap_opp_inv in H as (c & Hc & ->). exists c. split; [reflexivity|].
      apply criterion_named in Hc. unfold take_rows in Hc. rewrite map_length, count_filter, neqb_zero_F in Hc. exact Hc.
    Qed.

    Lemma poisson_score_hyp i e mask sp v :
      existsb (fun b => b) mask = true ->
      est_fit (sol i) mask (fst sp) = Ok e -> score (sol i) e mask sp = Ok v ->
      exists c, v = fopp c /\
        estimated_criterion (N := N) (sol i) (poisson_ll exp64 ln64 y pred) (icpt_params icpt) metric target mask sp c.
    Proof.
      intros Hm He Hs. rewrite Hscore in Hs. apply poisson_score_crit in Hs as (c & -> & Hc).
      exists c. split; [reflexivity|]. exists e. rewrite Hm. split; [exact He|]. exact Hc.
    Qed.
    Lemma poisson_null_hyp i e mask sp v :
      existsb (fun b => b) mask = false ->
      null_fit (sol i) (fst sp) = Ok e -> null_score (sol i) e sp = Ok v ->
      exists c, v = fopp c /\
        estimated_criterion (N := N) (sol i) (poisson_ll exp64 ln64 y pred) (icpt_params icpt) metric target mask sp c.
    Proof.
      intros Hm He Hs. rewrite (Hnull i e sp mask Hm) in Hs. apply poisson_score_crit in Hs as (c & -> & Hc).
      exists c. split; [reflexivity|]. exists e. rewrite Hm. split; [exact He|].
      cbn. rewrite (empty_size _ Hm).
      unfold support_size in Hc. rewrite <- count_filter, count_repeat_false in Hc. exact Hc.
    Qed.
    Definition poisson_ranking := lowest env d sol draw post _ poisson_score_hyp poisson_null_hyp.
  End Poisson.
End RankLinear.

Lemma poisson_acc {N : NumOps} target (y : list N) pred ic support sp v :
  poisson_score "acc" target y pred ic support sp <> Ok v.
Proof.
  unfold poisson_score. cbn. destruct (pred _); cbn; discriminate.
Qed.

(** ** A concrete fit scored by BIC, with a toy logarithm *)
Definition toy_num : NumOps := Fnum (fun x => x) (fun x => x).
Definition bic_y : list f64 := [fone; ftwo; fone; f64_of_Z 3; fone; ftwo].
(** Predictions: the number of selected features everywhere. *)
Definition bic_pred (e : list f64) (mask : list bool) (rows : list nat) : list f64 :=
  map (fun _ => f64_of_Z (Z.of_nat (List.length e))) rows.
Definition bic_solver : solver unit (list f64) :=
  mkSolver _ _ (reset ex_solver) (sweep ex_solver) (est_fit ex_solver) (est_coef ex_solver)
    (null_fit ex_solver)
    (fun e mask sp => linear_score (N := toy_num) (fun _ _ => fzero) "BIC" 0 bic_y (bic_pred e mask) mask sp)
    (fun e sp => linear_score (N := toy_num) (fun _ _ => fzero) "BIC" 0 bic_y (bic_pred e []) (repeat false 2) sp)
    (fit_int ex_solver).
Lemma bic_shapes : shapes_ok ex_dims bic_solver.
Proof. exact ex_shapes. Qed.
Definition bic_fitted : fitted := ok_fit (fit ex_np ex_dims bic_solver ex_draw ex_post 1 0 false 0 tt).
Lemma bic_serial : fit ex_np ex_dims bic_solver ex_draw ex_post 1 0 false 0 tt = Done (Ok bic_fitted).
Proof. vm_compute. reflexivity. Qed.

Lemma linear_arguments metric target :
  (init_linear metric target = Raise ValueError <->
     ~ In metric ["r2"; "AIC"; "AICc"; "BIC"]%string \/
     exists t, target = Some t /\ t <> "train"%string /\ t <> "test"%string) /\
  (In metric ["r2"; "AIC"; "AICc"; "BIC"]%string ->
     init_linear metric (Some "train"%string) = Ok (metric, 0) /\
     init_linear metric (Some "test"%string) = Ok (metric, 1) /\
     init_linear metric None = Ok (metric, linear_default metric) /\
     linear_default metric = if string_dec metric "r2" then 1 else 0).
Proof.
  destruct (init_metric_spec linear_metrics linear_default metric target) as [A B].
  split; [exact A|]. intro H. destruct (B H) as (B1 & B2 & B3).
  split; [exact B1|]. split; [exact B2|]. split; [exact B3|]. now apply linear_defaults.
Qed.

Lemma glm_arguments metric target :
  (init_glm metric target = Raise ValueError <->
     ~ In metric ["log"; "BIC"; "AIC"; "AICc"; "acc"]%string \/
     exists t, target = Some t /\ t <> "train"%string /\ t <> "test"%string) /\
  (In metric ["log"; "BIC"; "AIC"; "AICc"; "acc"]%string ->
     init_glm metric (Some "train"%string) = Ok (metric, 0) /\
     init_glm metric (Some "test"%string) = Ok (metric, 1) /\
     init_glm metric None = Ok (metric, glm_default metric) /\
     glm_default metric =
       if string_dec metric "log" then 1 else if string_dec metric "acc" then 1 else 0).
Proof.
  destruct (init_metric_spec glm_metrics glm_default metric target) as [A B].
  split; [exact A|]. intro H. destruct (B H) as (B1 & B2 & B3).
  split; [exact B1|]. split; [exact B2|]. split; [exact B3|]. now apply glm_defaults.
Qed.

(** ** The normal log-likelihood *)
Lemma ln_le_sub1 x : (0 < x -> ln x <= x - 1)%R.
Proof. intro H. pose proof (exp_ineq1_le (ln x)) as E. rewrite exp_ln in E by assumption. lra. Qed.

Lemma square_sum_eq (y p : list R) :
  fold_right Rplus 0%R (map (fun r => r * r)%R (map2 Rminus y p)) = square_sum y p.
Proof.
  unfold square_sum. revert p. induction y as [|a y IH]; intros [|b p]; try reflexivity.
  cbn [map2 map fold_right combine fst snd]. rewrite IH. reflexivity.
Qed.

Lemma normal_profile (y p : list R) s : List.length y = List.length p -> y <> [] -> (0 < s)%R ->
  (0 < mean_square y p)%R ->
  (gauss y p s <= ll_normal (N := Rnum) y p)%R /\ gauss y p (mean_square y p) = ll_normal (N := Rnum) y p.
Proof.
  intros H Hy Hs Hm.
  assert (Hn : (0 < INR (List.length y))%R).
  { apply lt_0_INR. destruct y; [now destruct Hy|cbn; lia]. }
  assert (El : ll_normal (N := Rnum) y p = (- INR (List.length y) / 2 * (1 + ln (mean_square y p)))%R).
  { unfold ll_normal. cbn [nmul ndiv nofZ nadd nln Rnum carrier]. rewrite opp_IZR, <- INR_IZR_INZ.
    f_equal. f_equal. f_equal. unfold mean_square, nmean. rewrite nofnat_R. rewrite map_length.
    rewrite length_map2 by assumption. exact (f_equal (fun t => t / INR (List.length y))%R (square_sum_eq y p)). }
  assert (Hg : forall t, (0 < t)%R -> gauss y p t
             = (- INR (List.length y) / 2 * (ln t + mean_square y p / t))%R).
  { intros t Ht. unfold gauss, mean_square. field. lra. }
  rewrite El. split.
  - rewrite Hg by assumption.
    assert (L : (ln (mean_square y p) - ln s <= mean_square y p / s - 1)%R).
    { assert (ln (mean_square y p / s) = ln (mean_square y p) - ln s)%R as <-.
      { unfold Rdiv. rewrite ln_mult, ln_Rinv; try assumption; [ring|]. now apply Rinv_0_lt_compat. }
      apply ln_le_sub1. now apply Rdiv_lt_0_compat. }
    assert (G : (1 + ln (mean_square y p) <= ln s + mean_square y p / s)%R) by lra.
    apply (Rmult_le_compat_l (INR (List.length y) / 2)) in G; lra.
  - rewrite Hg by assumption. f_equal. replace (mean_square y p / mean_square y p)%R with 1%R by (field; lra). lra.
Qed.

Lemma normal_order (y p q : list R) : List.length y = List.length p -> List.length y = List.length q -> y <> [] ->
  (0 < mean_square y p)%R -> (mean_square y p < mean_square y q)%R ->
  (ll_normal (N := Rnum) y q < ll_normal (N := Rnum) y p)%R.
Proof.
  intros H1 H2 Hy Hp Hq. assert (Hs : (0 < mean_square y q)%R) by lra.
  destruct (normal_profile y p (mean_square y p) H1 Hy Hp Hp) as [_ <-].
  destruct (normal_profile y q (mean_square y q) H2 Hy Hs Hs) as [_ <-].
  assert (Hn : (0 < INR (List.length y))%R).
  { apply lt_0_INR. destruct y; [now destruct Hy|cbn; lia]. }
  assert (forall l t, (0 < t)%R -> mean_square y l = t -> gauss y l t = (- INR (List.length y) / 2 * (ln t + 1))%R).
  { intros l t Ht E. unfold gauss. replace (square_sum y l) with (INR (List.length y) * t)%R.
    - field. lra.
    - rewrite <- E. unfold mean_square. field. lra. }
  rewrite !H by auto.
  pose proof (ln_increasing _ _ Hp Hq) as L.
  assert (0 < INR (List.length y) / 2)%R by lra. nra.
Qed.

Lemma poisson_all_zero exp64 ln64 (y p : list (Fnum exp64 ln64)) :
  Forall (fun v => nonzero64 v = false) p ->
  (Forall (fun v => nonzero64 v = false) y -> ll_poisson (N := Fnum exp64 ln64) y p = fzero) /\
  (Exists (fun v => nonzero64 v = true) y -> ll_poisson (N := Fnum exp64 ln64) y p = fninf).
Proof.
  intro Hp. unfold ll_poisson.
  assert (A : forall l : list (Fnum exp64 ln64), Forall (fun v => nonzero64 v = false) l -> nany l = false).
  { intros l F. unfold nany. induction F as [|a l Ha F IH]; [reflexivity|]. cbn [existsb].
    rewrite neqb_zero_F, Ha. exact IH. }
  rewrite (A p Hp). cbn [negb]. split; intro H.
  - now rewrite (A y H).
  - assert (E : nany y = true).
    { unfold nany. apply existsb_exists. apply Exists_exists in H as (v & Hv & E). exists v. split; [exact Hv|].
      now rewrite neqb_zero_F. }
    now rewrite E.
Qed.
