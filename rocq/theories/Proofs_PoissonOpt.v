(** Proofs about the Poisson regressor: optimality of intercepts, of the null model
    and of fixed points of coordinate descent. *)
From Coq Require Import ZArith List Bool Arith Lia Reals Lra.
From Verif Require Import Prelude Num Model_Rescale Model_Refit Spec_Rescale Proofs_Rescale
  Model_Poisson Spec_Poisson Deriv Proofs_Poisson.
Import ListNotations.
Local Open Scope R_scope.

Lemma exp_tangent e e0 : exp e0 + exp e0 * (e - e0) <= exp e.
Proof.
  pose proof (exp_ineq1_le (e - e0)) as H. replace e with (e0 + (e - e0)) at 2 by lra. rewrite exp_plus.
  pose proof (exp_pos e0). nra.
Qed.

Lemma Sum_swap n p (f : nat -> nat -> R) :
  Sum n (fun i => Sum p (fun j => f i j)) = Sum p (fun j => Sum n (fun i => f i j)).
Proof.
  induction n.
  - rewrite Sum_0. symmetry. apply Sum_zero. intros. apply Sum_0.
  - rewrite Sum_S, IHn. rewrite <- Sum_plus. apply Sum_ext. intros j _. now rewrite Sum_S.
Qed.

Section Convex.
  Variables (n p : nat) (X : list (list R)) (y sw : list R) (lam mix : R).
  Hypothesis Hn : (0 < n)%nat.
  Hypothesis Hsw : forall i, (i < n)%nat -> 0 <= entry sw i.
  Hypothesis Hlam : 0 <= lam.
  Hypothesis Hmix : 0 <= mix <= 1.

  (** Minus the derivative of the loss in coefficient [j], and in the intercept. *)
  Definition score (c : list R) (b : R) (j : nat) : R :=
    / INR n * Sum n (fun i => entry sw i * (entry y i - exp (eta p X c b i)) * mat X i j).
  Definition score0 (c : list R) (b : R) : R :=
    / INR n * Sum n (fun i => entry sw i * (entry y i - exp (eta p X c b i))).

  Lemma gap c b c0 b0 :
    / INR n * Sum n (fun i => entry sw i * (exp (eta p X c0 b0 i) - entry y i * eta p X c0 b0 i))
    - (b - b0) * score0 c0 b0 - Sum p (fun j => (entry c j - entry c0 j) * score c0 b0 j)
    <= / INR n * Sum n (fun i => entry sw i * (exp (eta p X c b i) - entry y i * eta p X c b i)).
  Proof.
    assert (HI : 0 < / INR n) by (apply Rinv_0_lt_compat, lt_0_INR; lia).
    assert (E : Sum p (fun j => (entry c j - entry c0 j) * score c0 b0 j)
      = / INR n * Sum n (fun i => entry sw i * (entry y i - exp (eta p X c0 b0 i)) *
                          Sum p (fun j => mat X i j * (entry c j - entry c0 j)))).
    { rewrite (Sum_ext n _ (fun i => Sum p (fun j => entry sw i * (entry y i - exp (eta p X c0 b0 i)) * (mat X i j * (entry c j - entry c0 j)))))
        by (intros; now rewrite Sum_scal).
      rewrite Sum_swap, <- Sum_scal. apply Sum_ext. intros j _. unfold score.
      rewrite (Rmult_comm (entry c j - entry c0 j)), Rmult_assoc. f_equal. rewrite <- Sum_scal_r.
      apply Sum_ext. intros. ring. }
    rewrite E. clear E. unfold score0.
    replace ((b - b0) * (/ INR n * Sum n (fun i => entry sw i * (entry y i - exp (eta p X c0 b0 i)))))
      with (/ INR n * Sum n (fun i => entry sw i * (entry y i - exp (eta p X c0 b0 i)) * (b - b0)))
      by (rewrite Sum_scal_r; ring).
    rewrite <- !Rmult_minus_distr_l. apply Rmult_le_compat_l; [lra|]. rewrite <- !Sum_minus.
    apply Sum_le. intros i Hi.
    assert (Ee : eta p X c b i - eta p X c0 b0 i = (b - b0) + Sum p (fun j => mat X i j * (entry c j - entry c0 j))).
    { unfold eta. rewrite (Sum_ext p (fun j => mat X i j * (entry c j - entry c0 j)) (fun j => mat X i j * entry c j - mat X i j * entry c0 j))
        by (intros; ring). rewrite Sum_minus. ring. }
    set (s := Sum p _) in *. pose proof (exp_tangent (eta p X c b i) (eta p X c0 b0 i)) as T.
    set (e := eta p X c b i) in *. set (e0 := eta p X c0 b0 i) in *. specialize (Hsw i Hi).
    replace (entry sw i * (exp e0 - entry y i * e0) - entry sw i * (entry y i - exp e0) * (b - b0) - entry sw i * (entry y i - exp e0) * s)
      with (entry sw i * ((exp e0 + exp e0 * (e - e0)) - entry y i * e)).
    - apply Rmult_le_compat_l; [assumption|lra].
    - replace s with (e - e0 - (b - b0)) by lra. ring.
  Qed.

  (** Optimality conditions of one coefficient. *)
  Definition stationary (g v : R) : Prop :=
    (0 < v -> g = lam * (1 - mix) * v + lam * mix) /\
    (v < 0 -> g = lam * (1 - mix) * v - lam * mix) /\
    (v = 0 -> Rabs g <= lam * mix).

  Lemma stationary_min g v u : stationary g v ->
    0 <= - ((u - v) * g) + (lam * mix * (Rabs u - Rabs v) + lam * (1 - mix) / 2 * (u * u - v * v)).
  Proof.
    intros (Hp & Hm & H0). assert (Ht : 0 <= lam * mix) by (apply Rmult_le_pos; lra).
    assert (Hl : 0 <= lam * (1 - mix)) by (apply Rmult_le_pos; lra).
    set (t := lam * mix) in *. set (l2 := lam * (1 - mix)) in *.
    pose proof (Rle_abs u) as A. pose proof (Rle_abs (- u)) as B. rewrite Rabs_Ropp in B.
    assert (Q : 0 <= l2 * ((u - v) * (u - v))) by (apply Rmult_le_pos; [assumption|apply Rle_0_sqr]).
    destruct (Rtotal_order v 0) as [H|[H|H]].
    - rewrite (Hm H). rewrite (Rabs_left v) by lra. nra.
    - specialize (H0 H). subst v. rewrite Rabs_R0.
      assert (u * g <= t * Rabs u).
      { eapply Rle_trans; [apply Rle_abs|]. rewrite Rabs_mult, Rmult_comm. apply Rmult_le_compat_r; [apply Rabs_pos|assumption]. }
      nra.
    - rewrite (Hp H). rewrite (Rabs_right v) by lra. nra.
  Qed.

  Lemma stationary_optimal c b c0 b0 :
    (forall j, (j < p)%nat -> stationary (score c0 b0 j) (entry c0 j)) ->
    b = b0 \/ score0 c0 b0 = 0 ->
    objective n p X y sw lam mix c0 b0 <= objective n p X y sw lam mix c b.
  Proof.
    intros Hs Hb. unfold objective. pose proof (gap c b c0 b0) as G.
    assert (Z : (b - b0) * score0 c0 b0 = 0) by (destruct Hb as [->| ->]; ring). rewrite Z in G.
    assert (P : 0 <= Sum p (fun j => - ((entry c j - entry c0 j) * score c0 b0 j)
        + (lam * mix * (Rabs (entry c j) - Rabs (entry c0 j)) + lam * (1 - mix) / 2 * (entry c j * entry c j - entry c0 j * entry c0 j)))).
    { apply Sum_nonneg. intros j Hj. apply stationary_min. now apply Hs. }
    rewrite !Sum_plus in P. rewrite !Sum_scal in P. rewrite !Sum_minus in P.
    rewrite (Sum_ext p (fun j => - _) (fun j => (-1) * ((entry c j - entry c0 j) * score c0 b0 j))) in P by (intros; ring).
    rewrite Sum_scal in P. unfold penalty. lra.
  Qed.
End Convex.

(** ** Intercepts *)
Lemma linear_intercept_value n p X (y coef : list R) : matrix n p X -> (0 < n)%nat -> length y = n -> length coef = p ->
  linear_intercept (N := Rnum) true p X y coef = average n y - Sum p (fun j => average n (map (fun r => entry r j) X) * entry coef j).
Proof.
  intros HX Hn Hy Hc. unfold linear_intercept. rn. rewrite (mean_n n y Hy). unfold average at 1. f_equal.
  assert (L : length (map (nmean (N := Rnum)) (columns (N := Rnum) p X)) = p)
    by (unfold columns; now rewrite !map_length, seq_length).
  refine (eq_trans (dot_n p _ _ L Hc) _). apply Sum_ext. intros j Hj. f_equal. unfold columns. rewrite map_map.
  unfold entry at 1. rr. rewrite (nth_indep _ 0 (nmean (N := Rnum) (column (N := Rnum) X 0))) by (rewrite map_length, seq_length; lia).
  rewrite (map_nth (fun k => nmean (N := Rnum) (column (N := Rnum) X k))), seq_nth by assumption. cbn [plus].
  exact (mean_n n (column (N := Rnum) X j) (length_column n p X HX j)).
Qed.

Lemma entry_col X j i : entry (map (fun r => entry r j) X) i = mat X i j.
Proof.
  unfold mat. assert (E : entry [] j = 0) by (destruct j; reflexivity).
  unfold entry at 1. rewrite <- E at 1. apply (map_nth (fun r => entry r j)).
Qed.

Lemma linear_residual n p X (y coef : list R) : matrix n p X -> (0 < n)%nat -> length y = n -> length coef = p ->
  Sum n (fun i => entry y i - eta p X coef (linear_intercept (N := Rnum) true p X y coef) i) = 0.
Proof.
  intros HX Hn Hy Hc. rewrite (linear_intercept_value n p X y coef HX Hn Hy Hc).
  assert (HN : INR n <> 0) by (apply not_0_INR; lia).
  unfold eta. rewrite Sum_minus, Sum_plus, Sum_const, (Sum_swap n p (fun i j => mat X i j * entry coef j)).
  rewrite (Sum_ext p (fun j => average n _ * entry coef j) (fun j => / INR n * Sum n (fun i => mat X i j * entry coef j))).
  - rewrite Sum_scal. unfold average. change (fun i => entry y i) with (entry y). field. assumption.
  - intros j _. unfold average. rewrite Sum_scal_r. rewrite (Sum_ext n (fun i => entry (map _ X) i) (fun i => mat X i j)) by (intros; apply entry_col).
    field. assumption.
Qed.

Lemma linear_best n p X (y coef : list R) b : matrix n p X -> (0 < n)%nat -> length y = n -> length coef = p ->
  let b0 := linear_intercept (N := Rnum) true p X y coef in
  Sum n (fun i => Rsqr (entry y i - eta p X coef b0 i)) <= Sum n (fun i => Rsqr (entry y i - eta p X coef b i)).
Proof.
  intros HX Hn Hy Hc b0. pose proof (linear_residual n p X y coef HX Hn Hy Hc) as Z. fold b0 in Z.
  assert (E : forall i, Rsqr (entry y i - eta p X coef b i)
     = Rsqr (entry y i - eta p X coef b0 i) + ((2 * (b0 - b)) * (entry y i - eta p X coef b0 i) + (b0 - b) * (b0 - b))).
  { intro i. unfold eta, Rsqr. ring. }
  rewrite (Sum_ext n (fun i => Rsqr (entry y i - eta p X coef b i)) _ (fun i _ => E i)).
  rewrite !Sum_plus, Sum_scal, Z, Sum_const. pose proof (pos_INR n). pose proof (Rle_0_sqr (b0 - b)) as S. unfold Rsqr in S.
  assert (0 <= INR n * ((b0 - b) * (b0 - b))) by (now apply Rmult_le_pos). lra.
Qed.

Lemma nany_pos n (y : list R) : length y = n -> 0 < Sum n (fun i => entry y i) -> nany (N := Rnum) y = true.
Proof.
  intros Hy H. destruct (nany (N := Rnum) y) eqn:E; [reflexivity|exfalso].
  assert (Z : Sum n (fun i => entry y i) = 0).
  { apply Sum_zero. intros i Hi. assert (I : In (entry y i) y) by (apply nth_In; lia).
    unfold nany in E. assert (F : forall v : R, In v y -> nnonzero (N := Rnum) v = false).
    { intros v Hv. destruct (nnonzero (N := Rnum) v) eqn:Ev; [|reflexivity].
      assert (existsb (nnonzero (N := Rnum)) y = true) by (apply existsb_exists; exists v; auto). congruence. }
    specialize (F _ I). unfold nnonzero, nzero in F. rn. cbn in F. unfold Reqb in F.
    destruct (Req_EM_T (entry y i) 0); [assumption|discriminate]. }
  lra.
Qed.

Lemma poisson_intercept_total n p X (y coef : list R) : matrix n p X -> (0 < n)%nat -> length y = n -> length coef = p ->
  0 < Sum n (fun i => entry y i) ->
  Sum n (fun i => exp (eta p X coef (uoi_poisson_intercept (N := Rnum) true X y coef) i)) = Sum n (fun i => entry y i).
Proof.
  intros HX Hn Hy Hc Hp. unfold uoi_poisson_intercept. rn. rewrite (nany_pos n y Hy Hp).
  assert (HN : 0 < INR n) by (apply lt_0_INR; lia).
  assert (Lm : length (map exp (matvec (N := Rnum) X coef)) = n) by (rewrite map_length; apply (length_matvec n p X HX)).
  assert (Em : nmean (N := Rnum) (map exp (matvec (N := Rnum) X coef)) = Sum n (fun i => exp (eta p X coef 0 i)) / INR n).
  { refine (eq_trans (mean_n n _ Lm) _). f_equal. apply Sum_ext. intros i Hi.
    refine (eq_trans (entry_mapn exp n _ i (length_matvec n p X HX coef) Hi) _). f_equal.
    rewrite (entry_matvec n p X HX) by assumption. unfold eta. lra. }
  change (nexp (n := Rnum)) with exp. rr. rewrite Em, (mean_n n y Hy).
  set (T := Sum n (fun i => entry y i)) in *. set (M := Sum n (fun i => exp (eta p X coef 0 i))) in *.
  assert (HM : 0 < M).
  { unfold M. destruct n as [|m]; [lia|]. rewrite Sum_S. pose proof (exp_pos (eta p X coef 0 m)).
    assert (0 <= Sum m (fun i => exp (eta p X coef 0 i))) by (apply Sum_nonneg; intros; left; apply exp_pos). lra. }
  rewrite (Sum_ext n _ (fun i => T / M * exp (eta p X coef 0 i))).
  - rewrite Sum_scal. fold M. field. lra.
  - intros i _. replace (T / INR n / (M / INR n)) with (T / M) by (field; lra).
    unfold eta. rewrite exp_plus, exp_ln.
    + rewrite exp_plus, exp_0. ring.
    + apply Rdiv_lt_0_compat; assumption.
Qed.

Lemma poisson_intercept_best n p X (y coef : list R) b : matrix n p X -> (0 < n)%nat -> length y = n -> length coef = p ->
  0 < Sum n (fun i => entry y i) ->
  let b0 := uoi_poisson_intercept (N := Rnum) true X y coef in
  Sum n (fun i => exp (eta p X coef b0 i) - entry y i * eta p X coef b0 i)
  <= Sum n (fun i => exp (eta p X coef b i) - entry y i * eta p X coef b i).
Proof.
  intros HX Hn Hy Hc Hp b0. pose proof (poisson_intercept_total n p X y coef HX Hn Hy Hc Hp) as T. fold b0 in T.
  assert (D : 0 <= Sum n (fun i => exp (eta p X coef b i) - exp (eta p X coef b0 i) - exp (eta p X coef b0 i) * (b - b0))).
  { apply Sum_nonneg. intros i _. pose proof (exp_tangent (eta p X coef b i) (eta p X coef b0 i)).
    replace (b - b0) with (eta p X coef b i - eta p X coef b0 i) by (unfold eta; ring). lra. }
  rewrite !Sum_minus, Sum_scal_r, T in D. rewrite !Sum_minus.
  replace (Sum n (fun i => entry y i * eta p X coef b i))
    with (Sum n (fun i => entry y i * eta p X coef b0 i) + Sum n (fun i => entry y i) * (b - b0)).
  - lra.
  - rewrite <- Sum_scal_r, <- Sum_plus. apply Sum_ext. intros i _. unfold eta. ring.
Qed.

(** ** Fixed points of coordinate descent *)
Lemma entry_working n p X (y coef : list R) (b : R) i : matrix n p X -> length y = n -> length coef = p -> (i < n)%nat ->
  entry (fst (adjusted_response (N := Rnum) X y coef b)) i = exp (eta p X coef b i) /\
  entry (snd (adjusted_response (N := Rnum) X y coef b)) i
  = eta p X coef b i + (entry y i - exp (eta p X coef b i)) / exp (eta p X coef b i).
Proof.
  intros HX Hy Hc Hi. unfold adjusted_response. cbn [fst snd].
  pose proof (length_eta n p X HX b coef) as Le. pose proof (entry_eta n p X HX b coef i Hc Hi) as Ee.
  set (e := map (nadd (n := Rnum) b) (matvec (N := Rnum) X coef)) in *.
  assert (E1 : entry (map exp e) i = exp (eta p X coef b i)).
  { refine (eq_trans (entry_mapn exp n e i Le Hi) _). now rewrite Ee. }
  split; [exact E1|].
  assert (Lw : length (map exp e) = n) by now rewrite map_length.
  assert (Ld : length (map2 Rdiv y (map exp e)) = n) by now apply length_map2n.
  assert (Ls : length (map2 Rplus e (map2 Rdiv y (map exp e))) = n) by now apply length_map2n.
  refine (eq_trans (entry_mapn (fun v => v - 1) n (map2 Rplus e (map2 Rdiv y (map exp e))) i Ls Hi) _).
  rewrite (entry_map2n Rplus n e (map2 Rdiv y (map exp e)) i Le Ld Hi).
  rewrite (entry_map2n Rdiv n y (map exp e) i Hy Lw Hi), E1, Ee.
  field. apply Rgt_not_eq, exp_pos.
Qed.
Lemma length_working n p X (y coef : list R) (b : R) : matrix n p X -> length y = n ->
  length (fst (adjusted_response (N := Rnum) X y coef b)) = n /\
  length (snd (adjusted_response (N := Rnum) X y coef b)) = n.
Proof.
  intros HX Hy. unfold adjusted_response. cbn [fst snd]. pose proof (length_eta n p X HX b coef) as Le.
  rewrite !map_length. split; [rr; exact (length_matvec n p X HX coef)|].
  apply length_map2n; [exact Le|]. apply length_map2n; [exact Hy|]. now rewrite map_length.
Qed.

Lemma upd_inj_same (c : list R) j v : (j < length c)%nat -> v = entry c j -> upd c j v = c.
Proof. intros H ->. now apply upd_same. Qed.

Section Fixed.
  Variables (n p : nat) (X : list (list R)) (y sw : list R) (c : config Rnum) (coef : list R) (b : R).
  Hypothesis HX : matrix n p X.
  Hypothesis Hn : (0 < n)%nat.
  Hypothesis Hy : length y = n.
  Hypothesis Hsw : length sw = n.
  Hypothesis Hsw0 : forall i, (i < n)%nat -> 0 <= entry sw i.
  Hypothesis Hlam : 0 <= alpha c.
  Hypothesis Hmix : 0 <= l1_ratio c <= 1.
  Hypothesis Hc : length coef = p.
  Notation lam := (alpha c : R).
  Notation mix := (l1_ratio c : R).

  Definition wk : list R := map2 Rmult (fst (adjusted_response (N := Rnum) X y coef b)) sw.
  Definition zk : list R := snd (adjusted_response (N := Rnum) X y coef b).
  Lemma length_wk : length wk = n.
  Proof. apply length_map2n; [apply (length_working n p X y coef b HX Hy)|exact Hsw]. Qed.
  Lemma length_zk : length zk = n.
  Proof. apply (length_working n p X y coef b HX Hy). Qed.
  Lemma entry_wk i : (i < n)%nat -> entry wk i = exp (eta p X coef b i) * entry sw i.
  Proof.
    intro Hi. unfold wk. rewrite (entry_map2n Rmult n _ _ i (proj1 (length_working n p X y coef b HX Hy)) Hsw Hi).
    f_equal. apply (entry_working n p X y coef b i HX Hy Hc Hi).
  Qed.
  Lemma wk_res i : (i < n)%nat -> entry wk i * (entry zk i - eta p X coef b i) = entry sw i * (entry y i - exp (eta p X coef b i)).
  Proof.
    intro Hi. rewrite entry_wk by assumption. unfold zk. rewrite (proj2 (entry_working n p X y coef b i HX Hy Hc Hi)).
    field. apply Rgt_not_eq, exp_pos.
  Qed.

  Lemma updates_others (c' : config Rnum) (w z : list R) b' active (cf : list R) j : length cf = p ->
    (forall k, In k active -> (k < p)%nat) -> ~ In j active -> length w = n -> length z = n ->
    entry (fold_left (cd_update (N := Rnum) c' X w z b') active cf) j = entry cf j.
  Proof.
    revert cf. induction active as [|k active IH]; intros cf Lc Hk Hj Lw Lz; [reflexivity|].
    cbn [fold_left]. rewrite IH.
    - rewrite (update_value n p X w z c' HX Hn Lw Lz cf b' k Lc) by (apply Hk; now left).
      rewrite entry_upd by (rewrite Lc; apply Hk; now left). destruct (Nat.eqb_spec j k); [subst; exfalso; apply Hj; now left|reflexivity].
    - rewrite update_length. exact Lc.
    - intros; apply Hk; now right.
    - intro; apply Hj; now right.
    - exact Lw.
    - exact Lz.
  Qed.

  Lemma fixed_each (w z : list R) b' active (cf : list R) : length cf = p ->
    (forall k, In k active -> (k < p)%nat) -> NoDup active -> length w = n -> length z = n ->
    fold_left (cd_update (N := Rnum) c X w z b') active cf = cf ->
    forall k, In k active -> soft (num n p X w z cf b' k) (mix * lam) / (den n X w k + lam * (1 - mix)) = entry cf k.
  Proof.
    intros Lc Hk Nd Lw Lz. induction active as [|k active IH]; intros Hf j Hj; [destruct Hj|].
    cbn [fold_left] in Hf. apply NoDup_cons_iff in Nd. destruct Nd as [Hni Nd'].
    set (v := soft (num n p X w z cf b' k) (mix * lam) / (den n X w k + lam * (1 - mix))).
    assert (Ev : v = entry cf k).
    { symmetry. transitivity (entry (fold_left (cd_update (N := Rnum) c X w z b') active (cd_update (N := Rnum) c X w z b' cf k)) k); [now rewrite Hf|].
      rewrite updates_others; auto.
      - rewrite (update_value n p X w z c HX Hn Lw Lz cf b' k) by (auto; apply Hk; now left).
        rewrite entry_upd by (rewrite Lc; apply Hk; now left). rewrite Nat.eqb_refl. reflexivity.
      - rewrite update_length. exact Lc.
      - intros; apply Hk; now right. }
    destruct Hj as [<-|Hj]; [exact Ev|].
    apply IH; auto.
    - intros; apply Hk; now right.
    - rewrite <- Hf at 2. f_equal.
      rewrite (update_value n p X w z c HX Hn Lw Lz cf b' k) by (auto; apply Hk; now left).
      symmetry. apply upd_inj_same; [rewrite Lc; apply Hk; now left|exact Ev].
  Qed.

  Lemma num_score j : (j < p)%nat ->
    num n p X wk zk coef b j = score n p X y sw coef b j + den n X wk j * entry coef j.
  Proof.
    intro Hj. unfold num, score, den. unfold Rdiv.
    rewrite (Sum_ext n (fun i => entry wk i * (mat X i j * partial p X zk coef b j i))
       (fun i => entry sw i * (entry y i - exp (eta p X coef b i)) * mat X i j + entry wk i * (mat X i j * mat X i j) * entry coef j)).
    - rewrite Sum_plus, Sum_scal_r. ring.
    - intros i Hi. unfold partial. pose proof (eta_upd p X coef b j (entry coef j) i Hc Hj) as E. rewrite upd_same in E by lia.
      rewrite <- wk_res by assumption. rewrite E. ring.
  Qed.

  Lemma fixed_stationary :
    (forall j, (j < p)%nat -> 0 < den n X wk j + lam * (1 - mix)) ->
    cd_iteration (N := Rnum) c X y sw (seq 0 p) (coef, b) = (coef, b) ->
    forall j, (j < p)%nat -> stationary lam mix (score n p X y sw coef b j) (entry coef j).
  Proof.
    intros HD Hf j Hj. unfold cd_iteration in Hf. cbn [fst snd] in Hf. unfold cd_sweep in Hf.
    injection Hf as Hf Hb. rewrite Hb in Hf.
    pose proof (fixed_each wk zk b (seq 0 p) coef Hc) as F.
    assert (Hs : soft (num n p X wk zk coef b j) (mix * lam) / (den n X wk j + lam * (1 - mix)) = entry coef j).
    { apply F; auto using length_wk, length_zk, seq_NoDup.
      - intros k Hk. apply in_seq in Hk. lia.
      - apply in_seq. lia. }
    specialize (HD j Hj). rewrite num_score in Hs by assumption.
    set (g := score n p X y sw coef b j) in *. set (v := entry coef j) in *. set (d := den n X wk j) in *.
    assert (Ht : 0 <= mix * lam) by (apply Rmult_le_pos; lra).
    assert (Hs' : soft (g + d * v) (mix * lam) = v * (d + lam * (1 - mix))) by (rewrite <- Hs at 2; field; lra).
    destruct (soft_cases (g + d * v) (mix * lam) Ht) as [[H E]|[[H E]|[H E]]]; rewrite E in Hs'.
    - assert (0 < v) by nra. repeat split; intros; try lra.
    - assert (v < 0) by nra. repeat split; intros; try lra.
    - assert (v = 0) by nra. repeat split; intros; try lra. apply Rabs_le. rewrite H0 in H. lra.
  Qed.

  Lemma fixed_intercept : 0 < Sum n (fun i => entry sw i) -> fit_intercept c = true ->
    cd_iteration (N := Rnum) c X y sw (seq 0 p) (coef, b) = (coef, b) -> score0 n p X y sw coef b = 0.
  Proof.
    intros Hpos Hfi Hf. unfold cd_iteration in Hf. cbn [fst snd] in Hf.
    assert (Hb : snd (cd_sweep (N := Rnum) c X wk zk (seq 0 p) coef) = b) by exact (f_equal snd Hf).
    rewrite (sweep_intercept n p X wk zk c HX length_wk length_zk coef Hc Hfi) in Hb.
    assert (HW : 0 < Sum n (fun i => entry wk i)).
    { assert (Nn : 0 <= Sum n (fun i => entry wk i)).
      { apply Sum_nonneg. intros i Hi. rewrite entry_wk by assumption. apply Rmult_le_pos; [left; apply exp_pos|auto]. }
      destruct Nn as [Nn|Nn]; [exact Nn|exfalso].
      assert (Z : forall m, (m <= n)%nat -> Sum m (fun i => entry wk i) = 0 -> Sum m (fun i => entry sw i) = 0).
      { induction m as [|m IH]; intros Hm Hz; [reflexivity|]. rewrite Sum_S in *.
        assert (0 <= Sum m (fun i => entry wk i)).
        { apply Sum_nonneg. intros i Hi. rewrite entry_wk by lia. apply Rmult_le_pos; [left; apply exp_pos|apply Hsw0; lia]. }
        assert (Hm' : 0 <= entry wk m) by (rewrite entry_wk by lia; apply Rmult_le_pos; [left; apply exp_pos|apply Hsw0; lia]).
        rewrite IH by (try lia; lra). assert (Em : entry wk m = 0) by lra. rewrite entry_wk in Em by lia.
        pose proof (exp_pos (eta p X coef b m)). apply Rmult_integral in Em. lra. }
      rewrite (Z n) in Hpos; [lra|lia|now symmetry]. }
    unfold score0. rewrite (Sum_ext n _ (fun i => entry wk i * (entry zk i - eta p X coef 0 i) - entry wk i * b)).
    - rewrite Sum_minus, Sum_scal_r.
      replace (Sum n (fun i => entry wk i * (entry zk i - eta p X coef 0 i))) with (b * Sum n (fun i => entry wk i)).
      + change (fun i => entry wk i) with (entry wk). ring.
      + rewrite <- Hb at 1. field. lra.
    - intros i Hi. rewrite <- wk_res by assumption. unfold eta. ring.
  Qed.
End Fixed.

(** A full sweep that changes nothing has found a global minimum. *)
Lemma fixed_optimal n p X (y sw : list R) (c : config Rnum) (coef : list R) (b : R) c' b' :
  matrix n p X -> (0 < n)%nat -> length y = n -> length sw = n -> (forall i, (i < n)%nat -> 0 < entry sw i) ->
  0 <= (alpha c : R) -> 0 <= (l1_ratio c : R) <= 1 -> length coef = p ->
  (alpha c * (1 - l1_ratio c) > 0 \/ forall j, (j < p)%nat -> exists i, (i < n)%nat /\ mat X i j <> 0) ->
  cd_iteration (N := Rnum) c X y sw (seq 0 p) (coef, b) = (coef, b) ->
  (fit_intercept c = false -> b' = b) ->
  objective n p X y sw (alpha c) (l1_ratio c) coef b <= objective n p X y sw (alpha c) (l1_ratio c) c' b'.
Proof.
  intros HX Hn Hy Ls Hsw Hl Hm Hc HD Hf Hb.
  assert (Hsw0 : forall i, (i < n)%nat -> 0 <= entry sw i) by (intros i Hi; left; now apply Hsw).
  assert (HN : 0 < / INR n) by (apply Rinv_0_lt_compat, lt_0_INR; lia).
  apply stationary_optimal; try assumption.
  - apply (fixed_stationary n p X y sw c coef b HX Hn Hy Ls Hsw0 Hl Hm Hc); [|exact Hf].
    intros j Hj.
    assert (Hterm : forall i, (i < n)%nat -> 0 <= entry (wk X y sw coef b) i * (mat X i j * mat X i j)).
    { intros i Hi. rewrite (entry_wk n p X y sw coef b HX Hy Ls Hc i Hi).
      apply Rmult_le_pos; [apply Rmult_le_pos; [left; apply exp_pos|auto]|apply Rle_0_sqr]. }
    assert (Hd : 0 <= den n X (wk X y sw coef b) j).
    { unfold den, Rdiv. apply Rmult_le_pos; [apply Sum_nonneg; exact Hterm|lra]. }
    assert (Hr : 0 <= alpha c * (1 - l1_ratio c)) by (apply Rmult_le_pos; lra).
    destruct HD as [HD|HD]; [lra|]. destruct (HD j Hj) as (i & Hi & Hx).
    assert (0 < den n X (wk X y sw coef b) j); [|lra].
    unfold den, Rdiv. apply Rmult_lt_0_compat; [|exact HN].
    assert (Hpos : 0 < entry (wk X y sw coef b) i * (mat X i j * mat X i j)).
    { rewrite (entry_wk n p X y sw coef b HX Hy Ls Hc i Hi). apply Rmult_lt_0_compat.
      - apply Rmult_lt_0_compat; [apply exp_pos|now apply Hsw].
      - pose proof (Rsqr_pos_lt _ Hx) as Q. exact Q. }
    assert (G : forall f m, (forall k, (k < m)%nat -> 0 <= f k) -> (i < m)%nat -> 0 < f i -> 0 < Sum m f).
    { clear. intros f m. induction m as [|m IH]; intros H0 Hi Hp; [lia|]. rewrite Sum_S.
      assert (0 <= Sum m f) by (apply Sum_nonneg; intros; apply H0; lia).
      assert (0 <= f m) by (apply H0; lia).
      destruct (Nat.eq_dec i m) as [->|Hne]; [lra|]. assert (0 < Sum m f) by (apply IH; auto; lia). lra. }
    exact (G _ n Hterm Hi Hpos).
  - destruct (fit_intercept c) eqn:F; [right|left; auto].
    apply (fixed_intercept n p X y sw c coef b HX Hn Hy Ls Hsw0 Hc); auto.
    destruct n as [|m]; [lia|]. rewrite Sum_S. assert (0 <= Sum m (fun i => entry sw i)) by (apply Sum_nonneg; intros; apply Hsw0; lia).
    specialize (Hsw m (Nat.lt_succ_diag_r m)). lra.
Qed.

(** ** The null model *)
Lemma entry_repeat (v : R) n i : (i < n)%nat -> entry (repeat v n) i = v.
Proof. unfold entry. revert i. induction n; intros [|i] H; cbn; try lia; auto. apply IHn. lia. Qed.
Lemma entry_map_sub n (y : list R) a i : length y = n -> (i < n)%nat ->
  entry (map (fun v => nsub (n := Rnum) v a) y) i = entry y i - a.
Proof. intros Hy Hi. exact (entry_mapn (fun v => v - a) n y i Hy Hi). Qed.

Lemma nmax2_R (a b : R) : nmax2 (N := Rnum) a b = Rmax a b.
Proof.
  unfold nmax2. rn. unfold Rltb, Reqb, Rmax. destruct (Rlt_dec a b), (Rle_dec a b); try lra.
  - destruct (Req_EM_T b b); [|congruence]. lra.
  - destruct (Req_EM_T b b); [reflexivity|congruence].
Qed.
Lemma fold_max_ge l : forall a : R, a <= fold_left (nmax2 (N := Rnum)) l a /\
  (forall x : R, In x l -> x <= fold_left (nmax2 (N := Rnum)) l a) /\
  (fold_left (nmax2 (N := Rnum)) l a = a \/ In (fold_left (nmax2 (N := Rnum)) l a) l).
Proof.
  induction l as [|b l IH]; intro a; cbn [fold_left].
  - split; [apply Rle_refl|]. split; [intros x []|now left].
  - assert (E : nmax2 (N := Rnum) a b = Rmax a b) by apply nmax2_R. rr. rewrite E.
    destruct (IH (Rmax a b)) as (H1 & H2 & H3). pose proof (Rmax_l a b). pose proof (Rmax_r a b). rr.
    split; [lra|]. split.
    + intros x [<-|Hx]; [lra|auto].
    + destruct H3 as [H3|H3]; [|right; now right]. rewrite H3. unfold Rmax. destruct (Rle_dec a b); [right; now left|now left].
Qed.
Lemma nmaxl_R (l : list R) : l <> [] -> (forall x, In x l -> x <= nmaxl (N := Rnum) l) /\ In (nmaxl (N := Rnum) l) l.
Proof.
  destruct l as [|a l]; [congruence|]. intros _. cbn [nmaxl]. destruct (fold_max_ge l a) as (H1 & H2 & H3). split.
  - intros x [<-|Hx]; auto.
  - destruct H3 as [H3|H3]; [left; now symmetry|now right].
Qed.

Section Grid.
  Variables (n p : nat) (X : list (list R)) (y : list R).
  Hypothesis HX : matrix n p X.
  Hypothesis Hn : (0 < n)%nat.
  Hypothesis Hp : (0 < p)%nat.
  Hypothesis Hy : length y = n.

  Definition cov (j : nat) : R := Sum n (fun i => mat X i j * (entry y i - average n y)).

  Lemma lambda_max_value (mix : R) : exists m : R,
    (forall j, (j < p)%nat -> Rabs (cov j) <= m) /\ (exists j, (j < p)%nat /\ Rabs (cov j) = m) /\
    poisson_lambda_max (N := Rnum) p X y mix = m / (INR n * mix).
  Proof.
    set (d := map (fun v => nsub (n := Rnum) v (nmean (N := Rnum) y)) y).
    set (l := map Rabs (tmatvec (N := Rnum) p X d)).
    assert (Ld : length d = n) by (unfold d; now rewrite map_length).
    assert (Lt : length (tmatvec (N := Rnum) p X d) = p) by apply length_tmatvec.
    assert (Ll : length l = p) by (unfold l; rewrite map_length; exact Lt).
    assert (El : forall j, (j < p)%nat -> entry l j = Rabs (cov j)).
    { intros j Hj. unfold l. refine (eq_trans (entry_mapn Rabs p _ j Lt Hj) _). f_equal.
      rewrite (entry_tmatvec n p X HX d j Ld Hj). unfold cov. apply Sum_ext. intros i Hi. f_equal.
      unfold d. rewrite (entry_map_sub n) by assumption. f_equal. exact (mean_n n y Hy). }
    assert (Hl : l <> []) by (intro E; rewrite E in Ll; cbn in Ll; lia).
    destruct (nmaxl_R l Hl) as [M1 M2]. exists (nmaxl (N := Rnum) l). split; [|split].
    - intros j Hj. rewrite <- El by assumption. apply M1. apply nth_In. lia.
    - destruct (In_nth l _ 0 M2) as (j & Hj & Ej). exists j. split; [lia|]. rewrite <- El by lia. exact Ej.
    - unfold poisson_lambda_max. fold d. unfold nofnat. rn. rr. destruct HX as [-> _]. rewrite <- INR_IZR_INZ. reflexivity.
  Qed.

  Lemma null_optimal (mix : R) c' b' : 0 < mix <= 1 -> 0 < average n y ->
    0 < poisson_lambda_max (N := Rnum) p X y mix ->
    forall lam : R, poisson_lambda_max (N := Rnum) p X y mix <= lam ->
    objective n p X y (repeat 1 n) lam mix (repeat 0 p) (ln (average n y))
    <= objective n p X y (repeat 1 n) lam mix c' b'.
  Proof.
    intros Hm Ha Hl0 lam Hl. destruct (lambda_max_value mix) as (m & M1 & _ & E). rewrite E in *.
    assert (HN : 0 < INR n) by (apply lt_0_INR; lia).
    assert (Ew : forall i, (i < n)%nat -> entry (repeat 1 n) i = 1).
    { intros i Hi. now apply entry_repeat. }
    assert (Ee : forall i, eta p X (repeat 0 p) (ln (average n y)) i = ln (average n y)).
    { intro i. unfold eta. rewrite Sum_zero; [lra|]. intros j _. rewrite entry_zeros. ring. }
    apply stationary_optimal; try assumption.
    - intros i Hi. rewrite Ew by assumption. lra.
    - lra.
    - lra.
    - intros j Hj. rewrite entry_zeros. repeat split; intros; try lra.
      assert (Es : score n p X y (repeat 1 n) (repeat 0 p) (ln (average n y)) j = cov j / INR n).
      { unfold score, cov. unfold Rdiv. rewrite Rmult_comm. f_equal. apply Sum_ext. intros i Hi.
        rewrite Ew, Ee, exp_ln by assumption. ring. }
      rewrite Es. unfold Rdiv. rewrite Rabs_mult, (Rabs_right (/ INR n)) by (apply Rle_ge; left; now apply Rinv_0_lt_compat).
      apply Rle_trans with (m / (INR n * mix) * mix).
      + replace (m / (INR n * mix) * mix) with (m * / INR n) by (field; lra).
        apply Rmult_le_compat_r; [left; now apply Rinv_0_lt_compat|auto].
      + apply Rmult_le_compat_r; lra.
    - right. unfold score0. rewrite (Sum_ext n _ (fun i => entry y i - average n y)).
      + rewrite Sum_minus, Sum_const. unfold average. change (fun i => entry y i) with (entry y). field. lra.
      + intros i Hi. rewrite Ew, Ee, exp_ln by assumption. ring.
  Qed.
End Grid.

(** ** The grid *)
Lemma ln10_pos : 0 < ln 10.
Proof. rewrite <- ln_1. apply ln_increasing; lra. Qed.

Lemma pow10_log10 x : 0 < x -> pow10 (N := Rnum) (log10 (N := Rnum) x) = x.
Proof.
  intro Hx. unfold pow10, log10. rn. pose proof ln10_pos. replace (ln x / ln 10 * ln 10) with (ln x) by (field; lra).
  now apply exp_ln.
Qed.

Lemma logspace_value l eps num i : 0 < l -> 0 < eps -> (i < num)%nat ->
  entry (logspace (N := Rnum) (log10 (N := Rnum) l) (log10 (N := Rnum) (eps * l)) num) i
  = l * Rpower eps (INR i / INR (num - 1)).
Proof.
  intros Hl He Hi. unfold logspace, linspace. rewrite map_map. unfold entry.
  set (f := fun k => pow10 (N := Rnum) _). rr. rewrite (nth_indep _ 0 (f 0%nat)) by (rewrite map_length, seq_length; lia).
  rewrite (map_nth f), seq_nth by assumption. cbn [plus]. unfold f.
  unfold Rpower. destruct (Nat.eqb_spec i (num - 1)) as [H1|H1]; destruct (Nat.ltb_spec 1 num) as [H2|H2]; cbn [andb].
  - rewrite pow10_log10 by (now apply Rmult_lt_0_compat). subst i.
    replace (INR (num - 1) / INR (num - 1)) with 1 by (field; apply not_0_INR; lia).
    rewrite Rmult_1_l, exp_ln by assumption. ring.
  - assert (num = 1%nat) by lia. subst num. assert (i = 0%nat) by lia. subst i. cbn [Nat.sub]. unfold nofnat. rn.
    change (INR 0) with 0. change (IZR (Z.of_nat 0)) with 0. replace (0 / 0 * ln eps) with 0 by (unfold Rdiv; ring). rewrite exp_0, Rmult_1_r.
    etransitivity; [|exact (pow10_log10 l Hl)]. apply (f_equal (pow10 (N := Rnum))).
    match goal with |- ?a = ?b => change (@eq R a b) end. ring.
  - unfold nofnat. rn. rewrite <- !INR_IZR_INZ.
    assert (HM : INR (num - 1) <> 0) by (apply not_0_INR; lia). pose proof ln10_pos.
    transitivity (exp (ln l) * exp (INR i / INR (num - 1) * ln eps)); [|now rewrite exp_ln].
    rewrite <- exp_plus. unfold pow10, log10. rn. apply (f_equal exp).
    rewrite ln_mult by assumption. field. split; [assumption|lra].
  - assert (num = 1%nat) by lia. lia.
Qed.

Lemma grid_length p X (y : list R) eps num (mix : R) : length (poisson_grid (N := Rnum) p X y eps num mix) = num.
Proof. unfold poisson_grid, logspace, linspace. now rewrite !map_length, seq_length. Qed.

Lemma grid_value p X (y : list R) (eps : R) num (mix : R) i :
  0 < poisson_lambda_max (N := Rnum) p X y mix -> 0 < eps -> (i < num)%nat ->
  entry (poisson_grid (N := Rnum) p X y eps num mix) i
  = poisson_lambda_max (N := Rnum) p X y mix * Rpower eps (INR i / INR (num - 1)).
Proof. intros Hl He Hi. unfold poisson_grid. now apply logspace_value. Qed.

Lemma grid_decreasing l eps num i j : 0 < l -> 0 < eps < 1 -> (i < j < num)%nat ->
  l * Rpower eps (INR j / INR (num - 1)) < l * Rpower eps (INR i / INR (num - 1)).
Proof.
  intros Hl He Hij. apply Rmult_lt_compat_l; [assumption|]. unfold Rpower. apply exp_increasing.
  assert (ln eps < 0) by (rewrite <- ln_1; apply ln_increasing; lra).
  assert (HM : 0 < / INR (num - 1)) by (apply Rinv_0_lt_compat, lt_0_INR; lia).
  assert (INR i < INR j) by (apply lt_INR; lia). unfold Rdiv.
  assert (INR i * / INR (num - 1) < INR j * / INR (num - 1)) by (apply Rmult_lt_compat_r; assumption). nra.
Qed.

Lemma pairs_nth {L A : Type} (g : A -> list L) num (alphas : list A) a i da dl :
  (forall x, In x alphas -> length (g x) = num) -> (a < length alphas)%nat -> (i < num)%nat ->
  nth_error (pairs alphas (map g alphas)) (a * num + i) = Some (RegPair (nth i (g (nth a alphas da)) dl) (nth a alphas da)).
Proof.
  revert a. induction alphas as [|x alphas IH]; intros a Hg Ha Hi; cbn in Ha; [lia|].
  unfold pairs. cbn [map combine flat_map fst snd]. pose proof (Hg x (or_introl eq_refl)) as Lx. destruct a as [|a].
  - rewrite nth_error_app1 by (rewrite map_length; cbn; lia). cbn [Nat.mul Nat.add nth].
    rewrite (map_nth_error _ i (g x) (d := nth i (g x) dl)); [reflexivity|]. apply nth_error_nth'. lia.
  - rewrite nth_error_app2 by (rewrite map_length; cbn; lia). rewrite map_length, Lx.
    replace (S a * num + i - num)%nat with (a * num + i)%nat by (cbn; lia). apply IH; auto with datatypes. lia.
Qed.
Lemma pairs_length {L A : Type} (g : A -> list L) num (alphas : list A) :
  (forall x, In x alphas -> length (g x) = num) -> length (pairs alphas (map g alphas)) = (length alphas * num)%nat.
Proof.
  induction alphas as [|x alphas IH]; intro Hg; [reflexivity|]. unfold pairs. cbn [map combine flat_map fst snd].
  rewrite app_length, map_length, (Hg x) by now left. cbn [length Nat.mul]. f_equal. apply IH. intros z Hz. apply Hg. now right.
Qed.

(** Below lambda_max the null model is not optimal. *)
Lemma null_not_optimal n p X (y : list R) (mix lam : R) : matrix n p X -> (0 < n)%nat -> (0 < p)%nat -> length y = n ->
  0 < mix <= 1 -> 0 < average n y -> 0 <= lam < poisson_lambda_max (N := Rnum) p X y mix ->
  exists c', length c' = p /\
    objective n p X y (repeat 1 n) lam mix c' (ln (average n y))
    < objective n p X y (repeat 1 n) lam mix (repeat 0 p) (ln (average n y)).
Proof.
  intros HX Hn Hp Hy Hm Ha [Hl0 Hl].
  destruct (lambda_max_value n p X y HX Hn Hp Hy mix) as (m & _ & (j & Hj & Ej) & E). rewrite E in Hl.
  assert (HN : 0 < INR n) by (apply lt_0_INR; lia).
  set (b := ln (average n y)) in *. set (w := repeat 0 p ++ [b]).
  assert (Lw : length w = S p) by (unfold w; rewrite app_length, repeat_length; cbn; lia).
  assert (Fw : firstn p w = repeat 0 p).
  { unfold w. rewrite firstn_app, firstn_all2 by (rewrite repeat_length; lia). rewrite repeat_length, Nat.sub_diag. cbn. apply app_nil_r. }
  assert (Iw : icpt p w = b).
  { unfold icpt. rewrite Lw, (proj2 (Nat.ltb_lt p (S p))) by lia. unfold w. apply last_last. }
  assert (Ew : entry w j = 0).
  { rewrite <- (entry_firstn p) by assumption. rewrite Fw. apply entry_zeros. }
  assert (Wt : weights n None = repeat 1 n) by reflexivity.
  set (l2 := lam * (1 - mix)).
  pose proof (poisson_gradient n p X y l2 None HX Hn Hy I w j (or_intror Lw) ltac:(lia)) as D.
  rewrite (grad_coef n p X y l2 None HX Hn Hy I w j (or_intror Lw) Hj) in D.
  rewrite Ew, Fw, Iw, Wt in D.
  assert (Er : forall i, (i < n)%nat -> entry (repeat 1 n) i = 1) by (intros; now apply entry_repeat).
  assert (Ee : forall i, eta p X (repeat 0 p) b i = b).
  { intro i. unfold eta. rewrite Sum_zero; [lra|]. intros k _. rewrite entry_zeros. ring. }
  set (G := / INR n * Sum n _ + l2 * 0) in D.
  assert (EG : G = - cov n X y j / INR n).
  { unfold G, cov. rewrite Rmult_0_r, Rplus_0_r. unfold Rdiv. rewrite Rmult_comm. f_equal.
    rewrite <- (Rmult_1_l (- Sum n _)). rewrite <- Ropp_mult_distr_r, Ropp_mult_distr_l, <- Sum_scal.
    apply Sum_ext. intros i Hi. rewrite Er, Ee by assumption. unfold b. rewrite exp_ln by assumption. ring. }
  set (F := fun t => fst (plg p X y l2 None (upd w j t))) in D.
  assert (EF : forall t, F t = poisson_loss n p X y (repeat 1 n) l2 (upd (repeat 0 p) j t) b).
  { intro t. unfold F. rewrite (loss_value n p X y l2 None HX Hn Hy I) by (right; rewrite length_upd; lia).
    rewrite (firstn_upd p), (icpt_upd n p y) by (auto; lia). now rewrite Fw, Iw, Wt. }
  assert (EO : forall t, objective n p X y (repeat 1 n) lam mix (upd (repeat 0 p) j t) b = F t + lam * mix * Rabs t).
  { intro t. rewrite EF. unfold objective, poisson_loss, penalty, l2.
    assert (Sa : Sum p (fun k => Rabs (entry (upd (repeat 0 p) j t) k)) = Rabs t).
    { rewrite (Sum_ext p _ (fun k => if Nat.eqb k j then Rabs t else 0)).
      - rewrite Sum_at by assumption. rewrite (Sum_zero p (fun k => 0)) by reflexivity. lra.
      - intros k Hk. rewrite entry_upd by (rewrite repeat_length; lia). destruct (Nat.eqb k j); [reflexivity|].
        rewrite entry_zeros. apply Rabs_R0. }
    rewrite Sa. field. lra. }
  set (k := m / INR n - lam * mix).
  assert (Hk : 0 < k).
  { unfold k. assert (lam * mix < m / (INR n * mix) * mix) by (apply Rmult_lt_compat_r; lra).
    replace (m / (INR n * mix) * mix) with (m / INR n) in H by (field; lra). lra. }
  destruct (D (k / 2) ltac:(lra)) as [d Hd].
  set (h := (if Rle_dec 0 (cov n X y j) then 1 else -1) * (d / 2)).
  pose proof (cond_pos d) as Hdp.
  assert (Hh : h <> 0 /\ Rabs h < d /\ Rabs h > 0 /\ G * h = - (m / INR n) * Rabs h).
  { rewrite EG, <- Ej. unfold h. destruct (Rle_dec 0 (cov n X y j)) as [Hc|Hc].
    - rewrite Rmult_1_l, (Rabs_right (d / 2)), (Rabs_right (cov n X y j)) by lra. repeat split; lra.
    - rewrite (Rabs_left (-1 * (d / 2))), (Rabs_left (cov n X y j)) by lra. repeat split; lra. }
  destruct Hh as (H0 & H1 & H2 & H3). specialize (Hd h H0 H1). rewrite Rplus_0_l in Hd.
  exists (upd (repeat 0 p) j h). split; [rewrite length_upd; rewrite repeat_length; lia|].
  rewrite EO. rewrite <- (upd_same (repeat 0 p) j) by (rewrite repeat_length; lia). rewrite entry_zeros, EO.
  rewrite Rabs_R0, Rmult_0_r, Rplus_0_r.
  assert (B : Rabs (F h - F 0 - G * h) < k / 2 * Rabs h).
  { replace (F h - F 0 - G * h) with (((F h - F 0) / h - G) * h) by (field; assumption).
    rewrite Rabs_mult. apply Rmult_lt_compat_r; assumption. }
  pose proof (Rle_abs (F h - F 0 - G * h)) as B2. rewrite H3 in B, B2.
  assert (k * Rabs h > 0) by (apply Rmult_lt_0_compat; assumption). unfold k in *. nra.
Qed.
