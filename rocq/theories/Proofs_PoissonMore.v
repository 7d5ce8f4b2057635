(** Proofs about Poisson.fit and predict: C80-C84. *)
From Coq Require Import ZArith List Bool Arith Reals Lra Lia Factorial Floats.SpecFloat.
From Verif Require Import Prelude F64 F64Order Num Model_Rescale Model_Refit Spec_Rescale Model_Poisson Spec_Poisson
  Proofs_Rescale Proofs_Poisson Proofs_PoissonOpt Proofs_PoissonFit.
Import ListNotations.
Local Open Scope R_scope.

Ltac req := match goal with |- ?a = ?b => change (@eq R a b) end.

Section Forget.
  Context {N : NumOps}.
  Lemma fit_forgets c sv opt p (X : list (list N)) y sw o1 o2 : warm_start c = false ->
    let a := poisson_fit c sv opt p X y sw o1 in
    let b := poisson_fit c sv opt p X y sw o2 in
    snd a = snd b /\
    (snd a = Ok tt -> coef_ (fst a) = coef_ (fst b) /\ (fit_intercept c = true -> intercept_ (fst a) = intercept_ (fst b))).
  Proof.
    intros Hw a b. unfold a, b, poisson_fit. destruct (constant_response y); [cbn; auto|].
    assert (S1 : forall o s, start_coef c p s o = repeat nzero p).
    { intros o s. unfold start_coef. rewrite Hw. now destruct (coef_ o). }
    assert (S2 : forall o, start_intercept c o = nzero).
    { intros o. unfold start_intercept. rewrite Hw. now destruct (intercept_ o). }
    rewrite !S1, !S2. match goal with |- context[match ?r with _ => _ end] => destruct r as [[v d]|e] end; cbn.
    - split; [reflexivity|]. intros _. split; [reflexivity|]. intros ->. reflexivity.
    - split; [reflexivity|discriminate].
  Qed.

  Lemma other_solver c opt p (X : list (list N)) y sw o :
    poisson_fit c OtherSolver opt p X y sw o
    = if constant_response y then (mkPoisson (Some (repeat nzero p)) (Some (log_mean y)), Ok tt) else (o, Raise ValueError).
  Proof. unfold poisson_fit. now destruct (constant_response y). Qed.
End Forget.

(** ** Constant response *)
Lemma eqb_refl_R (a : R) : Reqb a a = true.
Proof. unfold Reqb. destruct (Req_EM_T a a); [reflexivity|lra]. Qed.
Lemma constant_repeat (a : R) n : (0 < n)%nat -> constant_response (N := Rnum) (repeat a n) = true.
Proof.
  intro H. destruct n; [lia|]. cbn. apply forallb_forall. intros x Hx. apply repeat_spec in Hx. subst x. apply eqb_refl_R.
Qed.
Lemma log_mean_repeat (a : R) n : (0 < n)%nat -> 0 < a -> log_mean (N := Rnum) (repeat a n) = ln a.
Proof.
  intros Hn Ha. unfold log_mean. assert (E : nany (N := Rnum) (repeat a n) = true).
  { destruct n; [lia|]. cbn. unfold nnonzero, nzero. rn. unfold Reqb. destruct (Req_EM_T a 0); [lra|reflexivity]. }
  rewrite E. rn. f_equal. refine (eq_trans (mean_n n _ (repeat_length _ _)) _).
  rewrite (Sum_ext n _ (fun _ => a)) by (intros i Hi; now apply entry_repeat). rewrite Sum_const. req. field. apply not_0_INR. lia.
Qed.
Lemma dot_zeros (r : list R) p : ndot (N := Rnum) r (repeat 0 p) = 0.
Proof.
  unfold ndot, nsum. revert r. induction p; intros [|x r]; try reflexivity. cbn [repeat map2 fold_right]. rewrite IHp.
  rn. unfold nzero. cbn. lra.
Qed.
Lemma constant_fit_R c sv opt p X (a : R) n sw (o : poisson Rnum) Xn : (0 < n)%nat -> 0 < a ->
  let r := poisson_fit (N := Rnum) c sv opt p X (repeat a n) sw o in
  snd r = Ok tt /\ coef_ (fst r) = Some (repeat 0 p) /\
  predict_mean (N := Rnum) (fst r) Xn = Ok (repeat a (length Xn)).
Proof.
  intros Hn Ha r. unfold r, poisson_fit. rewrite (constant_repeat a n Hn).
  rewrite (log_mean_repeat a n Hn Ha). cbn [fst snd coef_]. split; [reflexivity|]. split; [reflexivity|].
  unfold predict_mean. cbn [coef_ intercept_]. f_equal. unfold matvec. rewrite map_map.
  induction Xn as [|x Xn IH]; [reflexivity|]. cbn [map length repeat]. f_equal; [|exact IH].
  pose proof (dot_zeros x p) as D. match goal with |- nexp (nadd _ ?d) = _ => change d with (ndot (N := Rnum) x (repeat 0 p)) end. rewrite D. rn.
  rewrite Rplus_0_r. now apply exp_ln.
Qed.

Section Zero64.
  Variables e l : f64 -> f64.
  Notation F := (Fnum e l).
  Lemma feqb00 : feqb fzero fzero = true. Proof. reflexivity. Qed.
  Lemma zeros_any n : nany (N := F) (repeat fzero n) = false.
  Proof. induction n; [reflexivity|]. cbn. exact IHn. Qed.
  Lemma zero_counts c sv opt p X n sw (o : poisson F) : (0 < n)%nat ->
    poisson_fit (N := F) c sv opt p X (repeat fzero n) sw o
    = (mkPoisson (N := F) (Some (repeat fzero p)) (Some fninf), Ok tt).
  Proof.
    intro Hn. unfold poisson_fit.
    assert (E : constant_response (N := F) (repeat fzero n) = true).
    { destruct n; [lia|]. cbn. apply forallb_forall. intros x Hx. apply repeat_spec in Hx. now subst x. }
    rewrite E. unfold log_mean. rewrite (zeros_any n). reflexivity.
  Qed.
  Lemma zero_intercepts X n coef :
    uoi_poisson_intercept (N := F) true X (repeat fzero n) coef = fninf /\ no_features_intercept (N := F) (repeat fzero n) = fninf.
  Proof. unfold uoi_poisson_intercept, no_features_intercept, log_mean. rewrite (zeros_any n). split; reflexivity. Qed.

  Definition is_zero (x : f64) : Prop := x = fzero \/ x = fopp fzero.
  Lemma mul_zero (x : f64) : is_finite64 x = true -> is_zero (fmul x fzero).
  Proof. destruct x as [s|s| |s m k]; try discriminate; intros _; destruct s; [right|left|right|left]; reflexivity. Qed.
  Lemma add_zero (x y : f64) : is_zero x -> is_zero y -> is_zero (fadd x y).
  Proof. intros [->| ->] [->| ->]; [left|left|left|right]; reflexivity. Qed.
  Lemma dot_zero p : forall x, Forall (fun v => is_finite64 v = true) x -> is_zero (ndot (N := F) x (repeat fzero p)).
  Proof.
    induction p; intros [|v x] H; try (left; reflexivity). inversion H; subst. cbn [repeat ndot map2 nsum fold_right].
    apply add_zero; [now apply mul_zero|now apply IHp].
  Qed.
  Lemma zero_prediction c sv opt p X n sw (o : poisson F) Xn : (0 < n)%nat ->
    Forall (Forall (fun v => is_finite64 v = true)) Xn -> e fninf = fzero ->
    predict_mean (N := F) (fst (poisson_fit (N := F) c sv opt p X (repeat fzero n) sw o)) Xn = Ok (repeat fzero (length Xn)).
  Proof.
    intros Hn HX He. rewrite zero_counts by assumption. unfold predict_mean. cbn [fst coef_ intercept_]. f_equal.
    unfold matvec. rewrite map_map. induction HX as [|x Xn Hx HX IH]; [reflexivity|]. cbn [map length repeat]. f_equal; [|exact IH].
    cbn [nexp nadd Fnum]. destruct (dot_zero p x Hx) as [D|D]; rewrite D; exact He.
  Qed.
End Zero64.

(** ** Convergence of coordinate descent *)
Lemma max_abs_lt (a b : list R) p t : length a = p -> length b = p -> (0 < p)%nat ->
  (nltb (n := Rnum) (nmaxl (N := Rnum) (map (nabs (n := Rnum)) (map2 (nsub (n := Rnum)) a b))) t = true
   <-> forall j, (j < p)%nat -> Rabs (entry b j - entry a j) < t).
Proof.
  intros La Lb Hp. set (l := map _ _).
  assert (Ll : @length R l = p) by (unfold l; rewrite map_length; now apply length_map2n).
  assert (El : forall j, (j < p)%nat -> entry l j = Rabs (entry b j - entry a j)).
  { intros j Hj. unfold l. refine (eq_trans (entry_mapn Rabs p _ j _ Hj) _); [now apply length_map2n|]. 
    rewrite Rabs_minus_sym. f_equal. exact (entry_map2n Rminus p a b j La Lb Hj). }
  destruct (nmaxl_R l) as [M1 M2]; [intro E; clear -Ll E Hp; rewrite E in Ll; cbn in Ll; lia|].
  cbn [nltb Rnum]. unfold Rltb. split.
  - intros H j Hj. destruct (Rlt_dec _ _) as [H'|]; [|discriminate]. rewrite <- El by assumption.
    apply Rle_lt_trans with (2 := H'). apply M1. apply nth_In. change (j < @length R l)%nat. rewrite Ll. exact Hj.
  - intro H. destruct (In_nth _ _ 0 M2) as (j & Hj & Ej). rewrite Ll in Hj. specialize (H j Hj). rewrite <- El in H by assumption.
    unfold entry in H. rewrite Ej in H. destruct (Rlt_dec _ _); [reflexivity|contradiction].
Qed.

Section Trace.
  Variables (c : config Rnum) (X : list (list R)) (y sw : list R) (p : nat).
  Hypothesis Hp : (0 < p)%nat.
  Definition keep (v : list R) : list nat := filter (fun j => negb (Reqb (entry v j) 0)) (seq 0 p).
  Definition valid_trace (act : nat -> list nat) (tr : nat -> list R * R) : Prop :=
    (forall k, tr (S k) = cd_iteration (N := Rnum) c X y sw (act k) (tr k)) /\
    (forall k, act (S k) = keep (fst (tr (S k)))).
  Definition change_below (tr : nat -> list R * R) (k : nat) : Prop :=
    forall j, (j < p)%nat -> Rabs (entry (fst (tr (S k))) j - entry (fst (tr k)) j) < tol c.

  Fixpoint mk (k : nat) (a : list nat) (s : list R * R) : list nat * (list R * R) :=
    match k with O => (a, s) | S k' => let s' := cd_iteration (N := Rnum) c X y sw a s in mk k' (keep (fst s')) s' end.
  Lemma mk_S k : forall a s, mk (S k) a s =
    let s' := cd_iteration (N := Rnum) c X y sw (fst (mk k a s)) (snd (mk k a s)) in (keep (fst s'), s').
  Proof. induction k; intros a s; [reflexivity|]. change (mk (S (S k)) a s) with (mk (S k) (keep (fst (cd_iteration (N := Rnum) c X y sw a s))) (cd_iteration (N := Rnum) c X y sw a s)). now rewrite IHk. Qed.

  Lemma iter_length a s : length (fst (cd_iteration (N := Rnum) c X y sw a s)) = length (fst s).
  Proof. pose proof (loop_length (N := Rnum) c X y sw 1 a s) as H. cbn [cd_loop] in H. destruct (nltb _ _); exact H. Qed.

  Lemma loop_trace m : forall a s, length (fst s) = p -> exists k, (k <= m)%nat /\
    cd_loop (N := Rnum) c X y sw m a s = snd (mk k a s) /\
    (forall i, (S i < k)%nat -> ~ change_below (fun k => snd (mk k a s)) i) /\
    ((k < m)%nat -> exists i, k = S i /\ change_below (fun k => snd (mk k a s)) i) /\ ((0 < m)%nat -> (0 < k)%nat).
  Proof.
    induction m; intros a s Hs.
    - exists 0%nat. repeat split; try lia.
    - cbn [cd_loop]. set (s' := cd_iteration (N := Rnum) c X y sw a s).
      assert (Ls' : length (fst s') = p) by (unfold s'; now rewrite iter_length).
      destruct (nltb _ _) eqn:E.
      + exists 1%nat. split; [lia|]. split; [reflexivity|]. split; [intros; lia|]. split; [|lia]. intros _. exists 0%nat. split; [reflexivity|].
        intros j Hj. apply (proj1 (max_abs_lt (fst s) (fst s') p (tol c) Hs Ls' Hp) E j Hj).
      + assert (Ek : nonzeros (N := Rnum) (fst s') = keep (fst s')) by (unfold nonzeros, keep; rr; rewrite Ls'; reflexivity).
        rewrite Ek. destruct (IHm (keep (fst s')) s' Ls') as (k & Hk & Er & Hn & Hc & Hpos).
        exists (S k). split; [lia|]. split; [exact Er|]. split; [|split; [|lia]].
        * intros [|i] Hi H.
          { apply (max_abs_lt (fst s) (fst s') p (tol c) Hs Ls' Hp) in H. rr. congruence. }
          { apply (Hn i); [lia|]. exact H. }
        * intro Hlt. destruct Hc as (i & -> & Hi); [lia|]. exists (S i). split; [reflexivity|exact Hi].
  Qed.

  Lemma fit_trace opt (o : poisson Rnum) : warm_start c = false -> standardize c = false -> constant_response (N := Rnum) y = false ->
    exists act tr k b,
      act 0%nat = seq 0 p /\ tr 0%nat = (repeat 0 p, 0) /\
      (forall k, tr (S k) = cd_iteration (N := Rnum) c X y sw (act k) (tr k)) /\
      (forall k, act (S k) = filter (fun j => negb (Reqb (entry (fst (tr (S k))) j) 0)) (seq 0 p)) /\
      poisson_fit (N := Rnum) c Cd opt p X y (Some sw) o = (mkPoisson (N := Rnum) (Some (fst (tr k))) b, Ok tt) /\
      (fit_intercept c = true -> b = Some (snd (tr k))) /\
      (k <= max_iter c)%nat /\ ((0 < max_iter c)%nat -> (0 < k)%nat) /\
      (forall i, (S i < k)%nat -> exists j, (j < p)%nat /\ tol c <= Rabs (entry (fst (tr (S i))) j - entry (fst (tr i)) j)) /\
      ((k < max_iter c)%nat -> forall j, (j < p)%nat -> Rabs (entry (fst (tr k)) j - entry (fst (tr (k - 1)%nat)) j) < tol c).
  Proof.
    intros Hw Hst Hy.
    destruct (loop_trace (max_iter c) (seq 0 p) (repeat 0 p, 0) (repeat_length _ _)) as (k & Hk & Er & Hn & Hc & Hpos).
    exists (fun k => fst (mk k (seq 0 p) (repeat 0 p, 0))), (fun k => snd (mk k (seq 0 p) (repeat 0 p, 0))), k,
      (if fit_intercept c then Some (snd (snd (mk k (seq 0 p) (repeat 0 p, 0)))) else intercept_ o).
    split; [reflexivity|]. split; [reflexivity|].
    split; [intro i; now rewrite mk_S|]. split; [intro i; rewrite mk_S; reflexivity|].
    split.
    { unfold poisson_fit. rewrite Hy, Hst. cbn [poisson_post].
      assert (EX : map (centering_transform (N := Rnum) false (fit_scaler (N := Rnum) (columns (N := Rnum) p X))) X = X).
      { apply columns_ok. }
      rewrite EX. clear EX.
      assert (S1 : start_coef (N := Rnum) c p (fit_scaler (N := Rnum) (columns (N := Rnum) p X)) o = repeat 0 p) by (unfold start_coef; rewrite Hw; now destruct (coef_ o)).
      assert (S2 : start_intercept (N := Rnum) c o = 0) by (unfold start_intercept; rewrite Hw; now destruct (intercept_ o)).
      rewrite S1, S2. unfold cd. rewrite Hw. cbn [andb].
      match goal with |- context[cd_loop c X y sw (max_iter c) ?a ?s] =>
        assert (E : cd_loop (N := Rnum) c X y sw (max_iter c) a s = snd (mk k (seq 0 p) (repeat 0 p, 0))) end.
      { rewrite repeat_length. exact Er. }
      rewrite E. destruct (snd (mk k _ _)) as [v d]. unfold poisson_post. cbn [fst snd]. reflexivity. }
    split; [intro Hf; now rewrite Hf|]. split; [exact Hk|]. split; [exact Hpos|]. split.
    - intros i Hi. specialize (Hn i Hi). apply Classical_Pred_Type.not_all_ex_not in Hn. destruct Hn as (j & Hj).
      destruct (lt_dec j p) as [Hjp|Hjp]; [|exfalso; apply Hj; intro; contradiction].
      exists j. split; [exact Hjp|]. apply Rnot_lt_le. intro. apply Hj. intro. assumption.
    - intros Hlt. destruct (Hc Hlt) as (i & -> & Hi). intros j Hj. replace (S i - 1)%nat with i by lia. now apply Hi.
  Qed.
End Trace.

(** ** The mode *)
Definition pmf (mu : R) (k : nat) : R := exp (- mu) * (mu ^ k / INR (fact k)).
Lemma pmf_step mu k : 0 < mu -> pmf mu (S k) = pmf mu k * (mu / INR (S k)).
Proof.
  intro H. unfold pmf. rewrite fact_simpl, mult_INR. cbn [pow]. field. split; [apply not_0_INR; lia|apply INR_fact_neq_0].
Qed.
Lemma pmf_pos mu k : 0 < mu -> 0 < pmf mu k.
Proof. intro H. unfold pmf. apply Rmult_lt_0_compat; [apply exp_pos|]. apply Rdiv_lt_0_compat; [now apply pow_lt|apply INR_fact_lt_0]. Qed.
Lemma pmf_up mu m d : 0 < mu -> INR m <= mu -> (d <= m)%nat -> pmf mu (m - d) <= pmf mu m.
Proof.
  intros Hmu Hm. induction d; intro Hd; [rewrite Nat.sub_0_r; lra|].
  apply Rle_trans with (pmf mu (m - d)); [|apply IHd; lia].
  replace (m - d)%nat with (S (m - S d)) by lia. rewrite pmf_step by assumption.
  rewrite <- (Rmult_1_r (pmf mu (m - S d))) at 1. apply Rmult_le_compat_l; [left; now apply pmf_pos|].
  assert (0 < INR (S (m - S d))) by (apply lt_0_INR; lia).
  apply Rmult_le_reg_r with (INR (S (m - S d))); [assumption|]. unfold Rdiv. rewrite Rmult_assoc, Rinv_l, Rmult_1_l, Rmult_1_r by lra.
  apply Rle_trans with (INR m); [apply le_INR; lia|assumption].
Qed.
Lemma pmf_down mu m d : 0 < mu -> mu < INR m + 1 -> pmf mu (m + d) <= pmf mu m.
Proof.
  intros Hmu Hm. induction d; [rewrite Nat.add_0_r; lra|].
  apply Rle_trans with (pmf mu (m + d)); [|exact IHd].
  rewrite Nat.add_succ_r, pmf_step by assumption. rewrite <- (Rmult_1_r (pmf mu (m + d))) at 2.
  apply Rmult_le_compat_l; [left; now apply pmf_pos|].
  assert (0 < INR (S (m + d))) by (apply lt_0_INR; lia).
  apply Rmult_le_reg_r with (INR (S (m + d))); [assumption|]. unfold Rdiv. rewrite Rmult_assoc, Rinv_l, Rmult_1_l, Rmult_1_r by lra.
  rewrite S_INR, plus_INR. pose proof (pos_INR d). lra.
Qed.
Lemma floor_nat mu : 0 < mu -> exists m, IZR (Int_part mu) = INR m /\ INR m <= mu /\ mu < INR m + 1.
Proof.
  intro H. destruct (base_Int_part mu) as [B1 B2].
  assert (0 <= Int_part mu)%Z. { assert (-1 < Int_part mu)%Z; [|lia]. apply lt_IZR. lra. }
  exists (Z.to_nat (Int_part mu)). rewrite INR_IZR_INZ, Z2Nat.id by assumption. repeat split; lra.
Qed.
Lemma predict_mode (o : poisson Rnum) X v :
  predict (N := Rnum) (fun x => IZR (Int_part x)) o X = Ok v ->
  exists mu, predict_mean (N := Rnum) o X = Ok mu /\ length v = length mu /\
  forall i, (i < length v)%nat -> exists m, entry v i = INR m /\
    forall k, exp (- entry mu i) * (entry mu i ^ k / INR (fact k)) <= exp (- entry mu i) * (entry mu i ^ m / INR (fact m)).
Proof.
  unfold predict. destruct (predict_mean o X) as [mu|err] eqn:E; [|discriminate]. cbn [rmap]. intro H. injection H as <-.
  exists mu. split; [reflexivity|]. split; [apply map_length|]. intros i Hi. rewrite map_length in Hi.
  assert (Hm : 0 < entry mu i).
  { unfold predict_mean in E. destruct (coef_ o) as [c|]; [|discriminate]. destruct (intercept_ o) as [b|]; [|discriminate].
    injection E as <-. rr. rewrite map_length in Hi.
    assert (E : entry (map (fun m : R => exp (b + m)) (matvec (N := Rnum) X c)) i = exp (b + entry (matvec (N := Rnum) X c) i)) by (apply (entry_map (fun m => exp (b + m))); exact Hi).
    match goal with |- 0 < ?a => replace a with (exp (b + entry (matvec (N := Rnum) X c) i)) by (symmetry; exact E) end. apply exp_pos. }
  destruct (floor_nat _ Hm) as (m & Em & M1 & M2). exists m. split.
  - refine (eq_trans (entry_map (fun x => IZR (Int_part x)) mu i Hi) _). exact Em.
  - intro k. fold (pmf (entry mu i) k) (pmf (entry mu i) m). destruct (le_lt_dec k m) as [Hk|Hk].
    + replace k with (m - (m - k))%nat by lia. apply pmf_up; auto; lia.
    + replace k with (m + (k - m))%nat by lia. now apply pmf_down.
Qed.

(** ** Standardization inside fit *)
Definition standardizing {N : NumOps} (c : config N) (b : bool) : config N :=
  mkConfig (alpha c) (l1_ratio c) (fit_intercept c) b (max_iter c) (tol c) (warm_start c).

Lemma loop_std (c : config Rnum) b X (y sw : list R) k : forall a s,
  cd_loop (N := Rnum) (standardizing c b) X y sw k a s = cd_loop (N := Rnum) c X y sw k a s.
Proof.
  induction k; intros a s; [reflexivity|]. cbn [cd_loop].
  change (cd_iteration (standardizing c b) X y sw a s) with (cd_iteration c X y sw a s).
  change (tol (standardizing c b)) with (tol c). destruct (nltb _ _); [reflexivity|apply IHk].
Qed.

Section StdFit.
  Variables (p : nat) (X : list (list R)).
  Notation s := (fit_scaler (N := Rnum) (columns (N := Rnum) p X)).
  Notation T := (transform (N := Rnum) s true).
  Lemma len_mean : length (mean_ s) = p.
  Proof. cbn. unfold columns. now rewrite !map_length, seq_length. Qed.
  Lemma len_scale : length (scale_ s) = p.
  Proof. cbn. unfold columns. now rewrite !map_length, seq_length. Qed.
  Lemma scale_ok : scales_ok p (scale_ s).
  Proof.
    split; [exact len_scale|]. intros j Hj. pose proof (scales_R p X) as H. rewrite Forall_forall in H. apply H.
    apply nth_In. pose proof len_scale as L. rr. rewrite L. exact Hj.
  Qed.
  Lemma back (coef : list R) (b : R) x : length coef = p -> length x = p ->
    let f := poisson_post (N := Rnum) true true s coef b in
    nadd (n := Rnum) (snd f) (ndot (N := Rnum) x (fst f)) = nadd (n := Rnum) b (ndot (N := Rnum) (T x) coef).
  Proof.
    intros Hc Hx f.
    pose proof (poisson_rescaled p (mean_ s) (scale_ s) coef x b len_mean scale_ok Hc Hx true) as E. cbv zeta in E.
    assert (Lf : length (fst f) = p).
    { unfold f, poisson_post. cbn [fst]. apply length_map2n; [exact Hc|exact len_scale]. }
    assert (LT : length (T x) = p).
    { unfold transform. apply length_map2n; [|exact len_scale]. apply length_map2n; [exact Hx|exact len_mean]. }
    unfold value in E. rewrite (dot_n p x (fst f) Hx Lf), (dot_n p (T x) coef LT Hc).
    cbn [nadd Rnum].
    rewrite Rplus_0_r in E. unfold std_value in E.
    rewrite (Sum_ext p (fun j => entry x j * entry (fst f) j) (fun j => entry (fst f) j * entry x j)) by (intros; ring).
    match type of E with ?a + ?b = _ => transitivity (a + b); [apply Rplus_comm|] end. rewrite E.
    rewrite Rplus_comm. f_equal. apply Sum_ext. intros j Hj.
    pose proof (transform_entry' p (mean_ s) (scale_ s) x len_mean scale_ok Hx true j Hj) as Et. cbn [mean_ scale_] in Et.
    change (mkScaler (mean_ s) (scale_ s)) with s in Et. rewrite Et. ring.
  Qed.

  Lemma std_fit c sv opt (y : list R) sw (o : poisson Rnum) Xn : warm_start c = false -> fit_intercept c = true ->
    (forall f x0 l e w, opt f x0 l e = Ok w -> length w = length x0) -> Forall (fun x => length x = p) Xn ->
    let a := poisson_fit (N := Rnum) (standardizing c true) sv opt p X y sw o in
    let b := poisson_fit (N := Rnum) (standardizing c false) sv opt p (map T X) y sw o in
    snd a = snd b /\ (snd a = Ok tt -> predict_mean (N := Rnum) (fst a) Xn = predict_mean (N := Rnum) (fst b) (map T Xn)).
  Proof.
    intros Hw Hf Ho HX a b. unfold a, b, poisson_fit.
    destruct (constant_response y).
    { split; [reflexivity|]. intros _. cbn [fst]. unfold predict_mean. cbn [coef_ intercept_]. f_equal. unfold matvec. rewrite !map_map.
      apply map_ext. intro x. f_equal. f_equal.
      change (@eq R (ndot (N := Rnum) x (repeat 0 p)) (ndot (N := Rnum) (T x) (repeat 0 p))). now rewrite !dot_zeros. }
    assert (S1 : forall o s' b, start_coef (N := Rnum) (standardizing c b) p s' o = repeat 0 p).
    { intros o' s' b'. unfold start_coef. cbn [warm_start standardizing]. rewrite Hw. now destruct (coef_ o'). }
    assert (S2 : forall o b, start_intercept (N := Rnum) (standardizing c b) o = 0).
    { intros o' b'. unfold start_intercept. cbn [warm_start standardizing]. rewrite Hw. now destruct (intercept_ o'). }
    rewrite !S1, !S2. clear S1 S2. cbn [standardize fit_intercept alpha l1_ratio standardizing].
    assert (EX : map (centering_transform (N := Rnum) false (fit_scaler (N := Rnum) (columns (N := Rnum) p (map T X)))) (map T X) = map T X).
    { apply map_id. }
    rewrite EX. clear EX.
    change (map (centering_transform (N := Rnum) true s) X) with (map T X).
    set (X' := map T X).
    assert (EC : forall ws, cd (N := Rnum) (standardizing c true) X' y ws (repeat 0 p) 0 = cd (N := Rnum) (standardizing c false) X' y ws (repeat 0 p) 0).
    { intro ws. unfold cd. cbn [warm_start max_iter standardizing]. rewrite Hw. cbn [andb]. f_equal. now rewrite !loop_std. }
    assert (LC : forall ws v d, cd (N := Rnum) (standardizing c false) X' y ws (repeat 0 p) 0 = Ok (v, d) -> length v = p).
    { intros ws v d. unfold cd. cbn [warm_start max_iter standardizing]. rewrite Hw. cbn [andb]. intro E. injection E as E.
      pose proof (loop_length (N := Rnum) (standardizing c false) X' y ws (max_iter c) (seq 0 (length (repeat 0 p))) (repeat 0 p, 0)) as L.
      rr. rewrite E in L. cbn [fst] in L. now rewrite L, repeat_length. }
    assert (K : forall v d, length v = p ->
      predict_mean (N := Rnum) (mkPoisson (N := Rnum) (Some (fst (poisson_post (N := Rnum) true true s v d))) (Some (snd (poisson_post (N := Rnum) true true s v d)))) Xn
      = predict_mean (N := Rnum) (mkPoisson (N := Rnum) (Some v) (Some d)) (map T Xn)).
    { intros v d Lv. unfold predict_mean. cbn [coef_ intercept_]. f_equal. unfold matvec. rewrite !map_map.
      apply map_ext_in. intros x Hx. f_equal. apply back; [exact Lv|]. rewrite Forall_forall in HX. now apply HX. }
    rewrite Hf.
    destruct sv.
    - set (r := opt _ _ _ _). destruct r as [w|err] eqn:E; cbn; [|split; [reflexivity|discriminate]].
      split; [reflexivity|]. intros _. apply K. apply Ho in E. rewrite app_length, repeat_length in E. cbn [length] in E. rr. rewrite firstn_length, E. lia.
    - rewrite EC. destruct (cd (N := Rnum) (standardizing c false) X' y _ (repeat 0 p) 0) as [[v d]|err] eqn:E; cbn [snd fst]; [|split; [reflexivity|discriminate]].
      split; [reflexivity|]. intros _. apply K. eapply LC. exact E.
    - split; [reflexivity|discriminate].
  Qed.
End StdFit.
