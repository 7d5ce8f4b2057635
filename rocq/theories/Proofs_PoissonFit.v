(** Proofs about the Poisson estimator object (C40-C42) and its solvers. *)
From Coq Require Import ZArith List Bool Arith Lia Reals Lra.
From Verif Require Import Prelude F64 Num Model_Rescale Model_Refit Spec_Rescale Proofs_Rescale
  Model_Poisson Spec_Poisson Deriv Proofs_Poisson Proofs_PoissonOpt Proofs_Scores.
Import ListNotations.

Lemma Forall_map2 {A B C} (P : A -> Prop) (Q : C -> Prop) (G : B -> Prop) (f : A -> B -> C) a b :
  (forall x s, P x -> G s -> Q (f x s)) -> Forall P a -> Forall G b -> Forall Q (map2 f a b).
Proof.
  intros H Ha. revert b. induction Ha; intros b Hb; cbn; auto. destruct b; auto. inversion Hb; subst. constructor; auto.
Qed.

Section Gen.
  Context {N : NumOps}.
  Definition zero (x : N) : Prop := neqb x nzero = true.
  Definition keeps (s : N) : Prop := forall x, zero x -> zero (nmul x s) /\ zero (ndiv x s).

  Lemma nonzeros_nil v : Forall zero v -> nonzeros v = [].
  Proof.
    intro H. unfold nonzeros.
    assert (G : forall j, In j (seq 0 (length v)) -> nnonzero (nth j v nzero) = false).
    { intros j Hj. apply in_seq in Hj. rewrite Forall_forall in H. unfold nnonzero.
      rewrite (H (nth j v nzero)); [reflexivity|]. apply nth_In. lia. }
    revert G. generalize (seq 0 (length v)). induction l as [|a l IH]; intro G; [reflexivity|]. cbn [filter].
    rewrite G by now left. apply IH. intros; apply G; now right.
  Qed.

  Lemma loop_nil c X y sw k v b : Forall zero v -> exists b', cd_loop c X y sw k [] (v, b) = (v, b').
  Proof.
    intro Hv. revert b. induction k as [|k IH]; intro b; [now exists b|]. cbn [cd_loop].
    destruct (nltb _ _).
    - eexists. reflexivity.
    - unfold cd_iteration, cd_sweep. cbn [fst snd fold_left]. rewrite (nonzeros_nil v Hv). apply IH.
  Qed.

  Definition zero_object (p : nat) (o : poisson N) : Prop :=
    match coef_ o with Some v => length v = p /\ Forall zero v | None => True end.

  Hypothesis zero0 : zero nzero.
  Hypothesis mul0 : forall x : N, zero x -> zero (nmul x nzero).

  Lemma zeros_repeat p : Forall zero (repeat (nzero (N := N)) p).
  Proof. induction p; cbn; auto. Qed.
  Lemma scale_length p (X : list (list N)) : length (scale_ (fit_scaler (columns p X))) = p.
  Proof. unfold fit_scaler, columns. cbn. now rewrite !map_length, seq_length. Qed.

  Lemma warm_fit c opt p X y sw o :
    warm_start c = true -> (standardize c = true -> Forall keeps (scale_ (fit_scaler (columns p X)))) ->
    zero_object p o ->
    exists v b, poisson_fit c Cd opt p X y sw o = (mkPoisson (Some v) b, Ok tt) /\ length v = p /\ Forall zero v.
  Proof.
    intros Hw Hs Ho. unfold poisson_fit. destruct (constant_response y).
    { do 2 eexists. split; [reflexivity|]. split; [apply repeat_length|apply zeros_repeat]. }
    set (s := fit_scaler (columns p X)) in *.
    assert (Hc : length (start_coef c p s o) = p /\ Forall zero (start_coef c p s o)).
    { unfold start_coef, zero_object in *. destruct (coef_ o) as [v|].
      - rewrite Hw. destruct (standardize c); [|assumption]. destruct Ho as [Lv Hv]. split.
        + rewrite map2_length. unfold s. rewrite scale_length. lia.
        + apply (Forall_map2 zero zero keeps); auto. intros x t Hx Ht. now apply Ht.
      - split; [apply repeat_length|apply zeros_repeat]. }
    set (c0 := start_coef c p s o) in *. destruct Hc as [Lc Zc].
    unfold cd. rewrite Hw, (nonzeros_nil c0 Zc). cbn [length Nat.eqb negb andb].
    destruct (loop_nil c (map (centering_transform (standardize c) s) X) y
       (match sw with Some s => s | None => ones (length (map (centering_transform (standardize c) s) X)) end)
       (max_iter c) c0 (start_intercept c o) Zc) as [b' ->].
    unfold poisson_post. destruct (standardize c).
    - do 2 eexists. split; [reflexivity|]. cbn [fst]. split.
      + rewrite map2_length. unfold s. rewrite scale_length. lia.
      + apply (Forall_map2 zero zero keeps); auto. intros x t Hx Ht. now apply Ht.
    - do 2 eexists. split; [reflexivity|]. split; assumption.
  Qed.

  (** Calls whose scales leave zeros alone. *)
  Definition fine_call (p : nat) (k : call) : Prop :=
    match k with
    | CallFit c X _ _ => warm_start c = true /\ (standardize c = true -> Forall keeps (scale_ (fit_scaler (columns p X))))
    | CallReset => True
    end.

  Lemma reset_zero p o : zero_object p o -> zero_object p (reset_poisson o).
  Proof.
    unfold zero_object, reset_poisson. cbn. destruct (coef_ o) as [v|]; cbn; auto. intros [H1 H2].
    split; [now rewrite map_length|]. clear H1. induction H2; cbn; auto.
  Qed.

  Lemma warm_history opt p h : forall o, zero_object p o -> Forall (fine_call p) h -> zero_object p (calls Cd opt p h o).
  Proof.
    induction h as [|k h IH]; intros o Ho Hh; [exact Ho|]. inversion Hh as [|? ? Hk Hh']; subst. cbn [calls fold_left].
    apply IH; [|exact Hh']. destruct k as [c X y sw|]; cbn [run_call].
    - destruct Hk as [Hw Hs]. destruct (warm_fit c opt p X y sw o Hw Hs Ho) as (v & b & -> & L & Z). now split.
    - now apply reset_zero.
  Qed.

  Lemma updates_length c X w z b active : forall v : list N, length (fold_left (cd_update c X w z b) active v) = length v.
  Proof. induction active as [|k active IH]; intro v; [reflexivity|]. cbn [fold_left]. rewrite IH. apply length_lset. Qed.
  Lemma loop_length (c : config N) X y sw k : forall active s, length (fst (cd_loop c X y sw k active s)) = length (fst s).
  Proof.
    induction k as [|k IH]; intros active s; [reflexivity|]. cbn [cd_loop].
    assert (E : length (fst (cd_iteration c X y sw active s)) = length (fst s)) by apply updates_length.
    destruct (nltb _ _); [exact E|]. now rewrite IH.
  Qed.

  (** ** Zeros are final *)
  Lemma lset_other {A} k (v : A) l j d : k <> j -> nth j (lset k v l) d = nth j l d.
  Proof. revert k j. induction l as [|a l IH]; intros [|k] [|j] H; cbn; auto; try congruence. Qed.
  Lemma updates_keep c X w z b active : forall (v : list N) j, ~ In j active ->
    nth j (fold_left (cd_update c X w z b) active v) nzero = nth j v nzero.
  Proof.
    induction active as [|k active IH]; intros v j Hj; [reflexivity|]. cbn [fold_left]. rewrite IH.
    - unfold cd_update. apply lset_other. intros ->. apply Hj. now left.
    - intro; apply Hj; now right.
  Qed.
  Lemma not_nonzero v j : zero (nth j v nzero) -> ~ In j (nonzeros v).
  Proof. intros Hz Hi. apply filter_In in Hi. destruct Hi as [_ Hi]. unfold nnonzero in Hi. rewrite Hz in Hi. discriminate. Qed.

  Lemma loop_keep (c : config N) X y sw k : forall active s j, ~ In j active -> zero (nth j (fst s) nzero) ->
    nth j (fst (cd_loop c X y sw k active s)) nzero = nth j (fst s) nzero.
  Proof.
    induction k as [|k IH]; intros active s j Hj Hz; [reflexivity|]. cbn [cd_loop].
    assert (E : nth j (fst (cd_iteration c X y sw active s)) nzero = nth j (fst s) nzero).
    { unfold cd_iteration, cd_sweep. cbn [fst]. now apply updates_keep. }
    destruct (nltb _ _); [exact E|]. rewrite IH.
    - exact E.
    - apply not_nonzero. now rewrite E.
    - now rewrite E.
  Qed.

  Lemma loop_split (c : config N) X y sw m k : forall active s, let sm := cd_loop c X y sw (S m) active s in
    cd_loop c X y sw (S m + k) active s = sm \/
    cd_loop c X y sw (S m + k) active s = cd_loop c X y sw k (nonzeros (fst sm)) sm.
  Proof.
    induction m as [|m IH]; intros active s; cbn zeta.
    - cbn [Nat.add cd_loop]. destruct (nltb _ _); [now left|now right].
    - cbn [Nat.add]. cbn [cd_loop]. destruct (nltb _ _); [now left|]. apply IH.
  Qed.

  Lemma loop_zero (c : config N) X y sw m k active s j :
    zero (nth j (fst (cd_loop c X y sw (S m) active s)) nzero) ->
    nth j (fst (cd_loop c X y sw (S m + k) active s)) nzero = nth j (fst (cd_loop c X y sw (S m) active s)) nzero.
  Proof.
    intro Hz. destruct (loop_split c X y sw m k active s) as [-> | ->]; [reflexivity|].
    apply loop_keep; [now apply not_nonzero|assumption].
  Qed.

  Definition with_iter (c : config N) (m : nat) : config N :=
    mkConfig (alpha c) (l1_ratio c) (fit_intercept c) (standardize c) m (tol c) (warm_start c).
  Lemma loop_cfg c m X y sw k : forall active s, cd_loop (with_iter c m) X y sw k active s = cd_loop c X y sw k active s.
  Proof. induction k as [|k IH]; intros active s; [reflexivity|]. cbn [cd_loop]. destruct (nltb _ _); [reflexivity|]. exact (IH _ _). Qed.

  (** [s] neither creates nor destroys zeros. *)
  Definition exact_scale (s : N) : Prop := forall x, zero (ndiv x s) <-> zero x.

  Lemma zero_final c opt p X y sw o m k j v1 b1 :
    (standardize c = true -> Forall exact_scale (scale_ (fit_scaler (columns p X)))) ->
    match coef_ o with Some v => length v = p | None => True end ->
    (j < p)%nat ->
    poisson_fit (with_iter c (S m)) Cd opt p X y sw o = (mkPoisson (Some v1) b1, Ok tt) ->
    zero (nth j v1 nzero) ->
    exists v2 b2, poisson_fit (with_iter c (S m + k)) Cd opt p X y sw o = (mkPoisson (Some v2) b2, Ok tt) /\
      zero (nth j v2 nzero).
  Proof.
    intros Hs Ho Hj. unfold poisson_fit. destruct (constant_response y).
    { intros [= <- <-] Hz. do 2 eexists. split; [reflexivity|assumption]. }
    set (s := fit_scaler (columns p X)) in *.
    replace (standardize (with_iter c (S m))) with (standardize c) by reflexivity.
    replace (standardize (with_iter c (S m + k))) with (standardize c) by reflexivity.
    replace (fit_intercept (with_iter c (S m))) with (fit_intercept c) by reflexivity.
    replace (fit_intercept (with_iter c (S m + k))) with (fit_intercept c) by reflexivity.
    replace (start_coef (with_iter c (S m)) p s o) with (start_coef c p s o) by reflexivity.
    replace (start_coef (with_iter c (S m + k)) p s o) with (start_coef c p s o) by reflexivity.
    replace (start_intercept (with_iter c (S m)) o) with (start_intercept c o) by reflexivity.
    replace (start_intercept (with_iter c (S m + k)) o) with (start_intercept c o) by reflexivity.
    set (X' := map (centering_transform (standardize c) s) X). set (w := match sw with Some s => s | None => ones (length X') end).
    set (c0 := start_coef c p s o). set (b0 := start_intercept c o).
    unfold cd. replace (warm_start (with_iter c (S m))) with (warm_start c) by reflexivity.
    replace (warm_start (with_iter c (S m + k))) with (warm_start c) by reflexivity.
    cbn [max_iter with_iter]. set (active := if warm_start c then nonzeros c0 else seq 0 (length c0)).
    replace (Nat.eqb (S m) 0) with false by reflexivity. replace (Nat.eqb (S m + k) 0) with false by reflexivity.
    destruct (_ && _ && _ && _); [discriminate|]. rewrite !loop_cfg.
    pose proof (loop_zero c X' y w m k active (c0, b0) j) as Hk.
    destruct (cd_loop c X' y w (S m) active (c0, b0)) as [u1 d1]. destruct (cd_loop c X' y w (S m + k) active (c0, b0)) as [u2 d2].
    cbn [fst] in Hk. unfold poisson_post. destruct (standardize c).
    - cbn [fst snd]. intros [= <- <-] Hz. do 2 eexists. split; [reflexivity|].
      specialize (Hs eq_refl). rewrite Forall_forall in Hs.
      assert (Lz : forall u : list N, zero (nth j (map2 ndiv u (scale_ s)) nzero) <-> ((j < length u)%nat -> zero (nth j u nzero))).
      { intro u. destruct (Nat.lt_ge_cases j (length u)) as [Hu|Hu].
        - rewrite (map2_nth ndiv u (scale_ s) j nzero nzero nzero) by (try assumption; unfold s; rewrite scale_length; lia).
          assert (Hin : In (nth j (scale_ s) nzero) (scale_ s)) by (apply nth_In; unfold s; rewrite scale_length; lia).
          pose proof (Hs _ Hin (nth j u nzero)) as Q. tauto.
        - split; [intros; lia|]. intros _. rewrite nth_overflow; [exact zero0|]. rewrite map2_length. lia. }
      apply Lz. intro Hu2. destruct (Nat.lt_ge_cases j (length u1)) as [Hu|Hu].
      + assert (Hz1 : zero (nth j u1 nzero)) by (now apply (proj1 (Lz u1))). rewrite Hk; assumption.
      + assert (Hz1 : zero (nth j u1 nzero)) by (rewrite nth_overflow by lia; exact zero0). rewrite Hk; assumption.
    - cbn [fst snd]. intros [= <- <-] Hz. do 2 eexists. split; [reflexivity|]. rewrite Hk; assumption.
  Qed.
End Gen.

(** ** Readings *)
Lemma zero_R (x : R) : zero (N := Rnum) x <-> x = 0%R.
Proof.
  unfold zero, nzero. rn. unfold Reqb. destruct (Req_EM_T x 0); split; intro H; auto; congruence.
Qed.
Lemma scale_R (l : list R) : column_scale (N := Rnum) l <> 0%R.
Proof.
  unfold column_scale. destruct (neqb _ _) eqn:E; [unfold none; rn; lra|].
  set (m := nmean (N := Rnum) l) in *. set (q := map (fun v => nsquare (N := Rnum) (nsub v m)) l) in *.
  assert (Hq : (0 <= nmean (N := Rnum) q)%R).
  { unfold nmean. rn. unfold nofnat. rn. rewrite <- INR_IZR_INZ.
    assert (Hs : (0 <= nsum (N := Rnum) q)%R).
    { unfold q. generalize l. intro l0. induction l0 as [|a l0 IH]; [apply Rle_refl|].
      change (0 <= nsquare (N := Rnum) (nsub a m) + nsum (N := Rnum) (map (fun v => nsquare (N := Rnum) (nsub v m)) l0))%R.
      pose proof (Rle_0_sqr (a - m)) as Q. apply Rplus_le_le_0_compat; [exact Q|exact IH]. }
    apply Rmult_le_pos; [exact Hs|]. match goal with |- (0 <= / INR ?k)%R => destruct (pos_INR k) as [H|H] end.
    - left. now apply Rinv_0_lt_compat.
    - right. rewrite <- H. symmetry. apply Rinv_0. }
  intro H. apply sqrt_eq_0 in H; [|exact Hq]. apply zero_R in H. unfold zero in H. rr. congruence.
Qed.
Lemma scales_R p (X : list (list R)) : Forall (fun s : R => s <> 0%R) (scale_ (fit_scaler (N := Rnum) (columns (N := Rnum) p X))).
Proof.
  unfold fit_scaler. cbn [scale_]. apply Forall_forall. intros s Hs. apply in_map_iff in Hs. destruct Hs as (l & <- & _).
  apply scale_R.
Qed.
Lemma keeps_R (s : R) : s <> 0%R -> keeps (N := Rnum) s.
Proof.
  intros Hs x Hx. apply zero_R in Hx. rewrite Hx. split; apply zero_R; rn; [ring|unfold Rdiv; ring].
Qed.
Lemma exact_R (s : R) : s <> 0%R -> exact_scale (N := Rnum) s.
Proof.
  intros Hs x. split; intro H; apply zero_R in H; apply zero_R; revert H; rn; intro H.
  - unfold Rdiv in H. apply Rmult_integral in H. destruct H as [H|H]; [exact H|]. exfalso. now apply (Rinv_neq_0_compat s Hs).
  - rewrite H. unfold Rdiv. ring.
Qed.

Lemma zero_F e l (x : f64) : zero (N := Fnum e l) x <-> nonzero64 x = false.
Proof.
  unfold zero, nzero. cbn [neqb Fnum nofZ]. destruct x as [s|s| |s m q]; cbn; try (split; congruence).
  - destruct s; cbn; split; congruence.
  - destruct s; cbn; split; congruence.
Qed.
Lemma keeps_F e l (s : f64) : proper s -> keeps (N := Fnum e l) s.
Proof.
  intros Hs x Hx. apply zero_F in Hx. split; apply zero_F.
  - apply (mul_zero x s Hx). apply Hs.
  - exact (div_zero x s Hx Hs).
Qed.
Lemma zero0_F e l : zero (N := Fnum e l) (nzero (N := Fnum e l)).
Proof. reflexivity. Qed.
Lemma mul0_F e l (x : Fnum e l) : zero (N := Fnum e l) x -> zero (N := Fnum e l) (nmul x nzero).
Proof. intro H. apply zero_F. apply zero_F in H. apply (mul_zero x fzero H). reflexivity. Qed.
Lemma zero0_R : zero (N := Rnum) (nzero (N := Rnum)).
Proof. apply zero_R. reflexivity. Qed.
Lemma mul0_R (x : R) : zero (N := Rnum) x -> zero (N := Rnum) (nmul (n := Rnum) x (nzero (N := Rnum))).
Proof. intro H. apply zero_R in H. apply zero_R. rewrite H. unfold nzero. rn. ring. Qed.

(** ** Without an intercept *)
Section NoIntercept.
  Context {N : NumOps}.
  Definition no_intercept (k : call (N := N)) : Prop := match k with CallFit c _ _ _ => fit_intercept c = false | CallReset => False end.
  Definition varying (k : call (N := N)) : Prop := match k with CallFit _ _ y _ => constant_response y = false | CallReset => False end.

  Lemma fit_keeps_intercept c sv opt p (X : list (list N)) y sw o :
    fit_intercept c = false -> constant_response y = false ->
    intercept_ (fst (poisson_fit c sv opt p X y sw o)) = intercept_ o.
  Proof.
    intros Hf Hy. unfold poisson_fit. rewrite Hy, Hf.
    match goal with |- context[match ?r with Ok _ => _ | Raise _ => _ end] => destruct r as [[v b]|e] end; reflexivity.
  Qed.
  Lemma history_keeps_intercept sv opt p h : forall o : poisson N, Forall no_intercept h -> Forall varying h ->
    intercept_ (calls sv opt p h o) = intercept_ o.
  Proof.
    induction h as [|k h IH]; intros o H1 H2; [reflexivity|]. inversion H1; inversion H2; subst. cbn [calls fold_left].
    unfold calls in IH. rewrite IH by assumption. destruct k; [|contradiction]. cbn [run_call]. now apply fit_keeps_intercept.
  Qed.
  Lemma unfitted_predict (o : poisson N) : intercept_ o = None ->
    forall floor X, predict_mean o X = Raise NotFittedError /\ predict floor o X = Raise NotFittedError.
  Proof.
    intros H floor X. unfold predict, predict_mean. rewrite H. destruct (coef_ o); split; reflexivity.
  Qed.

  Lemma stale_intercept sv opt p h1 c X y sw h2 : forall o : poisson N,
    Forall no_intercept h2 -> Forall varying h2 -> constant_response y = true ->
    intercept_ (calls sv opt p (h1 ++ CallFit c X y sw :: h2) o) = Some (log_mean y).
  Proof.
    intros o H1 H2 Hy. unfold calls. rewrite fold_left_app. cbn [fold_left].
    assert (Hk := history_keeps_intercept sv opt p h2). unfold calls in Hk. rewrite Hk by assumption.
    cbn [run_call]. unfold poisson_fit. rewrite Hy. reflexivity.
  Qed.

  Lemma estimation_raises c sv opt : fit_intercept c = false ->
    forall tasks (o : poisson N), intercept_ o = None ->
    (forall p X y X', In (Some (p, X, y, X')) tasks -> constant_response y = false) ->
    (exists t, In (Some t) tasks) -> exists e, estimation c sv opt tasks o = Raise e.
  Proof.
    intro Hf. induction tasks as [|t tasks IH]; intros o Ho Hv [t0 Ht]; [destruct Ht|].
    destruct t as [[[[p X] y] X']|].
    - cbn [estimation]. destruct (poisson_fit c sv opt p X y None o) as [o' r] eqn:E. cbn [fst snd].
      destruct r as [u|e]; [|eexists; reflexivity].
      assert (Hi : intercept_ o' = None).
      { rewrite <- Ho, <- (fit_keeps_intercept c sv opt p X y None o Hf), E; [reflexivity|]. apply (Hv p X y X'). now left. }
      destruct (unfitted_predict o' Hi (fun x => x) X') as [-> _]. eexists. reflexivity.
    - cbn [estimation]. apply IH; auto.
      + intros. eapply Hv. right. eassumption.
      + destruct Ht as [Ht|Ht]; [discriminate|]. now exists t0.
  Qed.
  (** When the fits themselves return, the exception is NotFittedError. *)
  Lemma estimation_not_fitted c opt : fit_intercept c = false -> warm_start c = false ->
    forall tasks (o : poisson N), intercept_ o = None ->
    (forall p X y X', In (Some (p, X, y, X')) tasks -> constant_response y = false) ->
    (exists t, In (Some t) tasks) -> estimation c Cd opt tasks o = Raise NotFittedError.
  Proof.
    intros Hf Hw. induction tasks as [|t tasks IH]; intros o Ho Hv [t0 Ht]; [destruct Ht|].
    destruct t as [[[[p X] y] X']|].
    - cbn [estimation]. destruct (poisson_fit c Cd opt p X y None o) as [o' r] eqn:E. cbn [fst snd].
      assert (Hi : intercept_ o' = None).
      { rewrite <- Ho, <- (fit_keeps_intercept c Cd opt p X y None o Hf), E; [reflexivity|]. apply (Hv p X y X'). now left. }
      assert (Hr : r = Ok tt).
      { unfold poisson_fit in E. rewrite (Hv p X y X') in E by now left. unfold cd in E. rewrite Hw in E. cbn [andb] in E.
        destruct (cd_loop _ _ _ _ _ _ _) as [v b]. now inversion E. }
      rewrite Hr. cbn [bind]. destruct (unfitted_predict o' Hi (fun x => x) X') as [-> _]. reflexivity.
    - cbn [estimation]. apply IH; auto.
      + intros. eapply Hv. right. eassumption.
      + destruct Ht as [Ht|Ht]; [discriminate|]. now exists t0.
  Qed.
End NoIntercept.

(** ** The objective given to the optimizer *)
Local Open Scope R_scope.
Definition exact_optimizer (opt : optimizer (N := Rnum)) : Prop :=
  forall f (x0 : list R) (c : R) e (w : list R), opt f x0 c e = Ok w ->
    l1_minimizer (fun v => fst (f v)) c e (length x0) w.

Lemma columns_ok (p : nat) (X : list (list R)) : map (centering_transform (N := Rnum) false (fit_scaler (N := Rnum) (columns (N := Rnum) p X))) X = X.
Proof. unfold centering_transform. apply map_id. Qed.

Lemma lbfgs_optimal n p X (y : list R) (swo : option (list R)) (c : config Rnum) opt (o o' : poisson Rnum) c' b' :
  matrix n p X -> (0 < n)%nat -> length y = n -> match swo with Some s => length s = n | None => True end ->
  match coef_ o with Some v => length (v : list R) = p | None => True end ->
  standardize c = false -> constant_response (N := Rnum) y = false -> exact_optimizer opt ->
  poisson_fit (N := Rnum) c Lbfgs opt p X y swo o = (o', Ok tt) ->
  length c' = p -> (fit_intercept c = false -> b' = 0) ->
  exists v : list R, coef_ o' = Some v /\ length v = p /\
    objective n p X y (weights n swo) (alpha c) (l1_ratio c) v
      (if fit_intercept c then match intercept_ o' with Some b => b | None => 0 end else 0)
    <= objective n p X y (weights n swo) (alpha c) (l1_ratio c) c' b'.
Proof.
  intros HX Hn Hy Hsw Ho Hst Hcr Hopt Hfit Hc' Hb'.
  unfold poisson_fit in Hfit. rewrite Hcr, Hst, columns_ok in Hfit.
  set (s := fit_scaler (N := Rnum) (columns (N := Rnum) p X)) in *.
  set (c0 := start_coef (N := Rnum) c p s o) in *. set (b0 := start_intercept (N := Rnum) c o) in *.
  assert (Lc0 : length (c0 : list R) = p).
  { unfold c0, start_coef. destruct (coef_ o) as [v|]; [|apply repeat_length].
    destruct (warm_start c); [rewrite Hst; exact Ho|apply repeat_length]. }
  set (f := poisson_loss_and_grad (N := Rnum) p X y (nmul (n := Rnum) (alpha c) (nsub (n := Rnum) (none (N := Rnum)) (l1_ratio c))) swo) in *.
  set (w0 := if fit_intercept c then c0 ++ [b0] else c0) in *.
  destruct (opt f w0 (nmul (n := Rnum) (alpha c) (l1_ratio c)) p) as [w|e] eqn:Ew; [|discriminate].
  destruct (Hopt _ _ _ _ _ Ew) as [Lw Hw]. clear Ew.
  set (l2 := alpha c * (1 - l1_ratio c)).
  assert (Lval : forall v : list R, length v = p \/ length v = S p ->
     fst (f v) + alpha c * l1_ratio c * Sum p (fun j => Rabs (entry v j))
     = objective n p X y (weights n swo) (alpha c) (l1_ratio c) (firstn p v) (icpt p v)).
  { intros v Lv. transitivity (fst (plg p X y l2 swo v) + alpha c * l1_ratio c * Sum p (fun j => Rabs (entry v j))); [reflexivity|].
    rewrite (loss_value n p X y l2 swo HX Hn Hy Hsw v Lv). unfold objective, poisson_loss, penalty, l2.
    rewrite (Sum_ext p (fun j => Rabs (entry v j)) (fun j => Rabs (entry (firstn p v) j)))
      by (intros j Hj; now rewrite entry_firstn). field. apply not_0_INR. lia. }
  destruct (fit_intercept c) eqn:Fi; cbn [bind] in Hfit.
  - assert (Lw' : length (w : list R) = S p) by (unfold w0 in Lw; rewrite app_length in Lw; cbn in Lw; rr; lia).
    unfold poisson_post in Hfit. injection Hfit as <-. cbn [coef_ intercept_].
    exists (firstn p w). split; [reflexivity|]. split; [rewrite firstn_length; rr; lia|].
    specialize (Hw (c' ++ [b'])). rewrite app_length in Hw. unfold w0 in Hw. rewrite app_length in Hw. cbn [length] in Hw.
    specialize (Hw ltac:(rr; lia)). cbn [fst snd].
    pose proof (Lval w (or_intror Lw')) as V1.
    pose proof (Lval (c' ++ [b']) ltac:(right; rewrite app_length; cbn; lia)) as V2.
    assert (F2 : firstn p (c' ++ [b']) = c').
    { rewrite firstn_app, firstn_all2 by lia. rewrite Hc', Nat.sub_diag. cbn. apply app_nil_r. }
    assert (I2 : icpt p (c' ++ [b']) = b').
    { unfold icpt. rewrite app_length, Hc'. cbn [length]. replace (Nat.ltb p (p + 1)) with true by (symmetry; apply Nat.ltb_lt; lia). apply last_last. }
    assert (I1 : icpt p w = last (w : list R) 0).
    { unfold icpt. rr. rewrite Lw'. now rewrite (proj2 (Nat.ltb_lt p (S p))) by lia. }
    rewrite F2, I2 in V2. rewrite I1 in V1. revert V1 V2 Hw. rn. unfold nzero. rn. intros V1 V2 Hw. rr. rewrite <- V1, <- V2. exact Hw.
  - assert (Lw' : length (w : list R) = p) by (unfold w0 in Lw; rr; lia).
    unfold poisson_post in Hfit. injection Hfit as <-. cbn [coef_ intercept_].
    exists w. split; [reflexivity|]. split; [exact Lw'|].
    specialize (Hw c' ltac:(unfold w0; rr; lia)).
    pose proof (Lval w (or_introl Lw')) as V1. pose proof (Lval c' (or_introl Hc')) as V2.
    rewrite (firstn_all2 (n := p) c') in V2 by lia. rewrite (firstn_all2 (n := p) (w : list R)) in V1 by (rr; lia).
    assert (I : forall v : list R, length v = p -> icpt p v = 0).
    { intros v Lv. unfold icpt. rewrite Lv, Nat.ltb_irrefl. reflexivity. }
    rewrite I in V1, V2 by assumption. rewrite (Hb' eq_refl). rewrite <- V1, <- V2. exact Hw.
Qed.

(** ** A coefficient that coordinate descent loses *)
Definition lostX : list (list R) := [[1; 1]; [2; 0]; [0; 1]].
Definition losty : list R := [1; 6; 3].
Definition lost_loss (b1 b2 : R) : R := objective 3 2 lostX losty [1; 1; 1] 0 1 [b1; b2] 0.

Lemma lost_value b1 b2 : lost_loss b1 b2
  = / 3 * (exp (b1 + b2) + exp (2 * b1) + exp b2 - 13 * b1 - 4 * b2).
Proof.
  unfold lost_loss, objective, penalty, eta, Sum, mat, entry, lostX, losty. cbn [seq map fold_right nth INR].
  replace (0 + (1 * b1 + (1 * b2 + 0))) with (b1 + b2) by ring.
  replace (0 + (2 * b1 + (0 * b2 + 0))) with (2 * b1) by ring.
  replace (0 + (0 * b1 + (1 * b2 + 0))) with b2 by ring. field.
Qed.

Lemma exp_double x : exp (2 * x) = exp x * exp x.
Proof. rewrite <- exp_plus. f_equal. lra. Qed.

Lemma lost_not_optimal b1 : exists c1 c2, lost_loss c1 c2 < lost_loss b1 0.
Proof.
  destruct (Req_dec (exp b1) 3) as [H3|H3].
  - exists (ln (27 / 10)), 0. rewrite !lost_value. rewrite !Rplus_0_r, !exp_double, exp_0, H3, exp_ln by lra.
    assert (Hb : b1 = ln 3) by (rewrite <- H3; now rewrite ln_exp). rewrite Hb.
    assert (E : ln 3 = ln (27 / 10) + ln (10 / 9)) by (rewrite <- ln_mult by lra; f_equal; lra).
    assert (L : ln (10 / 9) <= / 9).
    { apply Rle_trans with (10 / 9 - 1); [|lra]. apply ln_le_sub1. lra. }
    rewrite E. lra.
  - set (u := exp b1) in *. exists b1, (ln (4 / (u + 1))). pose proof (exp_pos b1) as Hu. fold u in Hu.
    assert (Hq : 0 < 4 / (u + 1)) by (apply Rdiv_lt_0_compat; lra).
    rewrite !lost_value. rewrite exp_plus, exp_ln by assumption. fold u. rewrite Rplus_0_r, exp_0, exp_double. fold u.
    set (x := ln (4 / (u + 1))) in *.
    assert (Hx : x <> 0).
    { intro Hx. assert (E : 4 / (u + 1) = 1) by (rewrite <- (exp_ln _ Hq); fold x; rewrite Hx; apply exp_0).
      apply H3. assert (4 = u + 1); [|lra]. replace 4 with (4 / (u + 1) * (u + 1)) by (field; lra). rewrite E. ring. }
    assert (T : 1 + - x < exp (- x)) by (apply exp_ineq1; lra).
    rewrite exp_Ropp in T. unfold x in T at 2. rewrite exp_ln in T by assumption.
    replace (/ (4 / (u + 1))) with ((u + 1) / 4) in T by (field; lra).
    replace (u * (4 / (u + 1)) + u * u + 4 / (u + 1) - 13 * b1 - 4 * x) with (4 + u * u - 13 * b1 - 4 * x) by (field; lra). lra.
Qed.

Definition lost_config (tol : R) (m : nat) : config Rnum := mkConfig (N := Rnum) 0 1 false false m tol false.
Lemma lost_matrix : matrix 3 2 lostX.
Proof. split; [reflexivity|]. repeat constructor. Qed.

Lemma lost_working : adjusted_response (N := Rnum) lostX losty [0; 0] 0 = ([1; 1; 1], [0; 5; 2]).
Proof.
  unfold adjusted_response, matvec, ndot, nsum, lostX, losty, none, nzero. cbn [map map2 fold_right]. rn.
  replace (0 + (1 * 0 + (1 * 0 + 0))) with 0 by ring. replace (0 + (2 * 0 + (0 * 0 + 0))) with 0 by ring.
  replace (0 + (0 * 0 + (1 * 0 + 0))) with 0 by ring. rewrite exp_0.
  replace (0 + 1 / 1 - 1) with 0 by field. replace (0 + 6 / 1 - 1) with 5 by field. replace (0 + 3 / 1 - 1) with 2 by field. reflexivity.
Qed.

Lemma soft_0 x : soft x 0 = x.
Proof. destruct (soft_cases x 0 (Rle_refl 0)) as [[H ->]|[[H ->]|[H ->]]]; lra. Qed.

Lemma lost_sweep tol m : cd_iteration (N := Rnum) (lost_config tol m) lostX losty [1; 1; 1] (seq 0 2) ([0; 0], 0) = ([2; 0], 0).
Proof.
  unfold cd_iteration. cbn [fst snd]. rr. rewrite lost_working. cbn [fst snd].
  assert (E1 : map2 (nmul (n := Rnum)) [1; 1; 1] [1; 1; 1] = [1; 1; 1]) by (cbn [map2]; rn; now rewrite Rmult_1_l).
  rr. rewrite E1. unfold cd_sweep. cbn [lost_config fit_intercept seq fold_left].
  assert (Ez : nzero (N := Rnum) = 0) by reflexivity. rr. rewrite Ez.
  rewrite (update_value 3 2 lostX [1; 1; 1] [0; 5; 2] (lost_config tol m) lost_matrix ltac:(lia) eq_refl eq_refl [0; 0] 0 0 eq_refl ltac:(lia)).
  cbn [alpha l1_ratio lost_config]. rewrite Rmult_0_r, soft_0.
  assert (N1 : num 3 2 lostX [1; 1; 1] [0; 5; 2] [0; 0] 0 0 = 10 / 3).
  { unfold num, partial, eta, Sum, mat, entry, lostX, upd. cbn [seq map fold_right nth INR firstn skipn app]. field. }
  assert (D1 : den 3 lostX [1; 1; 1] 0 = 5 / 3).
  { unfold den, Sum, mat, entry, lostX. cbn [seq map fold_right nth INR]. field. }
  rewrite N1, D1. assert (U1 : upd [0; 0] 0 (10 / 3 / (5 / 3 + 0 * (1 - 1))) = [2; 0]).
  { unfold upd. cbn [firstn skipn app]. f_equal. field. }
  rr. rewrite U1.
  rewrite (update_value 3 2 lostX [1; 1; 1] [0; 5; 2] (lost_config tol m) lost_matrix ltac:(lia) eq_refl eq_refl [2; 0] 0 1 eq_refl ltac:(lia)).
  cbn [alpha l1_ratio lost_config]. rewrite Rmult_0_r, soft_0.
  assert (N2 : num 3 2 lostX [1; 1; 1] [0; 5; 2] [2; 0] 0 1 = 0).
  { unfold num, partial, eta, Sum, mat, entry, lostX, upd. cbn [seq map fold_right nth INR firstn skipn app]. field. }
  rewrite N2. unfold upd. cbn [firstn skipn app]. f_equal. f_equal. f_equal. unfold Rdiv. apply Rmult_0_l.
Qed.

Lemma lost_first tol opt : poisson_fit (N := Rnum) (lost_config tol 1) Cd opt 2 lostX losty None fresh_poisson
  = (mkPoisson (N := Rnum) (Some [2; 0]) None, Ok tt).
Proof.
  unfold poisson_fit. assert (Hc : constant_response (N := Rnum) losty = false).
  { unfold constant_response, losty. cbn [forallb]. rn. unfold Reqb. destruct (Req_EM_T 1 6); [lra|]. reflexivity. }
  rewrite Hc. change (standardize (lost_config tol 1)) with false. rewrite columns_ok.
  unfold cd. change (warm_start (lost_config tol 1)) with false. cbn [andb].
  assert (E0 : start_coef (N := Rnum) (lost_config tol 1) 2 (fit_scaler (N := Rnum) (columns (N := Rnum) 2 lostX)) fresh_poisson = [0; 0]) by reflexivity.
  assert (E1 : start_intercept (N := Rnum) (lost_config tol 1) fresh_poisson = 0) by reflexivity.
  assert (E2 : ones (N := Rnum) (length lostX) = [1; 1; 1]) by reflexivity.
  rr. rewrite E0, E1, E2. change (length [0; 0]) with 2%nat.
  assert (EL : cd_loop (N := Rnum) (lost_config tol 1) lostX losty [1; 1; 1] 1 (seq 0 2) ([0; 0], 0) = ([2; 0], 0)).
  { cbn [cd_loop]. rr. rewrite lost_sweep. destruct (nltb _ _); reflexivity. }
  change (max_iter (lost_config tol 1)) with 1%nat. rr. rewrite EL. reflexivity.
Qed.

Lemma lost_forever tol m opt : (0 < m)%nat -> exists b1 b, 
  poisson_fit (N := Rnum) (lost_config tol m) Cd opt 2 lostX losty None fresh_poisson
  = (mkPoisson (N := Rnum) (Some [b1; 0]) b, Ok tt).
Proof.
  intro Hm. pose proof (zero_final (N := Rnum) zero0_R (lost_config tol 1) opt 2 lostX losty None fresh_poisson 0 (m - 1) 1
    [2; 0] None ltac:(discriminate) I ltac:(lia) (lost_first tol opt) ltac:(now apply zero_R)) as (v2 & b2 & E & Z).
  replace (1 + (m - 1))%nat with m in E by lia. change (with_iter (lost_config tol 1) m) with (lost_config tol m) in E.
  apply zero_R in Z.
  assert (L : length (v2 : list R) = 2%nat).
  { revert E. unfold poisson_fit. destruct (constant_response _); [intros [= <- _]; reflexivity|].
    change (standardize (lost_config tol m)) with false. unfold cd. change (warm_start (lost_config tol m)) with false. cbn [andb].
    set (s := cd_loop _ _ _ _ _ _ _). assert (Ls : length (fst s) = 2%nat).
    { unfold s. rewrite loop_length. reflexivity. }
    destruct s as [v b]. intros [= <- _]. exact Ls. }
  destruct v2 as [|b1 [|z [|? ?]]]; cbn in L; try lia. cbn in Z. subst z. exists b1, b2. exact E.
Qed.

(** ** Statements for Props_Poisson.v *)
Lemma poisson_loss_parts n p X (y : list R) l2 sw (c : list R) b : matrix n p X -> (0 < n)%nat -> length y = n ->
  match sw with Some s => length s = n | None => True end -> length c = p ->
  fst (poisson_loss_and_grad (N := Rnum) p X y l2 sw c) = poisson_loss n p X y (sample_weights n sw) l2 c 0 /\
  fst (poisson_loss_and_grad (N := Rnum) p X y l2 sw (c ++ [b])) = poisson_loss n p X y (sample_weights n sw) l2 c b.
Proof.
  intros HX Hn Hy Hs Hc. split.
  - refine (eq_trans (loss_value n p X y l2 sw HX Hn Hy Hs c (or_introl Hc)) _).
    unfold icpt. rewrite Hc, Nat.ltb_irrefl, firstn_all2 by lia. reflexivity.
  - refine (eq_trans (loss_value n p X y l2 sw HX Hn Hy Hs (c ++ [b]) _) _); [right; rewrite app_length; cbn; lia|].
    unfold icpt. rewrite app_length, Hc. cbn [length]. replace (Nat.ltb p (p + 1)) with true by (symmetry; apply Nat.ltb_lt; lia).
    rewrite last_last, firstn_app, firstn_all2, Hc, Nat.sub_diag, firstn_O, app_nil_r by lia. reflexivity.
Qed.

Lemma sweep_descends n p X (w z : list R) (c : config Rnum) (coef : list R) b active :
  matrix n p X -> (0 < n)%nat -> length w = n -> length z = n -> (forall i, (i < n)%nat -> 0 <= entry w i) ->
  0 <= (alpha c : R) -> 0 <= (l1_ratio c : R) <= 1 -> length coef = p ->
  (forall j, In j active -> (j < p)%nat /\
     (0 < alpha c * (1 - l1_ratio c) \/ 0 < Sum n (fun i => entry w i * (mat X i j * mat X i j)))) ->
  (if fit_intercept c then 0 < Sum n (fun i => entry w i) else b = 0) ->
  let r := cd_sweep (N := Rnum) c X w z active coef in
  quad n p X w z (alpha c) (l1_ratio c) (fst r) (snd r) <= quad n p X w z (alpha c) (l1_ratio c) coef b.
Proof.
  intros HX Hn Hw Hz Hw0 Hl Hm Hc Ha Hb. apply (sweep_decrease n p X w z c HX Hn Hw Hz Hl Hm coef b active Hc); [|exact Hb].
  intros j Hj. destruct (Ha j Hj) as [Hjp Hd]. split; [exact Hjp|]. unfold den.
  assert (HN : 0 < / INR n) by (apply Rinv_0_lt_compat, lt_0_INR; lia).
  assert (Hs : 0 <= Sum n (fun i => entry w i * (mat X i j * mat X i j))).
  { apply Sum_nonneg. intros i Hi. apply Rmult_le_pos; [auto|apply Rle_0_sqr]. }
  assert (H1 : 0 <= Sum n (fun i => entry w i * (mat X i j * mat X i j)) / INR n) by (apply Rmult_le_pos; lra).
  assert (H2 : 0 <= alpha c * (1 - l1_ratio c)) by (apply Rmult_le_pos; lra).
  destruct Hd as [Hd|Hd]; [lra|]. assert (0 < Sum n (fun i => entry w i * (mat X i j * mat X i j)) / INR n) by (now apply Rmult_lt_0_compat). lra.
Qed.

Lemma one_coordinate n p X (w z : list R) (c : config Rnum) (coef : list R) b j v :
  matrix n p X -> (0 < n)%nat -> length w = n -> length z = n -> (forall i, (i < n)%nat -> 0 <= entry w i) ->
  0 <= (alpha c : R) -> 0 <= (l1_ratio c : R) <= 1 -> length coef = p -> (j < p)%nat ->
  0 < alpha c * (1 - l1_ratio c) \/ 0 < Sum n (fun i => entry w i * (mat X i j * mat X i j)) ->
  exists u, cd_update (N := Rnum) c X w z b coef j = upd coef j u /\
  quad n p X w z (alpha c) (l1_ratio c) (upd coef j u) b <= quad n p X w z (alpha c) (l1_ratio c) (upd coef j v) b.
Proof.
  intros HX Hn Hw Hz Hw0 Hl Hm Hc Hj Hd.
  assert (HN : 0 < / INR n) by (apply Rinv_0_lt_compat, lt_0_INR; lia).
  assert (Hs : 0 <= Sum n (fun i => entry w i * (mat X i j * mat X i j))).
  { apply Sum_nonneg. intros i Hi. apply Rmult_le_pos; [auto|apply Rle_0_sqr]. }
  assert (H1 : 0 <= Sum n (fun i => entry w i * (mat X i j * mat X i j)) / INR n) by (apply Rmult_le_pos; lra).
  assert (H2 : 0 <= alpha c * (1 - l1_ratio c)) by (apply Rmult_le_pos; lra).
  assert (HD : 0 < den n X w j + alpha c * (1 - l1_ratio c)).
  { unfold den. destruct Hd as [Hd|Hd]; [lra|]. assert (0 < Sum n (fun i => entry w i * (mat X i j * mat X i j)) / INR n) by (now apply Rmult_lt_0_compat). lra. }
  pose proof (update_optimal n p X w z c HX Hn Hw Hz Hl Hm coef b j v Hc Hj HD) as Q.
  rewrite (update_value n p X w z c HX Hn Hw Hz coef b j Hc Hj) in Q |- *. eexists. split; [reflexivity|exact Q].
Qed.

Lemma warm_fit_R (c : config Rnum) opt p X (y : list R) sw (o : poisson Rnum) :
  warm_start c = true ->
  match coef_ o with Some v => v = repeat 0 p | None => True end ->
  exists b, poisson_fit (N := Rnum) c Cd opt p X y sw o = (mkPoisson (N := Rnum) (Some (repeat 0 p)) b, Ok tt).
Proof.
  intros Hw Ho.
  destruct (warm_fit (N := Rnum) zero0_R c opt p X y sw o Hw) as (v & b & E & L & Z).
  - intros _. eapply Forall_impl; [|exact (scales_R p X)]. intros s Hs. now apply keeps_R.
  - unfold zero_object. destruct (coef_ o) as [v|]; [|trivial]. subst v. split; [apply repeat_length|apply (zeros_repeat (N := Rnum) zero0_R)].
  - exists b. rewrite E. assert (Ev : v = repeat 0 p); [|now rewrite Ev].
    clear -L Z. subst p. induction Z as [|a v H Z IH]; [reflexivity|]. cbn. f_equal; [now apply zero_R|exact IH].
Qed.

Lemma warm_history_R opt p (h : list (call (N := Rnum))) :
  Forall (fun k => match k with CallFit c _ _ _ => warm_start c = true | CallReset => True end) h ->
  match coef_ (calls (N := Rnum) Cd opt p h fresh_poisson) with Some v => v = repeat 0 p | None => True end.
Proof.
  intro H. pose proof (warm_history (N := Rnum) zero0_R mul0_R opt p h fresh_poisson I) as W.
  assert (F : Forall (fine_call (N := Rnum) p) h).
  { eapply Forall_impl; [|exact H]. intros [c X y sw|] Hk; [|exact I]. split; [exact Hk|]. intros _.
    eapply Forall_impl; [|exact (scales_R p X)]. intros s Hs. now apply keeps_R. }
  specialize (W F). unfold zero_object in W. destruct (coef_ _) as [v|]; [|trivial]. destruct W as [L Z].
  clear -L Z. subst p. induction Z as [|a v Hz Z IH]; [reflexivity|]. cbn. f_equal; [now apply zero_R|exact IH].
Qed.

Lemma warm_history_F e l opt p (h : list (call (N := Fnum e l))) :
  Forall (fun k => match k with
    | CallFit c X _ _ => warm_start c = true /\ (standardize c = true -> Forall proper (scale_ (fit_scaler (N := Fnum e l) (columns p X))))
    | CallReset => True end) h ->
  match coef_ (calls Cd opt p h fresh_poisson) with
  | Some v => length v = p /\ Forall (fun x => nonzero64 x = false) v | None => True end.
Proof.
  intro H. pose proof (warm_history (N := Fnum e l) (zero0_F e l) (mul0_F e l) opt p h fresh_poisson I) as W.
  assert (F : Forall (fine_call (N := Fnum e l) p) h).
  { eapply Forall_impl; [|exact H]. intros [c X y sw|] Hk; [|exact I]. destruct Hk as [Hk Hs]. split; [exact Hk|]. intro Hst.
    eapply Forall_impl; [|exact (Hs Hst)]. intros s Hp. now apply keeps_F. }
  specialize (W F). unfold zero_object in W. destruct (coef_ _) as [v|]; [|trivial]. destruct W as [L Z].
  split; [exact L|]. eapply Forall_impl; [|exact Z]. intros x Hx. now apply (zero_F e l) in Hx.
Qed.

Lemma zero_final_R (c : config Rnum) opt p X (y : list R) sw (o : poisson Rnum) m k j v1 b1 :
  match coef_ o with Some v => length (v : list R) = p | None => True end -> (j < p)%nat ->
  poisson_fit (N := Rnum) (with_iter c (S m)) Cd opt p X y sw o = (mkPoisson (N := Rnum) (Some v1) b1, Ok tt) ->
  entry v1 j = 0 ->
  exists v2 b2, poisson_fit (N := Rnum) (with_iter c (S m + k)) Cd opt p X y sw o = (mkPoisson (N := Rnum) (Some v2) b2, Ok tt) /\
    entry v2 j = 0.
Proof.
  intros Ho Hj Hf Hz.
  destruct (zero_final (N := Rnum) zero0_R c opt p X y sw o m k j v1 b1) as (v2 & b2 & E & Z); auto.
  - intros _. eapply Forall_impl; [|exact (scales_R p X)]. intros s Hs. now apply exact_R.
  - now apply zero_R.
  - exists v2, b2. split; [exact E|now apply zero_R].
Qed.

Lemma zero_final_F e l (c : config (Fnum e l)) opt p X y sw (o : poisson (Fnum e l)) m k j v1 b1 :
  standardize c = false ->
  match coef_ o with Some v => length v = p | None => True end -> (j < p)%nat ->
  poisson_fit (with_iter c (S m)) Cd opt p X y sw o = (mkPoisson (Some v1) b1, Ok tt) ->
  nonzero64 (nth j v1 fzero) = false ->
  exists v2 b2, poisson_fit (with_iter c (S m + k)) Cd opt p X y sw o = (mkPoisson (Some v2) b2, Ok tt) /\
    nonzero64 (nth j v2 fzero) = false.
Proof.
  intros Hst Ho Hj Hf Hz.
  destruct (zero_final (N := Fnum e l) (zero0_F e l) c opt p X y sw o m k j v1 b1) as (v2 & b2 & E & Z); auto.
  - intro H. congruence.
  - now apply zero_F.
  - exists v2, b2. split; [exact E|]. now apply (zero_F e l) in Z.
Qed.

Lemma stale_prediction {N : NumOps} sv opt p h1 c X y sw h2 (v : list N) Xn :
  Forall no_intercept h2 -> Forall varying h2 -> constant_response y = true ->
  let o := calls sv opt p (h1 ++ CallFit c X y sw :: h2) fresh_poisson in
  coef_ o = Some v ->
  predict_mean o Xn = Ok (map (fun m => nexp (nadd (log_mean y) m)) (matvec Xn v)).
Proof.
  intros H1 H2 Hy o Hv. unfold predict_mean. rewrite Hv.
  unfold o. rewrite (stale_intercept sv opt p h1 c X y sw h2 fresh_poisson H1 H2 Hy). reflexivity.
Qed.

Lemma never_fitted {N : NumOps} sv opt p (h : list (call (N := N))) floor X :
  Forall (fun k => match k with
    | CallFit c _ y _ => fit_intercept c = false /\ constant_response y = false | CallReset => False end) h ->
  predict_mean (calls sv opt p h fresh_poisson) X = Raise NotFittedError /\
  predict floor (calls sv opt p h fresh_poisson) X = Raise NotFittedError.
Proof.
  intro H. apply unfitted_predict. rewrite history_keeps_intercept; [reflexivity| |];
    (eapply Forall_impl; [|exact H]); intros [c X' y sw|] Hk; cbn in *; tauto.
Qed.
Lemma stale_prediction' {N : NumOps} sv opt p h1 c X y sw h2 (v : list N) Xn :
  Forall (fun k => match k with
    | CallFit c _ y _ => fit_intercept c = false /\ constant_response y = false | CallReset => False end) h2 ->
  constant_response y = true ->
  let o := calls sv opt p (h1 ++ CallFit c X y sw :: h2) fresh_poisson in
  coef_ o = Some v ->
  predict_mean o Xn = Ok (map (fun m => nexp (nadd (log_mean y) m)) (matvec Xn v)).
Proof.
  intro H. apply stale_prediction; (eapply Forall_impl; [|exact H]); intros [c' X' y' sw'|] Hk; cbn in *; tauto.
Qed.
Lemma estimation_fails {N : NumOps} c sv opt tasks :
  fit_intercept c = false ->
  (forall p (X : list (list N)) y X', In (Some (p, X, y, X')) tasks -> constant_response y = false) ->
  (exists t, In (Some t) tasks) ->
  (exists e, estimation c sv opt tasks fresh_poisson = Raise e) /\
  (sv = Cd -> warm_start c = false -> estimation c sv opt tasks fresh_poisson = Raise NotFittedError).
Proof.
  intros Hf Hv He. split; [now apply estimation_raises|]. intros -> Hw. now apply estimation_not_fitted.
Qed.

Lemma grid_facts p X (y : list R) (eps : R) num (mix : R) :
  let l := poisson_lambda_max (N := Rnum) p X y mix in
  let g := poisson_grid (N := Rnum) p X y eps num mix in
  0 < l -> 0 < eps < 1 -> (1 < num)%nat ->
  length g = num /\ entry g 0 = l /\ entry g (num - 1) = eps * l /\
  (forall i, (i < num)%nat -> entry g i = l * Rpower eps (INR i / INR (num - 1))) /\
  (forall i j, (i < j < num)%nat -> entry g j < entry g i).
Proof.
  intros l g Hl He Hn.
  assert (V : forall i, (i < num)%nat -> entry g i = l * Rpower eps (INR i / INR (num - 1))).
  { intros i Hi. apply grid_value; [exact Hl|lra|exact Hi]. }
  assert (HM : INR (num - 1) <> 0) by (apply not_0_INR; lia).
  split; [apply grid_length|]. split; [|split; [|split; [exact V|]]].
  - rewrite V by lia. change (INR 0) with 0. unfold Rdiv. rewrite Rmult_0_l, Rpower_O by lra. ring.
  - rewrite V by lia. replace (INR (num - 1) / INR (num - 1)) with 1 by (now field). rewrite Rpower_1 by lra. ring.
  - intros i j Hij. rewrite !V by lia. now apply grid_decreasing.
Qed.

Lemma all_pairs p X (y : list R) (eps : R) num (alphas : list R) :
  let ps := poisson_reg_params (N := Rnum) p X y eps num alphas in
  length ps = (length alphas * num)%nat /\
  forall a i, (a < length alphas)%nat -> (i < num)%nat ->
  nth_error ps (a * num + i)
  = Some (RegPair (entry (poisson_grid (N := Rnum) p X y eps num (entry alphas a)) i) (entry alphas a)).
Proof.
  intro ps. split.
  - apply (pairs_length (poisson_grid (N := Rnum) p X y eps num)). intros; apply grid_length.
  - intros a i Ha Hi. apply (pairs_nth (poisson_grid (N := Rnum) p X y eps num) num alphas a i 0 0); auto. intros; apply grid_length.
Qed.
