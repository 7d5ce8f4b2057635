(** The 'lbfgs' solver of Poisson with the modelled optimizer (C92). *)
From Coq Require Import ZArith List Bool Arith Lia Reals Lra.
From Verif Require Import Prelude Num Model_Rescale Model_Refit Spec_Rescale Proofs_Rescale
  Model_Poisson Spec_Poisson Deriv Proofs_Poisson Proofs_PoissonOpt Proofs_PoissonFit
  Model_Lbfgs Spec_Lbfgs Proofs_Lbfgs Proofs_LbfgsTop Proofs_LbfgsCurv Proofs_LbfgsMain Proofs_LbfgsStop Proofs_LogisticConvex Proofs_LogisticOpt Model_PoissonFit.
Import ListNotations.
Local Open Scope R_scope.

Lemma icpt_none p (u : list R) : length u = p -> icpt p u = 0.
Proof. intros L. unfold icpt. rewrite L, Nat.ltb_irrefl. reflexivity. Qed.
Lemma icpt_last p (u : list R) : length u = S p -> icpt p u = entry u p.
Proof.
  intros L. unfold icpt. rewrite L, (proj2 (Nat.ltb_lt p (S p))) by lia.
  destruct (exists_last (l := u)) as (l & a & ->); [intros ->; discriminate|].
  rewrite app_length in L. cbn in L. rewrite last_last. unfold entry. rewrite app_nth2 by lia. replace (p - length l)%nat with 0%nat by lia. reflexivity.
Qed.

Section Gap.
  Variables (n p : nat) (X : list (list R)) (y : list R) (l2 : R) (swo : option (list R)).
  Hypothesis HX : matrix n p X.
  Hypothesis Hn : (0 < n)%nat.
  Hypothesis Hy : length y = n.
  Hypothesis Hsw : match swo with Some s => length s = n | None => True end.
  Hypothesis Hpos : forall i, (i < n)%nat -> 0 <= entry (weights n swo) i.
  Hypothesis Hl2 : 0 <= l2.

  Notation F := (fun w => fst (plg p X y l2 swo w)).
  Notation G := (fun w => snd (plg p X y l2 swo w)).

  Lemma poisson_computes q : q = p \/ q = S p ->
    computes (St := unit) q nowhere (poisson_objective (N := Rnum) (poisson_loss_and_grad (N := Rnum) p X y l2 swo)) F G.
  Proof.
    intros Hq st x g Lx _. split; [reflexivity|]. split.
    - transitivity (length x); [|exact Lx]. eapply grad_length; try eassumption. lia.
    - intros i C. discriminate C.
  Qed.

  Lemma poisson_tangent q : q = p \/ q = S p -> above_tangents q F G.
  Proof.
    intros Hq u v Lu Lv.
    assert (Du : length u = p \/ length u = S p) by lia. assert (Dv : length v = p \/ length v = S p) by lia.
    rewrite (loss_value n p X y l2 swo HX Hn Hy Hsw u Du), (loss_value n p X y l2 swo HX Hn Hy Hsw v Dv).
    pose proof (gap n p X y (weights n swo) Hn Hpos (firstn p v) (icpt p v) (firstn p u) (icpt p u)) as T.
    assert (Eg : Sum p (fun i => entry (snd (plg p X y l2 swo u)) i * (entry v i - entry u i))
       = - Sum p (fun j => (entry (firstn p v) j - entry (firstn p u) j) * score n p X y (weights n swo) (firstn p u) (icpt p u) j)
         + l2 * Sum p (fun j => entry u j * (entry v j - entry u j))).
    { transitivity (Sum p (fun j => (-1) * ((entry (firstn p v) j - entry (firstn p u) j) * score n p X y (weights n swo) (firstn p u) (icpt p u) j) + l2 * (entry u j * (entry v j - entry u j)))).
      - apply Sum_ext. intros j Hj. rewrite (grad_coef n p X y l2 swo HX Hn Hy Hsw u j Du Hj), !(entry_firstn p) by assumption.
        unfold score. rewrite (Sum_ext n (fun i => entry (weights n swo) i * (entry y i - exp (eta p X (firstn p u) (icpt p u) i)) * mat X i j)
           (fun i => (-1) * (entry (weights n swo) i * (exp (eta p X (firstn p u) (icpt p u) i) - entry y i) * mat X i j))) by (intros; ring).
        rewrite Sum_scal. ring.
      - rewrite Sum_plus, !Sum_scal. ring. }
    assert (Eq : Sum p (fun j => entry u j * entry u j) + 2 * Sum p (fun j => entry u j * (entry v j - entry u j)) <= Sum p (fun j => entry v j * entry v j)).
    { rewrite <- Sum_scal, <- Sum_plus. apply Sum_le. intros j _. pose proof (Rle_0_sqr (entry v j - entry u j)) as S2. unfold Rsqr in S2. lra. }
    assert (Ef : forall w : list R, Sum p (fun j => entry (firstn p w) j * entry (firstn p w) j) = Sum p (fun j => entry w j * entry w j)).
    { intros w. apply Sum_ext. intros j Hj. now rewrite (entry_firstn p). }
    unfold poisson_loss. rewrite !Ef.
    assert (El : l2 / 2 * Sum p (fun j => entry u j * entry u j) + l2 * Sum p (fun j => entry u j * (entry v j - entry u j)) <= l2 / 2 * Sum p (fun j => entry v j * entry v j)).
    { pose proof (Rmult_le_compat_l (l2 / 2) _ _ ltac:(lra) Eq). lra. }
    destruct Hq as [-> | ->].
    - unfold along. rewrite Eg. rewrite (icpt_none p u), (icpt_none p v) in * by assumption. lra.
    - unfold along. rewrite Sum_S. rewrite Eg. rewrite (grad_icpt n p X y l2 swo HX Hn Hy Hsw u Lu).
      assert (Es : score0 n p X y (weights n swo) (firstn p u) (icpt p u)
         = - (/ INR n * Sum n (fun i => entry (weights n swo) i * (exp (eta p X (firstn p u) (icpt p u) i) - entry y i)))).
      { unfold score0. rewrite (Sum_ext n (fun i => entry (weights n swo) i * (entry y i - exp (eta p X (firstn p u) (icpt p u) i)))
           (fun i => (-1) * (entry (weights n swo) i * (exp (eta p X (firstn p u) (icpt p u) i) - entry y i)))) by (intros; ring).
        rewrite Sum_scal. ring. }
      rewrite Es in T. rewrite (icpt_last p u), (icpt_last p v) in * by assumption. lra.
  Qed.
End Gap.

Lemma fit_gap n p X (y : list R) (swo : option (list R)) (c : config Rnum) fuel lsfuel (o o' : poisson Rnum) :
  matrix n p X -> (0 < n)%nat -> length y = n -> match swo with Some s => length s = n | None => True end ->
  (forall i, (i < n)%nat -> 0 <= entry (weights n swo) i) -> 0 <= alpha c * (1 - l1_ratio c) ->
  match coef_ o with Some v => length (v : list R) = p | None => True end ->
  standardize c = false -> constant_response (N := Rnum) y = false ->
  poisson_fit (N := Rnum) c Lbfgs (lbfgs_opt (N := Rnum) true (tol c) (max_iter c) fuel lsfuel) p X y swo o = (o', Ok tt) ->
  exists v : list R, coef_ o' = Some v /\ length v = p /\
    let b : R := if fit_intercept c then match intercept_ o' with Some b => b | None => 0 end else 0 in
    forall (c' : list R) (b' : R), length c' = p -> (fit_intercept c = false -> b' = 0) ->
    Spec_Poisson.objective n p X y (weights n swo) (alpha c) (l1_ratio c) v b - Spec_Poisson.objective n p X y (weights n swo) (alpha c) (l1_ratio c) c' b'
    <= tol c * Rmax 1 (norm (S p) (v ++ [b])) * distance (S p) (v ++ [b]) (c' ++ [b']).
Proof.
  intros HX Hn Hy Hsw Hpos Hl2 Ho Hst Hcr Hfit.
  unfold poisson_fit in Hfit. rewrite Hcr, Hst, columns_ok in Hfit.
  set (s := fit_scaler (N := Rnum) (columns (N := Rnum) p X)) in *.
  set (c0 := start_coef (N := Rnum) c p s o) in *. set (b0 := start_intercept (N := Rnum) c o) in *.
  assert (Lc0 : length (c0 : list R) = p).
  { unfold c0, start_coef. destruct (coef_ o) as [v|]; [|apply repeat_length].
    destruct (warm_start c); [rewrite Hst; exact Ho|apply repeat_length]. }
  set (f := poisson_loss_and_grad (N := Rnum) p X y (nmul (n := Rnum) (alpha c) (nsub (n := Rnum) (none (N := Rnum)) (l1_ratio c))) swo) in *.
  set (w0 := if fit_intercept c then c0 ++ [b0] else c0) in *.
  set (l1p := nmul (n := Rnum) (alpha c) (l1_ratio c)) in *.
  destruct (lbfgs_opt (N := Rnum) true (tol c) (max_iter c) fuel lsfuel f w0 l1p p) as [w|e] eqn:Ew; [|discriminate].
  set (l2 := alpha c * (1 - l1_ratio c)) in *.
  set (O := poisson_options (N := Rnum) (tol c) (max_iter c) l1p p).
  assert (Er : exists st', fmin_lbfgs O (poisson_objective (N := Rnum) f) None fuel lsfuel tt w0 = Some (st', Returned (N := Rnum) w None)).
  { unfold lbfgs_opt in Ew. fold O in Ew. destruct (fmin_lbfgs O _ None fuel lsfuel tt w0) as [[st' [x [wn|]|ex|]]|]; try discriminate.
    injection Ew as ->. exists st'. reflexivity. }
  destruct Er as (st' & Er). clear Ew.
  set (q := (p + if fit_intercept c then 1 else 0)%nat).
  assert (Hq : q = p \/ q = S p) by (unfold q; destruct (fit_intercept c); lia).
  assert (L0 : length (w0 : list R) = q) by (unfold w0, q; destruct (fit_intercept c); rewrite ?app_length; cbn [length]; rr; lia).
  pose proof (poisson_computes n p X y l2 swo HX Hn Hy Hsw q Hq) as Hf.
  assert (V0 : vanishes nowhere w0) by (intros i C; discriminate C).
  assert (Hsay : never_says (N := Rnum) (St := unit) 2 None) by (intros h st k C; discriminate C).
  assert (Lw : length (w : list R) = q).
  { destruct (returned_stationary q nowhere O _ None _ _ fuel lsfuel tt w0 st' w Hf L0 V0 Hsay Er) as (_ & _ & L & _). exact L. }
  assert (Pv : forall u : list R, length u = q ->
     penalized O q (fun w => fst (plg p X y l2 swo w)) u = Spec_Poisson.objective n p X y (weights n swo) (alpha c) (l1_ratio c) (firstn p u) (icpt p u)).
  { intros u Lu. assert (Du : length u = p \/ length u = S p) by lia.
    unfold penalized. rewrite (loss_value n p X y l2 swo HX Hn Hy Hsw u Du).
    assert (E1 : l1 (range_start O) (range_end O q) u = Sum p (fun j => Rabs (entry (firstn p u) j))).
    { unfold l1, range_start, range_end. cbn [O poisson_options o_start o_end default_options].
      destruct (Z.ltb_spec (Z.of_nat p) 0); [lia|]. rewrite Nat2Z.id. change (Z.to_nat 0) with 0%nat. rewrite Nat.sub_0_r.
      apply Sum_ext. intros i Hi. rewrite (entry_firstn p) by assumption. reflexivity. }
    rewrite E1. change (o_c O) with (alpha c * l1_ratio c). unfold Spec_Poisson.objective, poisson_loss, penalty, l2.
    field. apply not_0_INR. lia. }
  set (v := firstn p w : list R). set (b := icpt p w).
  assert (Lv : length v = p) by (unfold v; rewrite firstn_length; rr; lia).
  assert (Gap : forall (c' : list R) (b' : R), length c' = p -> (fit_intercept c = false -> b' = 0) ->
    Spec_Poisson.objective n p X y (weights n swo) (alpha c) (l1_ratio c) v b - Spec_Poisson.objective n p X y (weights n swo) (alpha c) (l1_ratio c) c' b'
    <= tol c * Rmax 1 (norm (S p) (v ++ [b])) * distance (S p) (v ++ [b]) (c' ++ [b'])).
  { intros c' b' Lc' Hb'. set (w' := c' ++ if fit_intercept c then [b'] else []).
    assert (Lw' : length w' = q) by (unfold w', q; rewrite app_length, Lc'; destruct (fit_intercept c); reflexivity).
    pose proof (returned_gap q nowhere O _ None _ _ fuel lsfuel tt w0 Hf L0 V0 st' w w' Hsay
       (poisson_tangent n p X y l2 swo HX Hn Hy Hsw Hpos Hl2 q Hq) Lw' Er) as Gp.
    assert (E1 : firstn p w' = c') by (unfold w'; rewrite firstn_app, firstn_all2 by lia; rewrite Lc', Nat.sub_diag; cbn; apply app_nil_r).
    assert (E2 : icpt p w' = b').
    { unfold w'. destruct (fit_intercept c) eqn:Fi.
      - rewrite icpt_last by (rewrite app_length; cbn; lia). rewrite <- Lc'. apply entry_app2.
      - rewrite app_nil_r, icpt_none by assumption. symmetry. now apply Hb'. }
    rewrite (Pv w Lw), (Pv w' Lw'), E1, E2 in Gp. fold v b in Gp. change (o_epsilon O) with (tol c) in Gp.
    assert (Ew : (w : list R) = v ++ if fit_intercept c then [b] else []).
    { unfold v, b, q in *. destruct (fit_intercept c).
      - rewrite icpt_last by (rr; lia). transitivity (firstn p (w : list R) ++ skipn p (w : list R)); [symmetry; apply firstn_skipn|]. f_equal.
        apply (nth_ext _ _ 0 0); rewrite skipn_length; cbn [length]; [rr; lia|]. intros i Hi. assert (i = 0%nat) by (rr; lia). subst i.
        cbn [nth]. rewrite nth_skipn || idtac. unfold entry. clear. generalize (w : list R). induction p as [|k IH]; intros [|a l]; try reflexivity. cbn [skipn nth]. apply IH.
      - rewrite app_nil_r. symmetry. apply firstn_all2. rr. lia. }
    unfold q in Gp. destruct (fit_intercept c) eqn:Fi.
    - rewrite <- Ew. unfold w' in Gp. rewrite Nat.add_1_r in Gp. exact Gp.
    - rewrite Nat.add_0_r in Gp. assert (B0 : b = 0) by (unfold b; apply icpt_none; unfold q in Lw; rr; lia).
      rewrite B0, (Hb' eq_refl) in *. rewrite <- norm_pad, <- distance_pad by assumption.
      rewrite app_nil_r in Ew. unfold w' in Gp. rewrite app_nil_r in Gp. clear - Gp Ew.
      assert (Ev : v = firstn p w) by reflexivity. clearbody v. subst v.
      match type of Gp with context [@firstn ?T ?k ?l] => assert (Ev' : @firstn T k l = w) by (symmetry; exact Ev); rewrite Ev' in Gp end. exact Gp. }
  destruct (fit_intercept c) eqn:Fi; cbn [bind] in Hfit; unfold poisson_post in Hfit; injection Hfit as <-; cbn [coef_ intercept_ fst snd].
  - exists v. split; [reflexivity|]. split; [exact Lv|]. cbv zeta.
    match goal with |- context [@last ?T w ?z] => assert (Eb : @last T w z = b) end.
    { unfold b, icpt. unfold q in Lw. rr. rewrite Lw. rewrite (proj2 (Nat.ltb_lt p (p + 1))) by lia. reflexivity. }
    rewrite Eb. exact Gap.
  - exists v. split; [|split; [exact Lv|]].
    + f_equal. unfold v. symmetry. apply firstn_all2. unfold q in Lw. rr. lia.
    + cbv zeta. assert (B0 : b = 0) by (unfold b; apply icpt_none; unfold q in Lw; rr; lia). rewrite B0 in Gap. exact Gap.
Qed.

(** The limits of a run. *)
Lemma poisson_calls {N : NumOps} (f : list N -> N * list N) w0 tol mi l1 p fuel lsfuel :
  (0 < mi)%nat -> (mi <= fuel)%nat -> (20 <= lsfuel)%nat ->
  exists calls reports out,
    fmin_lbfgs (poisson_options tol mi l1 p) (count_calls (poisson_objective f)) None fuel lsfuel (tt, (0%nat, 0%nat)) w0
      = Some ((tt, (calls, reports)), out) /\
    fmin_lbfgs (poisson_options tol mi l1 p) (poisson_objective f) None fuel lsfuel tt w0 = Some (tt, out) /\
    (calls <= 1 + 20 * mi)%nat.
Proof.
  intros H1 H2 H3.
  destruct (calls_bounded (poisson_options tol mi l1 p) (poisson_objective f) None fuel lsfuel tt w0)
    as ([] & calls & reports & out & E & E' & B & _).
  - cbn. lia.
  - cbn. lia.
  - cbn. lia.
  - exists calls, reports, out. split; [exact E|]. split; [exact E'|]. unfold poisson_options in B. cbn [o_max_iterations o_max_linesearch default_options] in B.
    rewrite Z.max_r in B by lia. lia.
Qed.
