(** Copies of a feature in UoI_Poisson (C132). *)
From Coq Require Import ZArith String List Bool Arith Lia Reals Lra Psatz.
From Verif Require Import Prelude F64 Num Model_Intersection Model_Fit Model_Scores Model_Refit Model_Rescale Model_Poisson Model_Linear Model_Estimation Model_Selection Model_CountFit
  Proofs_Intersection Spec_Rescale Proofs_Rescale Spec_Poisson Proofs_Poisson Proofs_PoissonOpt Spec_Linear Proofs_Linear
  Proofs_LinearUnits Spec_Estimation Proofs_Estimation Spec_Units Spec_CountFit Proofs_CountFit Proofs_CountFit3 Spec_Flat Proofs_Flat Proofs_FlatCount Spec_Copies Proofs_Copies.
Import ListNotations.
Local Open Scope R_scope.

Section Counts.
  Variables (d : nat -> R) (n p : nat) (X : list (list R)) (y : list R) (lam mix : R) (j k : nat).
  Hypothesis Hj : (j < p)%nat.
  Hypothesis Hk : (k < p)%nat.
  Hypothesis Hjk : j <> k.
  Hypothesis HC : copies n X j k.
  Hypothesis Hd : d j = d k.

  Lemma penalty_scaled c : penalty p lam mix (map (fun j => d j * entry c j) (seq 0 p))
    = lam * (mix * Sum p (fun q => Rabs (d q * entry c q)) + (1 - mix) / 2 * Sum p (fun q => (d q * entry c q) * (d q * entry c q))).
  Proof.
    unfold penalty. rewrite (Sum_ext p (fun q => Rabs (entry (map (fun j => d j * entry c j) (seq 0 p)) q)) (fun q => Rabs (d q * entry c q)))
      by (intros q Hq; now rewrite (entry_mapseq (fun j => d j * entry c j) p q Hq)).
    rewrite (Sum_ext p (fun q => entry (map (fun j => d j * entry c j) (seq 0 p)) q * entry (map (fun j => d j * entry c j) (seq 0 p)) q) (fun q => (d q * entry c q) * (d q * entry c q)))
      by (intros q Hq; now rewrite (entry_mapseq (fun j => d j * entry c j) p q Hq)). reflexivity.
  Qed.
  Lemma count_put c (a b b0 : R) : length c = p -> a + b = entry c j + entry c k ->
    count_objective d n p X y lam mix (put c j k a b) b0 = count_objective d n p X y lam mix c b0
      + lam * (mix * Rabs (d k) * (Rabs a + Rabs b - Rabs (entry c j) - Rabs (entry c k)) + (1 - mix) / 2 * (d k * d k) * (a * a + b * b - entry c j * entry c j - entry c k * entry c k)).
  Proof.
    intros Lc S0. unfold count_objective. rewrite !penalty_scaled.
    rewrite (Sum_put p c j k a b Lc Hj Hk Hjk (fun q v => Rabs (d q * v))), (Sum_put p c j k a b Lc Hj Hk Hjk (fun q v => (d q * v) * (d q * v))).
    rewrite (Sum_ext n (fun i => exp (eta p X (put c j k a b) b0 i) - entry y i * eta p X (put c j k a b) b0 i) (fun i => exp (eta p X c b0 i) - entry y i * eta p X c b0 i))
      by (intros i Hi; now rewrite (eta_put p c j k a b Lc Hj Hk Hjk X b0 i (HC i Hi) S0)).
    rewrite Hd, !Rabs_mult. ring.
  Qed.
  Lemma count_copies m : 0 < lam -> 0 <= mix < 1 -> d k <> 0 -> count_minimizer d n p X y lam mix m -> entry (fst m) j = entry (fst m) k.
  Proof.
    intros Hl Hm Hd0 (Lc & H). destruct m as [c b]. cbn [fst snd] in *. set (m := (entry c j + entry c k) / 2).
    specialize (H (put c j k m m) b (length_put p c j k m m Lc Hj Hk Hjk)). rewrite (count_put c m m b Lc ltac:(unfold m; lra)) in H.
    assert (A : Rabs m + Rabs m <= Rabs (entry c j) + Rabs (entry c k)).
    { pose proof (Rabs_triang (entry c j) (entry c k)) as T. replace (entry c j + entry c k) with (2 * m) in T by (unfold m; lra). rewrite Rabs_mult, (Rabs_pos_eq 2) in T by lra. lra. }
    assert (Q : m * m + m * m - entry c j * entry c j - entry c k * entry c k = - ((entry c j - entry c k) * (entry c j - entry c k)) / 2) by (unfold m; field).
    rewrite Q in H. set (e := entry c j - entry c k) in *. destruct (Req_dec e 0) as [E|E]; [unfold e in E; lra|exfalso].
    assert (D : 0 < e * e) by (pose proof (Rsqr_pos_lt e E) as P; exact P). assert (D2 : 0 < d k * d k) by (pose proof (Rsqr_pos_lt _ Hd0) as P; exact P).
    assert (U : mix * Rabs (d k) * (Rabs m + Rabs m - Rabs (entry c j) - Rabs (entry c k)) <= 0).
    { pose proof (Rmult_le_pos mix _ ltac:(lra) (Rabs_pos (d k))) as P. nra. }
    assert (V : (1 - mix) / 2 * (d k * d k) * (- (e * e) / 2) < 0).
    { pose proof (Rmult_lt_0_compat ((1 - mix) / 2) _ ltac:(lra) D2) as P. nra. }
    assert (W : lam * (mix * Rabs (d k) * (Rabs m + Rabs m - Rabs (entry c j) - Rabs (entry c k)) + (1 - mix) / 2 * (d k * d k) * (- (e * e) / 2)) < 0) by nra. lra.
  Qed.
End Counts.

Lemma poisson_copies standardize n p X (y : list R) eps num alphas ts (sel_lm : solver_glm (N := Rnum)) sel (d : list (list R) -> nat -> R) j k :
  matrix n p X -> length y = n -> (0 < n)%nat -> (j < p)%nat -> (k < p)%nat -> j <> k -> copies n X j k ->
  (forall a, In a alphas -> 0 < a < 1) ->
  let Xs := map (centering_transform (N := Rnum) standardize (fit_scaler (columns p X))) X in
  (forall sp (lam mix : R), In sp sel -> In (RegPair lam mix) (poisson_reg_params (N := Rnum) p Xs y eps num alphas) ->
     let Xr := samples Xs (fst sp) in let yr := part_y y (fst sp) in
     (forall i, In i (fst sp) -> (i < n)%nat) /\ d Xr j = d Xr k /\ d Xr k <> 0 /\ count_minimizer (d Xr) (length (fst sp)) p Xr yr lam mix (sel_lm Xr yr lam mix)) ->
  forall mask, In mask (count_select (N := Rnum) p eps num alphas sel_lm ts sel Xs y) -> nth j mask false = nth k mask false.
Proof.
  intros HX Ly Hn Hj Hk Hjk HC Ha Xs Hsol mask Hm. pose proof (copies_pre standardize true n p X y j k HX Ly Hn Hj Hk HC) as HD.
  unfold count_select in Hm. refine (select_same p Xs y ts _ _ sel j k Hj Hk _ mask Hm). intros sp q Hsp Hq. pose proof Hq as Hq2.
  destruct (pairs_in _ _ _ Hq) as (a & g & lam & -> & Hag & Hlam). cbn [apply_params]. destruct (Hsol sp lam a Hsp Hq2) as (Hr & Hd & Hd0 & Hmin).
  assert (Hl : 0 < lam).
  { pose proof (in_combine_r _ _ _ _ Hag) as Hg. apply in_map_iff in Hg as (a' & <- & _). unfold poisson_grid, logspace in Hlam. apply in_map_iff in Hlam as (x & <- & _). apply pow10_pos. }
  pose proof (Ha a (in_combine_l _ _ _ _ Hag)).
  exact (count_copies (d (samples Xs (fst sp))) _ p _ _ lam a j k Hj Hk Hjk (copies_samples n Xs j k (fst sp) HD Hr) Hd _ Hl ltac:(lra) Hd0 Hmin).
Qed.

(** ** Two samples whose penalized models are known *)
Definition twin_X : list (list R) := [[0; 0]; [1; 1]].
Definition twin_rate : R := 3 / 2 / (exp (1 / 2) - 1).
(** About 1.06 and 5.06. *)
Definition twin_y : list R := [twin_rate - 5 / 4; twin_rate * exp (1 / 2) + 5 / 4].
Definition twin_split : Model_Fit.split := ([0; 1]%nat, [0; 1]%nat).
(** The minimizers for the two penalties 2 and 1. *)
Definition twin_lm : solver_glm (N := Rnum) := fun X y lam mix => if Rlt_dec lam (3 / 2) then ([1 / 4; 1 / 4], ln twin_rate) else ([0; 0], ln (twin_rate + 3 / 4)).

Lemma half_exp : 0 < exp (1 / 2) - 1.
Proof. pose proof (exp_ineq1 (1 / 2) ltac:(lra)). lra. Qed.
Lemma twin_rate_pos : 0 < twin_rate.
Proof. unfold twin_rate. apply Rdiv_lt_0_compat; [lra|exact half_exp]. Qed.
Lemma twin_step : twin_rate * exp (1 / 2) = twin_rate + 3 / 2.
Proof. unfold twin_rate. pose proof half_exp. field. lra. Qed.
Lemma exp_tangent_at (u x : R) : 0 < u -> u + u * (x - ln u) <= exp x.
Proof.
  intro H. pose proof (exp_ineq1_le (x - ln u)) as T. apply (Rmult_le_compat_l u) in T; [|lra].
  replace (exp x) with (u * exp (x - ln u)); [lra|]. unfold Rminus. rewrite exp_plus, exp_Ropp, exp_ln by exact H. field. lra.
Qed.
Lemma twin_minimizer (u0 u1 v lam : R) : 0 < u0 -> 0 < u1 -> 0 <= v -> 0 < lam -> ln u1 = ln u0 + 2 * v ->
  count_minimizer (fun _ => 1) 2 2 twin_X [u0 - lam * (1 + v); u1 + lam * (1 + v)] lam (1 / 2) ([v; v], ln u0).
Proof.
  intros H0 H1 Hv Hl E. split; [reflexivity|]. intros [|c [|e [|]]] b L; try discriminate. cbn [fst snd].
  unfold count_objective, penalty, eta, Sum, mat, entry, twin_X. cbn.
  replace (ln u0 + (0 * v + (0 * v + 0))) with (ln u0) by ring. replace (ln u0 + (1 * v + (1 * v + 0))) with (ln u1) by lra. rewrite !exp_ln by assumption.
  replace (b + (0 * c + (0 * e + 0))) with b by ring. replace (b + (1 * c + (1 * e + 0))) with (b + (c + e)) by ring.
  rewrite !Rmult_1_l. rewrite (Rabs_pos_eq v Hv).
  pose proof (exp_tangent_at u0 b H0) as T0. pose proof (exp_tangent_at u1 (b + (c + e)) H1) as T1.
  pose proof (Rle_abs c) as A1. pose proof (Rle_abs e) as A2. pose proof (Rle_0_sqr (c - v)) as S1. pose proof (Rle_0_sqr (e - v)) as S2. unfold Rsqr in S1, S2.
  assert (M : lam / 2 * (c + e) <= lam / 2 * (Rabs c + Rabs e)) by (apply Rmult_le_compat_l; lra).
  pose proof (Rmult_le_pos (lam / 4) _ ltac:(lra) S1) as P1. pose proof (Rmult_le_pos (lam / 4) _ ltac:(lra) S2) as P2.
  rewrite E in *. replace (/ (1 + 1)) with (1 / 2) by lra. nra.
Qed.
Lemma twin_matrix : matrix 2 2 twin_X.
Proof. split; [reflexivity|]. repeat constructor. Qed.
Lemma twin_copies : copies 2 twin_X 0 1.
Proof. intros [|[|i]] Hi; try reflexivity. lia. Qed.
Lemma twin_max : poisson_lambda_max (N := Rnum) 2 twin_X twin_y (1 / 2) = 2.
Proof.
  destruct (lambda_max_value 2 2 twin_X twin_y twin_matrix ltac:(lia) ltac:(lia) eq_refl (1 / 2)) as (m & M1 & (j & Hj & M2) & ->).
  assert (C0 : forall q, (q < 2)%nat -> cov 2 twin_X twin_y q = 2).
  { intros [|[|?]] Hq; [| |lia]; unfold cov, average, Sum, mat, entry, twin_X, twin_y; cbn; pose proof twin_step as T; rewrite T; field. }
  rewrite (C0 j Hj), Rabs_pos_eq in M2 by lra. rr. rewrite <- M2. replace (INR 2) with 2 by (cbn; ring). field.
Qed.
Lemma twin_params : poisson_reg_params (N := Rnum) 2 twin_X twin_y (1 / 2) 2 [1 / 2] = [RegPair 2 (1 / 2); RegPair 1 (1 / 2)].
Proof.
  pose proof (grid_length 2 twin_X twin_y (1 / 2) 2 (1 / 2)) as L.
  pose proof (grid_value 2 twin_X twin_y (1 / 2) 2 (1 / 2) 0) as V0. pose proof (grid_value 2 twin_X twin_y (1 / 2) 2 (1 / 2) 1) as V1.
  rewrite twin_max in V0, V1. specialize (V0 ltac:(lra) ltac:(lra) ltac:(lia)). specialize (V1 ltac:(lra) ltac:(lra) ltac:(lia)).
  unfold poisson_reg_params. cbn [map]. destruct (poisson_grid (N := Rnum) 2 twin_X twin_y (1 / 2) 2 (1 / 2)) as [|g0 [|g1 [|? ?]]]; try discriminate.
  unfold entry in V0, V1. cbn [nth] in V0, V1. cbn in V0, V1.
  replace (0 / 1) with 0 in V0 by field. rewrite Rpower_O in V0 by lra. replace (1 / 1) with 1 in V1 by field. rewrite Rpower_1 in V1 by lra.
  replace (2 * 1) with 2 in V0 by ring. replace (2 * (1 / 2)) with 1 in V1 by field.
  rewrite V0, V1. reflexivity.
Qed.
Lemma twin_example ts mask : In mask (count_select (N := Rnum) 2 (1 / 2) 2 [1 / 2] twin_lm ts [twin_split; twin_split] twin_X twin_y) -> nth 0 mask false = nth 1 mask false.
Proof.
  pose proof (poisson_copies false 2 2 twin_X twin_y (1 / 2) 2 [1 / 2] ts twin_lm [twin_split; twin_split] (fun _ _ => 1) 0 1
    twin_matrix eq_refl ltac:(lia) ltac:(lia) ltac:(lia) ltac:(lia) twin_copies) as P. unfold centering_transform in P. rewrite map_id in P. rr. rewrite twin_params in P.
  refine (P _ _ mask).
  - intros a [<-|[]]. lra.
  - intros sp lam mix Hsp Hq. assert (Es : sp = twin_split) by (destruct Hsp as [<-|[<-|[]]]; reflexivity). subst sp.
    split; [intros i Hi; cbn in Hi; lia|]. split; [reflexivity|]. split; [lra|]. pose proof twin_rate_pos as Pr. pose proof twin_step as Ts.
    destruct Hq as [Hq|[Hq|[]]]; injection Hq as <- <-; unfold twin_lm.
    + destruct (Rlt_dec 2 (3 / 2)); [lra|]. pose proof (twin_minimizer (twin_rate + 3 / 4) (twin_rate + 3 / 4) 0 2 ltac:(lra) ltac:(lra) ltac:(lra) ltac:(lra) ltac:(ring)) as M.
      replace [twin_rate + 3 / 4 - 2 * (1 + 0); twin_rate + 3 / 4 + 2 * (1 + 0)] with (part_y twin_y (fst twin_split)) in M; [exact M|].
      unfold part_y, twin_y, twin_split, entry. cbn. rewrite Ts. f_equal; [lra|]. f_equal. lra.
    + destruct (Rlt_dec 1 (3 / 2)); [|lra]. assert (Pe : 0 < twin_rate * exp (1 / 2)) by (apply Rmult_lt_0_compat; [exact Pr|apply exp_pos]).
      pose proof (twin_minimizer twin_rate (twin_rate * exp (1 / 2)) (1 / 4) 1 Pr Pe ltac:(lra) ltac:(lra) ltac:(rewrite ln_mult, ln_exp by (exact Pr || apply exp_pos); lra)) as M.
      replace [twin_rate - 1 * (1 + 1 / 4); twin_rate * exp (1 / 2) + 1 * (1 + 1 / 4)] with (part_y twin_y (fst twin_split)) in M; [exact M|].
      unfold part_y, twin_y, twin_split, entry. cbn. f_equal; [lra|]. f_equal. lra.
Qed.
Lemma twin_support : count_select (N := Rnum) 2 (1 / 2) 2 [1 / 2] twin_lm [2%Z] [twin_split; twin_split] twin_X twin_y = [[false; false]; [true; true]].
Proof.
  unfold count_select. rr. rewrite twin_params. unfold selection_module, stable_rows, selection_sweep.
  cbn [flat_map app map length seq nth apply_params count twin_split fst]. unfold twin_lm.
  destruct (Rlt_dec 2 (3 / 2)); [lra|]. destruct (Rlt_dec 1 (3 / 2)); [|lra]. cbn [fst nth].
  assert (Z0 : nnonzero (N := Rnum) 0 = false) by (unfold nnonzero, nzero; cbn; unfold Reqb; destruct (Req_EM_T 0 0); [reflexivity|easy]).
  assert (N1 : nnonzero (N := Rnum) (1 / 4) = true) by (unfold nnonzero, nzero; cbn; unfold Reqb; destruct (Req_EM_T (1 / 4) 0); [lra|reflexivity]).
  rr. rewrite Z0, N1. reflexivity.
Qed.
