(** Proofs about features without information in UoI_Poisson (C124). *)
From Coq Require Import ZArith String List Bool Arith Lia Reals Lra Psatz.
From Verif Require Import Prelude F64 Num Model_Intersection Model_Fit Model_Scores Model_Refit Model_Rescale Model_Poisson Model_Linear Model_Estimation Model_Selection Model_CountFit
  Proofs_Intersection Spec_Rescale Proofs_Rescale Spec_Poisson Proofs_Poisson Proofs_PoissonOpt Spec_Linear Proofs_Linear
  Proofs_LinearUnits Spec_Estimation Proofs_Estimation Proofs_Estimation2 Proofs_Estimation3 Proofs_Choice Spec_Units Spec_Flat Proofs_Flat Spec_CountFit Proofs_CountFit2 Proofs_CountFit3 Proofs_Totals.
Import ListNotations.
Local Open Scope R_scope.

Lemma count_flat d k p X y lam mix m j v : 0 < lam -> 0 < mix <= 1 -> (j < p)%nat -> d j <> 0 ->
  (forall i, (i < k)%nat -> mat X i j = v) -> count_minimizer d k p X y lam mix m -> entry (fst m) j = 0.
Proof.
  intros Hl Hm Hj Hd Hv (Lc & H). destruct m as [c b]. cbn [fst snd] in *. assert (Hj' : (j < length c)%nat) by lia.
  assert (Lu : length (upd c j 0) = p) by (rewrite length_upd by exact Hj'; exact Lc).
  specialize (H (upd c j 0) (b + v * entry c j) Lu).
  assert (He : forall i, (i < k)%nat -> eta p X (upd c j 0) (b + v * entry c j) i = eta p X c b i).
  { intros i Hi. unfold eta. rewrite (Sum_ext p _ (fun q => if Nat.eqb q j then 0 else mat X i q * entry c q)).
    - rewrite (Sum_at p j (fun q => mat X i q * entry c q) 0 Hj), (Hv i Hi). ring.
    - intros q _. rewrite entry_upd by exact Hj'. destruct (Nat.eqb q j); ring. }
  unfold count_objective in H. rewrite (Sum_ext k (fun i => exp (eta p X (upd c j 0) (b + v * entry c j) i) - entry y i * eta p X (upd c j 0) (b + v * entry c j) i)
    (fun i => exp (eta p X c b i) - entry y i * eta p X c b i)) in H by (intros i Hi; now rewrite He).
  unfold penalty in H. set (w := fun q => d q * entry c q).
  assert (E1 : forall q, (q < p)%nat -> entry (map (fun j => d j * entry c j) (seq 0 p)) q = w q) by (intros q Hq; exact (entry_mapseq w p q Hq)).
  assert (E2 : forall q, (q < p)%nat -> entry (map (fun i => d i * entry (upd c j 0) i) (seq 0 p)) q = if Nat.eqb q j then 0 else w q).
  { intros q Hq. rewrite (entry_mapseq (fun i => d i * entry (upd c j 0) i) p q Hq), entry_upd by exact Hj'. destruct (Nat.eqb q j); [ring|reflexivity]. }
  rewrite (Sum_ext p (fun q => Rabs (entry (map (fun j => d j * entry c j) (seq 0 p)) q)) (fun q => Rabs (w q))) in H by (intros q Hq; now rewrite E1).
  rewrite (Sum_ext p (fun q => entry (map (fun j => d j * entry c j) (seq 0 p)) q * entry (map (fun j => d j * entry c j) (seq 0 p)) q) (fun q => w q * w q)) in H by (intros q Hq; now rewrite E1).
  rewrite (Sum_ext p (fun q => Rabs (entry (map (fun i => d i * entry (upd c j 0) i) (seq 0 p)) q)) (fun q => if Nat.eqb q j then 0 else Rabs (w q))) in H
    by (intros q Hq; rewrite E2 by exact Hq; destruct (Nat.eqb q j); [apply Rabs_R0|reflexivity]).
  rewrite (Sum_ext p (fun q => entry (map (fun i => d i * entry (upd c j 0) i) (seq 0 p)) q * entry (map (fun i => d i * entry (upd c j 0) i) (seq 0 p)) q) (fun q => if Nat.eqb q j then 0 else w q * w q)) in H
    by (intros q Hq; rewrite E2 by exact Hq; destruct (Nat.eqb q j); ring).
  rewrite (Sum_at p j (fun q => Rabs (w q)) 0 Hj), (Sum_at p j (fun q => w q * w q) 0 Hj) in H.
  assert (P : lam * (mix * Rabs (w j) + (1 - mix) / 2 * (w j * w j)) <= 0) by lra.
  destruct (Req_EM_T (w j) 0) as [E|E].
  - unfold w in E. apply Rmult_integral in E as [E|E]; [easy|exact E].
  - exfalso. pose proof (Rabs_pos_lt _ E) as A. pose proof (Rmult_lt_0_compat _ _ (proj1 Hm) A) as B. pose proof (Rle_0_sqr (w j)) as C. unfold Rsqr in C.
    pose proof (Rmult_le_pos ((1 - mix) / 2) _ ltac:(lra) C) as G. pose proof (Rmult_lt_0_compat lam _ Hl (Rplus_lt_le_0_compat _ _ B G)). lra.
Qed.

(** A coefficient that is zero in all but few bootstraps. *)
Lemma select_zero (informative : Model_Fit.split -> bool) p X (y : list R) ts (net : solver_net (N := Rnum)) qs sel j : (j < p)%nat ->
  (forall t, In t ts -> (Z.of_nat (length (filter informative sel)) < t)%Z) ->
  (forall sp q, In sp sel -> informative sp = false -> In q qs ->
     entry (apply_params (N := Rnum) net (samples X (fst sp)) (part_y y (fst sp)) q) j = 0) ->
  forall mask, In mask (selection_module (N := Rnum) net p ts qs sel X y) -> nth j mask false = false.
Proof.
  intros Hj Ht Hsol mask Hm. unfold selection_module in Hm. apply (proj1 (usort_rows_in _ _)) in Hm. apply in_flat_map in Hm as (t & Ht' & Hm).
  unfold stable_rows in Hm. apply in_map_iff in Hm as (r & <- & Hr).
  rewrite (nth_indep _ false ((fun j => (t <=? Z.of_nat (count (fun b => nnonzero (N := Rnum) (nth j (nth r b []) nzero)) (map (selection_sweep (N := Rnum) net X y qs) sel)))%Z) 0%nat))
    by (rewrite map_length, seq_length; exact Hj).
  rewrite (map_nth (fun j => (t <=? Z.of_nat (count (fun b => nnonzero (N := Rnum) (nth j (nth r b []) nzero)) (map (selection_sweep (N := Rnum) net X y qs) sel)))%Z)), seq_nth by exact Hj.
  apply Z.leb_gt. cbn [Nat.add]. refine (Z.le_lt_trans _ _ _ _ (Ht t Ht')). apply Nat2Z.inj_le. rewrite count_map. apply count_le_filter.
  intros sp Hsp Hi. apply in_seq in Hr. destruct Hr as [_ Hr]. cbn [Nat.add] in Hr. set (q0 := RegAlpha (L := R) (A := R) 0).
  pose proof (Hsol sp (nth r qs q0) Hsp Hi (nth_In _ _ Hr)) as Ez.
  unfold selection_sweep.
  assert (E : nth r (map (apply_params (N := Rnum) net (matrix_rows X (fst sp)) (take_rows y (fst sp))) qs) []
    = apply_params (N := Rnum) net (samples X (fst sp)) (part_y y (fst sp)) (nth r qs q0)).
  { rewrite (nth_indep _ [] (apply_params (N := Rnum) net (matrix_rows X (fst sp)) (take_rows y (fst sp)) q0)) by (rewrite map_length; exact Hr).
    rewrite map_nth. rewrite part_y_take. reflexivity. }
  rr. rewrite E. unfold entry in Ez. unfold nnonzero, nzero. cbn [neqb nofZ Rnum]. rr. rewrite Ez. unfold Reqb. destruct (Req_EM_T 0 0); [reflexivity|easy].
Qed.

Lemma estimate_count_zero est_lm metric target p X y sp mask e j : (j < p)%nat -> nth j mask false = false ->
  estimate_count (N := Rnum) est_lm metric target p X y sp mask = Ok e -> entry (fst e) j = 0.
Proof.
  intros Hj Hm. unfold estimate_count. destruct (existsb (fun b => b) mask).
  - destruct (poisson_score _ _ _ _ _ _ _) as [s|]; cbn [bind]; [|discriminate]. intro E. injection E as <-. cbn [fst]. now apply spread_outside.
  - destruct (poisson_score _ _ _ _ _ _ _) as [s|]; cbn [bind]; [|discriminate]. intro E. injection E as <-. cbn [fst]. apply (entry_zeros p j).
Qed.
Lemma count_module_zero est_lm metric target p has X y supports splits c b j : (j < p)%nat -> splits <> [] ->
  (forall mask, In mask supports -> nth j mask false = false) ->
  count_module (N := Rnum) est_lm metric target p has X y supports splits = Ok (c, b) -> length c = p /\ entry c j = 0.
Proof.
  intros Hj Hs Hm. unfold count_module.
  destruct (mapM _ splits) as [best|] eqn:E; cbn [bind]; [|discriminate]. intro E2. injection E2 as <- _. split; [unfold bagged; now rewrite map_length, seq_length|].
  unfold bagged. refine (eq_trans (entry_mapseq (fun j => median (N := Rnum) (map (fun e => nth j e nzero) best)) p j Hj) _).
  assert (A : map (fun e : list R => nth j e (nzero (N := Rnum))) best = repeat 0 (length best)).
  { pose proof (mapM_in _ _ _ E) as M. clear E. induction best as [|e l IH]; [reflexivity|]. cbn [map length repeat]. f_equal; [|apply IH; intros x Hx; apply M; now right].
    destruct (M e (or_introl eq_refl)) as (sp & _ & Ee). destruct (mapM (estimate_count (N := Rnum) est_lm metric target p X y sp) supports) as [out|] eqn:Eo; cbn [bind] in Ee; [|discriminate].
    unfold best_estimate in Ee. destruct (argmax _) as [k|]; cbn [rmap] in Ee; [|discriminate]. injection Ee as <-.
    destruct (le_lt_dec (length (map fst out)) k) as [G|G]; [rewrite (nth_overflow _ _ G); destruct j; reflexivity|].
    pose proof (nth_In _ ([] : list R) G) as I. apply in_map_iff in I as (e' & Ee' & He'). rr. rewrite <- Ee'.
    destruct (mapM_in _ _ _ Eo e' He') as (mask & Hmask & Em). exact (estimate_count_zero est_lm metric target p X y sp mask e' j Hj (Hm mask Hmask) Em). }
  rr. rewrite A. apply median_repeat. rewrite (mapM_length _ _ _ E). destruct splits; [easy|cbn; lia].
Qed.

Lemma poisson_flat standardize metric target n p X (y : list R) eps num alphas ts (sel_lm est_lm : solver_glm (N := Rnum)) sel est
    (d : list (list R) -> nat -> R) (varies_in : Model_Fit.split -> bool) j :
  matrix n p X -> length y = n -> (0 < n)%nat -> (j < p)%nat -> est <> [] -> 0 < eps -> (forall a, In a alphas -> 0 < a <= 1) ->
  (forall sp, In sp sel -> varies_in sp = false -> (forall i, In i (fst sp) -> (i < n)%nat) /\ flat true X (fst sp) j) ->
  (forall t, In t ts -> (Z.of_nat (length (filter varies_in sel)) < t)%Z) ->
  let Xs := map (centering_transform (N := Rnum) standardize (fit_scaler (columns p X))) X in
  (forall a, In a alphas -> 0 < poisson_lambda_max (N := Rnum) p Xs y a) ->
  (forall sp (lam mix : R), In sp sel -> varies_in sp = false -> In (RegPair lam mix) (poisson_reg_params (N := Rnum) p Xs y eps num alphas) ->
     let Xr := samples Xs (fst sp) in let yr := part_y y (fst sp) in
     d Xr j <> 0 /\ count_minimizer (d Xr) (length (fst sp)) p Xr yr lam mix (sel_lm Xr yr lam mix)) ->
  (forall mask, In mask (count_select (N := Rnum) p eps num alphas sel_lm ts sel Xs y) -> nth j mask false = false) /\
  forall c b, count_fit (N := Rnum) standardize true eps num alphas ts metric target p sel_lm est_lm sel est X y = Ok (c, b) -> entry c j = 0.
Proof.
  intros HX Ly Hn Hj Hest He Ha Hf Ht Xs Hmax Hsol.
  assert (HS : forall mask, In mask (count_select (N := Rnum) p eps num alphas sel_lm ts sel Xs y) -> nth j mask false = false).
  { unfold count_select. apply (select_zero varies_in); [exact Hj|exact Ht|]. intros sp q Hsp Hi Hq.
    pose proof Hq as Hq2. destruct (pairs_in _ _ _ Hq) as (a & g & lam & -> & Hag & Hlam). cbn [apply_params].
    destruct (Hsol sp lam a Hsp Hi Hq2) as [Hd Hmin]. destruct (Hf sp Hsp Hi) as [Hr Hflat].
    pose proof (flat_pre standardize true n p X y (fst sp) j HX Ly Hn Hj Hr Hflat) as (v & Hv & _).
    assert (Hl : 0 < lam).
    { pose proof (in_combine_r _ _ _ _ Hag) as Hg. apply in_map_iff in Hg as (a' & <- & _). unfold poisson_grid, logspace in Hlam. apply in_map_iff in Hlam as (x & <- & _). apply pow10_pos. }
    refine (count_flat (d (samples Xs (fst sp))) (length (fst sp)) p _ _ lam a _ j v Hl (Ha a (in_combine_l _ _ _ _ Hag)) Hj Hd _ Hmin).
    intros i Hi'. rewrite <- (Hv (nth i (fst sp) 0%nat)) by now apply nth_In.
    unfold mat, samples. rewrite (nth_indep _ [] (nth 0 Xs [])) by (rewrite map_length; exact Hi'). rewrite (map_nth (fun i => nth i Xs [])). reflexivity. }
  split; [exact HS|]. intros c b. unfold count_fit. fold Xs.
  assert (Post : forall c0 b0, length c0 = p -> entry c0 j = 0 -> entry (fst (poisson_post (N := Rnum) standardize true (fit_scaler (columns p X)) c0 b0)) j = 0).
  { intros c0 b0 Lc Hc. unfold poisson_post. destruct standardize; [|exact Hc]. cbn [fst].
    rewrite (scaler_value n p X HX). cbn [scale_].
    refine (eq_trans (entry_map2n Rdiv p c0 (scales n p X) j Lc (length_scales n p X) Hj) _). rr. rewrite Hc. unfold Rdiv. ring. }
  destruct (constant_response y); cbn [bind].
  - intro E. apply ok_inj in E. refine (eq_trans (f_equal (fun q => entry (fst q) j) (eq_sym E)) _). cbn [fst snd]. apply Post; [apply repeat_length|apply (entry_zeros p j)].
  - destruct (count_module _ _ _ _ _ _ _ _ _) as [[c0 b0]|] eqn:Em; cbn [bind]; [|discriminate]. intro E. apply ok_inj in E.
    refine (eq_trans (f_equal (fun q => entry (fst q) j) (eq_sym E)) _). cbn [fst snd].
    destruct (count_module_zero est_lm metric target p true Xs y _ est c0 b0 j Hj Hest HS Em) as [Lc Hc]. apply Post; assumption.
Qed.

(** ** Crossed features, of which the second one does not vary in the first bootstrap *)
Definition half_crossed : list (list R) := [[0; 0]; [1; 0]; [0; 0]; [1; 0]].
Definition half_split : Model_Fit.split := ([0; 1; 0; 1]%nat, [2; 3]%nat).
Definition half_sees (sp : Model_Fit.split) : bool := (nth 2 (fst sp) 0%nat =? 2)%nat.
(** Solves the first bootstrap exactly; on the full data it selects the second feature too. *)
Definition half_lm : solver_glm (N := Rnum) := fun X y lam mix =>
  let c := ln (entry y 1 - 2 * lam) - ln (entry y 0 + 2 * lam) in
  (if (length (nth 0 X []) =? 1)%nat then [c] else [c; mat X 2 1], ln (entry y 0 + 2 * lam)).

Lemma half_closed m0 m1 lam : 0 < m0 -> 0 <= lam -> m0 + 2 * lam <= m1 - 2 * lam ->
  count_minimizer (fun _ => 1) 4 2 half_crossed [m0; m1; m0; m1] lam 1 (half_lm half_crossed [m0; m1; m0; m1] lam 1).
Proof.
  intros H0 Hl Hle. set (A := m0 + 2 * lam). set (B := m1 - 2 * lam). assert (HA : 0 < A) by (unfold A; lra). assert (HB : 0 < B) by (unfold B; lra).
  assert (Hc : 0 <= ln B - ln A).
  { destruct (Rle_lt_or_eq_dec A B Hle) as [H|H]; [pose proof (ln_increasing A B HA H); lra|rewrite H; lra]. }
  assert (O : forall c1 c2 b, count_objective (fun _ => 1) 4 2 half_crossed [m0; m1; m0; m1] lam 1 [c1; c2] b
    = / 2 * (exp b - m0 * b + (exp (b + c1) - m1 * (b + c1))) + lam * (Rabs c1 + Rabs c2)).
  { intros. unfold count_objective, penalty, eta, mat, half_crossed, Sum, entry. cbn [seq map fold_right nth]. replace (INR 4) with 4 by (cbn; ring).
    replace (b + (0 * c1 + (0 * c2 + 0))) with b by ring. replace (b + (1 * c1 + (0 * c2 + 0))) with (b + c1) by ring. rewrite !Rmult_1_l. field. }
  change (half_lm half_crossed [m0; m1; m0; m1] lam 1) with ([ln B - ln A; 0], ln A).
  split; [reflexivity|]. intros c' b' L. destruct c' as [|c1 [|c2 [|? ?]]]; try discriminate. cbn [fst snd]. rewrite !O.
  replace (ln A + (ln B - ln A)) with (ln B) by ring. rewrite Rabs_R0, !exp_ln by assumption. rewrite (Rabs_pos_eq _ Hc).
  pose proof (tangent_at A b' HA) as T1. pose proof (tangent_at B (b' + c1) HB) as T3.
  pose proof (Rmult_le_compat_l lam _ _ Hl (Rle_abs c1)) as P1. pose proof (Rmult_le_pos _ _ Hl (Rabs_pos c2)) as P2. unfold A, B in *. nra.
Qed.

Lemma half_example metric (est_lm : solver_glm (N := Rnum)) :
  (forall mask, In mask (count_select (N := Rnum) 2 (1 / 2) 2 [1] half_lm [2%Z] [half_split; crossed_split] crossed crossed_y) -> nth 1 mask false = false) /\
  forall c b, count_fit (N := Rnum) false true (1 / 2) 2 [1] [2%Z] metric 1 2 half_lm est_lm [half_split; crossed_split] [crossed_split] crossed crossed_y = Ok (c, b) -> entry c 1 = 0.
Proof.
  destruct (poisson_flat false metric 1 4 2 crossed crossed_y (1 / 2) 2 [1] [2%Z] half_lm est_lm [half_split; crossed_split] [crossed_split] (fun _ _ => 1) half_sees 1) as [A B].
  - exact crossed_matrix.
  - reflexivity.
  - lia.
  - lia.
  - discriminate.
  - lra.
  - intros a [<-|[]]. lra.
  - intros sp [<-|[<-|[]]] H; [|discriminate H]. split; [intros i Hi; cbn in Hi; lia|]. exists 0. split; [|reflexivity].
    intros i [<-|[<-|[<-|[<-|[]]]]]; reflexivity.
  - intros t [<-|[]]. reflexivity.
  - intros a [<-|[]]. unfold centering_transform. rewrite map_id, crossed_max. lra.
  - intros sp lam mix Hsp Hn. unfold centering_transform. rewrite map_id. rr. rewrite crossed_params. intros H. cbv zeta. split; [lra|].
    assert (Hq : mix = 1 /\ 0 <= lam /\ 1 + 2 * lam <= 5 - 2 * lam) by (destruct H as [H|[H|[]]]; injection H as <- <-; lra).
    destruct Hq as (-> & Hl & Hb). destruct Hsp as [<-|[<-|[]]]; [|discriminate Hn]. exact (half_closed 1 5 lam ltac:(lra) Hl Hb).
  - unfold centering_transform in A. rewrite map_id in A. split; [exact A|exact B].
Qed.
