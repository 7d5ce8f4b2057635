(** Proofs about features without information in UoI_L1Logistic (C124). *)
From Coq Require Import ZArith String List Bool Arith Lia Reals Lra Psatz.
From Verif Require Import Prelude F64 Num Model_Intersection Model_Fit Model_Scores Model_Refit Model_Rescale Model_Poisson Model_Linear Model_Estimation Model_Selection Model_ClassFit
  Proofs_Intersection Spec_Rescale Proofs_Rescale Spec_Poisson Proofs_Poisson Spec_Linear Proofs_Linear
  Proofs_LinearUnits Spec_Estimation Proofs_Estimation Proofs_Estimation2 Proofs_Estimation3 Spec_Choice Proofs_Choice Spec_Units Spec_Flat Proofs_Flat Proofs_FlatCount Proofs_Totals
  Spec_ClassFit Proofs_ClassFit Proofs_ClassFit2 Proofs_ClassFit3 Proofs_ClassFit4 Proofs_ClassFit5.
From Verif Require Model_Logistic Model_Labels Spec_Logistic Proofs_Logistic Proofs_LogisticGrid.
Import ListNotations.
Local Open Scope R_scope.

Lemma class_flat_min k p X y lam m j v : 0 < lam -> (j < p)%nat ->
  (forall i, (i < k)%nat -> mat X i j = v) -> class_minimizer k p X y lam m -> entry (fst m) j = 0.
Proof.
  intros Hl Hj Hv (Lc & H). destruct m as [c b]. cbn [fst snd] in *. assert (Hj' : (j < length c)%nat) by lia.
  assert (Lu : length (upd c j 0) = p) by (rewrite length_upd by exact Hj'; exact Lc).
  specialize (H (upd c j 0) (b + v * entry c j) Lu).
  assert (He : forall i, (i < k)%nat -> eta p X (upd c j 0) (b + v * entry c j) i = eta p X c b i).
  { intros i Hi. unfold eta. rewrite (Sum_ext p _ (fun q => if Nat.eqb q j then 0 else mat X i q * entry c q)).
    - rewrite (Sum_at p j (fun q => mat X i q * entry c q) 0 Hj), (Hv i Hi). ring.
    - intros q _. rewrite entry_upd by exact Hj'. destruct (Nat.eqb q j); ring. }
  unfold class_objective in H.
  rewrite (Sum_ext k (fun i => ln (1 + exp (eta p X (upd c j 0) (b + v * entry c j) i)) - entry y i * eta p X (upd c j 0) (b + v * entry c j) i)
    (fun i => ln (1 + exp (eta p X c b i)) - entry y i * eta p X c b i)) in H by (intros i Hi; now rewrite He).
  rewrite (Sum_ext p (fun q => Rabs (entry (upd c j 0) q)) (fun q => if Nat.eqb q j then 0 else Rabs (entry c q))) in H
    by (intros q _; rewrite entry_upd by exact Hj'; destruct (Nat.eqb q j); [apply Rabs_R0|reflexivity]).
  rewrite (Sum_at p j (fun q => Rabs (entry c q)) 0 Hj) in H.
  assert (P : lam * Rabs (entry c j) <= 0) by lra.
  destruct (Req_EM_T (entry c j) 0) as [E|E]; [exact E|]. exfalso. pose proof (Rmult_lt_0_compat _ _ Hl (Rabs_pos_lt _ E)). lra.
Qed.

Lemma estimate_class_zero est_lm clip metric target p X y sp mask e j : (j < p)%nat -> nth j mask false = false ->
  estimate_class (N := Rnum) est_lm clip metric target p X y sp mask = Ok e -> entry (fst e) j = 0.
Proof.
  intros Hj Hm. unfold estimate_class. destruct (existsb (fun b => b) mask).
  - destruct (Model_Labels.logistic_score _ _ _ _ _ _ _ _) as [s|]; cbn [bind]; [|discriminate]. intro E. injection E as <-. cbn [fst]. now apply spread_outside.
  - destruct (Model_Labels.logistic_score _ _ _ _ _ _ _ _) as [s|]; cbn [bind]; [|discriminate]. intro E. injection E as <-. cbn [fst]. apply (entry_zeros p j).
Qed.
Lemma class_module_zero est_lm refit clip metric target p has X y supports splits c b j : (j < p)%nat -> splits <> [] ->
  (forall mask, In mask supports -> nth j mask false = false) ->
  class_module (N := Rnum) est_lm refit clip metric target p has X y supports splits = Ok (c, b) -> length c = p /\ entry c j = 0.
Proof.
  intros Hj Hs Hm. unfold class_module.
  destruct (mapM _ splits) as [best|] eqn:E; cbn [bind]; [|discriminate]. intro E2. injection E2 as <- _. split; [unfold bagged; now rewrite map_length, seq_length|].
  unfold bagged. refine (eq_trans (entry_mapseq (fun j => median (N := Rnum) (map (fun e => nth j e nzero) best)) p j Hj) _).
  assert (A : map (fun e : list R => nth j e (nzero (N := Rnum))) best = repeat 0 (length best)).
  { pose proof (mapM_in _ _ _ E) as M. clear E. induction best as [|e l IH]; [reflexivity|]. cbn [map length repeat]. f_equal; [|apply IH; intros x Hx; apply M; now right].
    destruct (M e (or_introl eq_refl)) as (sp & _ & Ee). destruct (mapM (estimate_class (N := Rnum) est_lm clip metric target p X y sp) supports) as [out|] eqn:Eo; cbn [bind] in Ee; [|discriminate].
    unfold best_estimate in Ee. destruct (argmax _) as [k|]; cbn [rmap] in Ee; [|discriminate]. injection Ee as <-.
    destruct (le_lt_dec (length (map fst out)) k) as [G|G]; [rewrite (nth_overflow _ _ G); destruct j; reflexivity|].
    pose proof (nth_In _ ([] : list R) G) as I. apply in_map_iff in I as (e' & Ee' & He'). rr. rewrite <- Ee'.
    destruct (mapM_in _ _ _ Eo e' He') as (mask & Hmask & Em). exact (estimate_class_zero est_lm clip metric target p X y sp mask e' j Hj (Hm mask Hmask) Em). }
  rr. rewrite A. apply median_repeat. rewrite (mapM_length _ _ _ E). destruct splits; [easy|cbn; lia].
Qed.

Lemma Cs_pos has p eps num X y (Cs : list R) : class_Cs (N := Rnum) has p eps num X y = Ok Cs -> forall C : R, In C Cs -> 0 < C.
Proof.
  unfold class_Cs. destruct (Model_Logistic.alpha_max _ _ _ _ _) as [a|]; cbn [rmap]; [|discriminate]. intro E. injection E as <-. intros C H.
  unfold Model_Logistic.C_grid, logspace in H. apply in_map_iff in H as (x & <- & _). apply pow10_pos.
Qed.

Lemma logistic_flat standardize metric target n p X (y : list Model_Labels.label) eps num clip ts (sel_lm : solver_C (N := Rnum)) (est_lm : solver_ml (N := Rnum)) (refit : refitter (N := Rnum)) sel est
    (informative : Model_Fit.split -> bool) j :
  let z := Model_Labels.codes y in
  matrix n p X -> length z = n -> (0 < n)%nat -> (j < p)%nat -> est <> [] ->
  (forall sp, In sp sel -> informative sp = false -> (forall i, In i (fst sp) -> (i < n)%nat) /\ flat true X (fst sp) j) ->
  (forall t, In t ts -> (Z.of_nat (length (filter informative sel)) < t)%Z) ->
  let Xs := map (base_transform (N := Rnum) standardize true (fit_scaler (columns p X))) X in
  (forall sp Cs (C : R), In sp sel -> informative sp = false -> class_Cs (N := Rnum) true p eps num Xs z = Ok Cs -> In C Cs ->
     let Xr := samples Xs (fst sp) in let yr := part_y (map INR z) (fst sp) in
     class_minimizer (length (fst sp)) p Xr yr (/ C) (sel_lm Xr yr C)) ->
  (forall Cs mask, class_Cs (N := Rnum) true p eps num Xs z = Ok Cs -> In mask (class_select (N := Rnum) p sel_lm ts Cs sel Xs z) -> nth j mask false = false) /\
  forall c b, class_fit (N := Rnum) standardize true eps num ts clip metric target p sel_lm est_lm refit sel est X y = Ok (c, b) -> entry c j = 0.
Proof.
  intros z HX Lz Hn Hj Hest Hf Ht Xs Hsol.
  assert (HS : forall Cs mask, class_Cs (N := Rnum) true p eps num Xs z = Ok Cs -> In mask (class_select (N := Rnum) p sel_lm ts Cs sel Xs z) -> nth j mask false = false).
  { intros Cs mask EC. unfold class_select. rewrite numbers_R. revert mask. apply (select_zero informative); [exact Hj|exact Ht|]. intros sp q Hsp Hi Hq.
    apply in_map_iff in Hq as (C & <- & HC). cbn [apply_params].
    pose proof (Hsol sp Cs C Hsp Hi EC HC) as Hmin. cbv zeta in Hmin. destruct (Hf sp Hsp Hi) as [Hr Hflat].
    assert (Ln : length (map INR z) = n) by (now rewrite map_length).
    pose proof (flat_pre standardize true n p X (map INR z) (fst sp) j HX Ln Hn Hj Hr Hflat) as (v & Hv & _).
    refine (class_flat_min (length (fst sp)) p _ _ (/ C) _ j v (Rinv_0_lt_compat _ (Cs_pos _ _ _ _ _ _ _ EC C HC)) Hj _ Hmin).
    intros i Hi'. rewrite <- (Hv (nth i (fst sp) 0%nat)) by now apply nth_In.
    unfold mat, samples. rewrite (nth_indep _ [] (nth 0 Xs [])) by (rewrite map_length; exact Hi'). rewrite (map_nth (fun i => nth i Xs [])). reflexivity. }
  split; [exact HS|]. intros c b. unfold class_fit. fold z. fold Xs.
  assert (Post : forall c0 b0, length c0 = p -> entry c0 j = 0 -> entry (fst (glm_post (N := Rnum) standardize true (fit_scaler (columns p X)) c0 b0)) j = 0).
  { intros c0 b0 Lc Hc. unfold glm_post, base_post. cbn [fst]. destruct standardize; [|exact Hc].
    rewrite (scaler_value n p X HX). cbn [scale_].
    refine (eq_trans (entry_map2n Rdiv p c0 (scales n p X) j Lc (length_scales n p X) Hj) _). rr. rewrite Hc. unfold Rdiv. ring. }
  destruct (constant_response (numbers z)); cbn [bind].
  - intro E. apply ok_inj in E. refine (eq_trans (f_equal (fun q => entry (fst q) j) (eq_sym E)) _). cbn [fst snd]. apply Post; [apply repeat_length|apply (entry_zeros p j)].
  - destruct (class_Cs _ _ _ _ _ _) as [Cs|] eqn:EC; cbn [bind]; [|discriminate].
    destruct (class_module _ _ _ _ _ _ _ _ _ _ _) as [[c0 b0]|] eqn:Em; cbn [bind]; [|discriminate]. intro E. apply ok_inj in E.
    refine (eq_trans (f_equal (fun q => entry (fst q) j) (eq_sym E)) _). cbn [fst snd].
    destruct (class_module_zero est_lm refit clip metric target p true Xs y _ est c0 b0 j Hj Hest (fun mask => HS Cs mask eq_refl) Em) as [Lc Hc]. apply Post; assumption.
Qed.

(** ** Twelve samples, of which only the last two differ in the second feature *)
Definition wide_X : list (list R) := ten_T ++ [[1; / 2]; [-1; - / 2]].
Definition wide_split : Model_Fit.split := ([0; 1; 10; 11]%nat, [2; 3]%nat).
Definition wide_sees (sp : Model_Fit.split) : bool := (nth 2 (fst sp) 0%nat =? 10)%nat.
(** Solves the first bootstrap exactly and puts the second feature into the other one. *)
Definition wide_sel : solver_C (N := Rnum) := fun X y C => if (length y =? 4)%nat then ([1; 1], 0) else group_sel X y C.

Lemma wide_matrix : matrix 12 2 wide_X.
Proof. split; [reflexivity|]. unfold wide_X, ten_T, minus, plus. cbn [app]. repeat constructor. Qed.
Lemma wide_grid : class_Cs (N := Rnum) true 2 (1 / 2) 1 wide_X ten_z = Ok [12].
Proof.
  destruct (Proofs_LogisticGrid.alpha_max_binary 12 2 wide_X ten_z wide_matrix ltac:(lia) eq_refl ten_binary ltac:(lia)) as (A & EA & MA).
  pose proof Proofs_Logistic.tiny_pos as T. rewrite share_clipped in MA by (rewrite ten_share; lra). rewrite ten_share in MA.
  assert (I : INR 12 = 12) by (cbn; ring). rewrite I in MA.
  assert (S0 : Sum 12 (fun i => INR (nth i ten_z 0%nat) * mat wide_X i 0) = 2) by (unfold wide_X, ten_T, ten_z, minus, plus; cbn [app]; sums; ring).
  assert (S1 : Rabs (Sum 12 (fun i => INR (nth i ten_z 0%nat) * mat wide_X i 1)) <= 1) by (apply Rabs_le; unfold wide_X, ten_T, ten_z, minus, plus; cbn [app]; sums; lra).
  assert (E : A = / 12).
  { destruct MA as (U & j & Hj & E). pose proof (U 0%nat ltac:(lia)) as U0. cbn beta in U0. rewrite S0, Rabs_pos_eq in U0 by lra.
    destruct j as [|[|j]]; [| |lia]; [rewrite S0, Rabs_pos_eq in E by lra; lra|]. rewrite Rabs_mult, (Rabs_pos_eq (/ 12)) in E by lra. lra. }
  unfold class_Cs. rewrite EA. cbn [rmap]. rewrite E, C_one by lra. now rewrite Rinv_inv.
Qed.

Lemma wide_example clip metric (est_lm : solver_ml (N := Rnum)) (refit : refitter (N := Rnum)) :
  (forall mask, In mask (class_select (N := Rnum) 2 wide_sel [2%Z] [12] [ten_split; wide_split] wide_X ten_z) -> nth 1 mask false = false) /\
  forall c b, class_fit (N := Rnum) false true (1 / 2) 1 [2%Z] clip metric 1 2 wide_sel est_lm refit [ten_split; wide_split] [ten_split] wide_X (map label ten_z) = Ok (c, b) -> entry c 1 = 0.
Proof.
  destruct ten_codes as [K _]. pose proof wide_grid as G.
  destruct (logistic_flat false metric 1 12 2 wide_X (map label ten_z) (1 / 2) 1 clip [2%Z] wide_sel est_lm refit [ten_split; wide_split] [ten_split] wide_sees 1) as [A B].
  - exact wide_matrix.
  - reflexivity.
  - lia.
  - lia.
  - discriminate.
  - intros sp [<-|[<-|[]]] H; [|discriminate H]. split; [intros i Hi; in_cases Hi|]. exists 0. split; [|reflexivity].
    intros i Hi. cbn [ten_split fst In] in Hi. repeat (destruct Hi as [<-|Hi]; [reflexivity|]). destruct Hi.
  - intros t [<-|[]]. reflexivity.
  - change (map (base_transform (N := Rnum) false true (fit_scaler (columns 2 wide_X))) wide_X) with (map (fun x : list R => x) wide_X). rewrite map_id, K.
    intros sp Cs C Hsp Hi EC HC. rr. rewrite G in EC. apply ok_inj in EC. subst Cs. destruct HC as [<-|[]]. destruct Hsp as [<-|[<-|[]]]; [|discriminate Hi].
    exact (proj1 (ten_min 2 (/ 12) (or_intror eq_refl) ltac:(lra))).
  - split; [|exact B]. intro mask. specialize (A [12] mask).
    change (map (base_transform (N := Rnum) false true (fit_scaler (columns 2 wide_X))) wide_X) with (map (fun x : list R => x) wide_X) in A. rewrite map_id, K in A. exact (A G).
Qed.
