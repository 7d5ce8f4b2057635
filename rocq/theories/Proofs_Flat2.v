(** Concrete data for C124. *)
From Coq Require Import ZArith String List Bool Arith Lia Reals Lra Psatz.
From Verif Require Import Prelude F64 Num Model_Intersection Model_Fit Model_Scores Model_Refit Model_Rescale Model_Poisson Model_Linear Model_Estimation Model_Selection
  Proofs_Intersection Spec_Rescale Proofs_Rescale Spec_Poisson Proofs_Poisson Proofs_PoissonOpt Spec_Linear Proofs_Linear
  Proofs_LinearUnits Spec_Estimation Proofs_Estimation Proofs_Choice Spec_Units Proofs_Units4 Spec_Flat Proofs_Flat.
Import ListNotations.
Local Open Scope R_scope.

(** The second feature is 5 in the first three samples, and in both training samples of the
    first bootstrap. *)
Definition flat_X : list (list R) := [[1; 5]; [-1; 5]; [1; 5]; [-1; 7]].
Definition flat_y : list R := [1; -1; 1; -1].
Definition flat_splits : list Model_Fit.split := [([0; 1], [2; 3]); ([2; 3], [0; 1])]%nat.
Definition sees_change (sp : Model_Fit.split) : bool := Nat.eqb (nth 0 (fst sp) 0%nat) 2.
(** A solver that finds the minimizer for the first bootstrap and uses the second feature for the second one. *)
Definition flat_net : solver_net (N := Rnum) := fun X y lam _ => [shrink 1 lam; mat X 1 1 - mat X 0 1].

Lemma flat_matrix : matrix 4 2 flat_X.
Proof. split; [reflexivity|]. repeat constructor. Qed.
Lemma flat_seen sp : In sp flat_splits -> sees_change sp = false -> (forall i, In i (fst sp) -> (i < 4)%nat) /\ flat true flat_X (fst sp) 1.
Proof.
  intros [<-|[<-|[]]] E; try discriminate. split; [intros i [<-|[<-|[]]]; lia|]. exists 5. split; [|discriminate].
  intros i [<-|[<-|[]]]; reflexivity.
Qed.
Lemma flat_solves sp (lam : R) : In sp flat_splits -> sees_change sp = false -> 0 < lam ->
  let Xr := samples flat_X (fst sp) in let yr := part_y flat_y (fst sp) in
  net_solution true (length (fst sp)) 2 Xr yr lam 1 (flat_net Xr yr lam 1).
Proof.
  intros [<-|[<-|[]]] E Hl; try discriminate. cbv zeta. exists 0. split; [reflexivity|]. split; [reflexivity|].
  intros [|c [|e [|]]] b L _; try discriminate. unfold net, penalty, eta, Sum, samples, part_y, flat_net, mat, entry. cbn.
  replace (5 - 5) with 0 by ring. rewrite Rabs_R0.
  pose proof (Rabs_pos e) as He. pose proof (Rmult_le_pos lam _ (Rlt_le _ _ Hl) He) as P.
  pose proof (Rle_0_sqr (5 * e + b)) as Q. unfold Rsqr in Q.
  assert (K : 1 / 2 * (1 - shrink 1 lam) * (1 - shrink 1 lam) + lam * Rabs (shrink 1 lam) <= 1 / 2 * (1 - c) * (1 - c) + lam * Rabs c).
  { unfold shrink. rewrite (Rmax_right (- (1) - lam) 0) by lra. unfold Rmax. destruct (Rle_dec (1 - lam) 0) as [G|G].
    - rewrite Rminus_0_r, Rabs_R0. pose proof (Rle_abs c). pose proof (Rabs_pos c). pose proof (Rle_0_sqr c) as S. unfold Rsqr in S.
      pose proof (Rmult_le_compat_r (Rabs c) 1 lam (Rabs_pos c) ltac:(lra)). lra.
    - rewrite Rminus_0_r, (Rabs_pos_eq (1 - lam)) by lra. pose proof (Rmult_le_compat_l lam _ _ (Rlt_le _ _ Hl) (Rle_abs c)) as S1.
      pose proof (Rle_0_sqr (c - (1 - lam))) as S. unfold Rsqr in S. lra. }
  match goal with |- ?l <= ?r => replace l with (1 / 2 * (1 - shrink 1 lam) * (1 - shrink 1 lam) + lam * Rabs (shrink 1 lam)) by field;
    replace r with (1 / 2 * (1 - c) * (1 - c) + lam * Rabs c + 1 / 2 * ((5 * e + b) * (5 * e + b)) + lam * Rabs e) by field end.
  lra.
Qed.

(** 'r2' is always computed. *)
Lemma mapM_total {A B} (f : A -> result B) l : (forall a, In a l -> exists b, f a = Ok b) -> exists out, mapM f l = Ok out.
Proof.
  induction l as [|a l IH]; intro H; [now exists []|]. destruct (H a (or_introl eq_refl)) as (b & Eb). destruct (IH (fun x Hx => H x (or_intror Hx))) as (out & Eo).
  exists (b :: out). cbn. now rewrite Eb, Eo.
Qed.
Lemma estimate_r2 ols target p X (y : list R) sp mask : exists e, estimate_support (N := Rnum) ols "r2" target p X y sp mask = Ok e.
Proof.
  unfold estimate_support, linear_score, take_rows, ls_predict, masked_columns, matrix_rows. rewrite !map_length, repeat_length, !Nat.eqb_refl. cbn [negb].
  change ("r2" =? "r2")%string with true. cbn [bind]. destruct (existsb (fun b => b) mask); eexists; reflexivity.
Qed.
Lemma fit_r2 standardize has target p ols select splits X (y : list R) : select (fst (linear_pre (N := Rnum) standardize has p X y)) (snd (linear_pre (N := Rnum) standardize has p X y)) <> [] ->
  exists c b, regressor_fit (N := Rnum) standardize has "r2" target p ols select splits X y = Ok (c, b).
Proof.
  intro H. unfold regressor_fit. set (D := linear_pre _ _ _ _ _) in *. destruct (constant_response (snd D)); cbn [bind]; [eexists; eexists; rewrite <- surjective_pairing; reflexivity|].
  unfold estimation_module. destruct (mapM_total (fun sp => let* out := mapM (estimate_support (N := Rnum) ols "r2" target p (fst D) (snd D) sp) (select (fst D) (snd D)) in best_estimate out) splits) as (out & E).
  - intros sp _. destruct (mapM_total (estimate_support (N := Rnum) ols "r2" target p (fst D) (snd D) sp) (select (fst D) (snd D)) (fun m _ => estimate_r2 ols target p (fst D) (snd D) sp m)) as (o & Eo).
    pose proof (mapM_length _ _ _ Eo) as Lo. rr. rewrite Eo. cbn [bind]. destruct o as [|e o]; [destruct (select (fst D) (snd D)); [easy|discriminate]|]. unfold best_estimate. cbn. eexists. reflexivity.
  - rr. rewrite E. cbn [bind]. eexists. eexists. rewrite <- surjective_pairing. reflexivity.
Qed.

Lemma flat_example (ols : solver_ls (N := Rnum)) :
  exists c b, lasso_fit (N := Rnum) false true (1 / 2) 2 [2%Z] "r2" 1 2 flat_net ols flat_splits flat_splits flat_X flat_y = Ok (c, b) /\ entry c 1 = 0.
Proof.
  destruct (lasso_flat false true "r2" 1 4 2 flat_X flat_y (1 / 2) 2 [2%Z] flat_net ols flat_splits flat_splits sees_change 1
    flat_matrix eq_refl ltac:(lia) ltac:(lia) ltac:(discriminate) flat_seen) as [_ F].
  - intros t [<-|[]]. reflexivity.
  - change (fst (linear_pre (N := Rnum) false true 2 flat_X flat_y)) with flat_X. change (snd (linear_pre (N := Rnum) false true 2 flat_X flat_y)) with flat_y.
    intros sp lam g Hsp Hi Eg Hl. exact (flat_solves sp lam Hsp Hi (grid_pos true 2 flat_X flat_y 1 (1 / 2) 2 g Eg lam Hl)).
  - destruct (fit_r2 false true 1 2 ols (lasso_select (N := Rnum) true 2 (1 / 2) 2 flat_net [2%Z] flat_splits) flat_splits flat_X flat_y) as (c & b & E).
    + change (fst (linear_pre (N := Rnum) false true 2 flat_X flat_y)) with flat_X. change (snd (linear_pre (N := Rnum) false true 2 flat_X flat_y)) with flat_y.
      unfold lasso_select, lasso_grid, alpha_grid. assert (Q : neqb (n := Rnum) none nzero = false) by (unfold none, nzero; cbn [neqb nofZ Rnum]; unfold Reqb; destruct (Req_EM_T 1 0); [lra|reflexivity]).
      rr. rewrite Q. destruct (nleb _ resolution); cbn [rmap select_with]; unfold selection_module; intro U;
      match type of U with usort row_cmp (flat_map ?f [2%Z]) = [] => pose proof (proj2 (usort_rows_in (nth 0 (f 2%Z) []) (flat_map f [2%Z]))) as V end; rewrite U in V; apply V; left; reflexivity.
    + exists c, b. split; [exact E|exact (F c b E)].
Qed.
Lemma flat_elastic : let D := linear_pre (N := Rnum) false true 2 flat_X flat_y in
  forall sp (lam mix : R) g, In sp flat_splits -> sees_change sp = false -> elastic_reg_params (N := Rnum) true 2 (fst D) (snd D) (1 / 2) 2 [1] = Ok g -> In (RegPair lam mix) g ->
     let Xr := samples (fst D) (fst sp) in let yr := part_y (snd D) (fst sp) in
     net_solution true (length (fst sp)) 2 Xr yr lam mix (flat_net Xr yr lam mix).
Proof.
  intro D. change (fst D) with flat_X. change (snd D) with flat_y. intros sp lam mix g Hsp Hi Eg Hl. unfold elastic_reg_params in Eg. cbn [mapM] in Eg.
  destruct (alpha_grid (N := Rnum) true 2 flat_X flat_y 1 (1 / 2) 2) as [gr|] eqn:E; cbn [bind rmap] in Eg; [|discriminate]. injection Eg as <-.
  destruct (pairs_in [1] [gr] _ Hl) as (a & g' & lam' & Eq & [Ha|[]] & Hlam). injection Ha as <- <-. injection Eq as -> ->.
  exact (flat_solves sp lam' Hsp Hi (grid_pos true 2 flat_X flat_y 1 (1 / 2) 2 gr E lam' Hlam)).
Qed.
