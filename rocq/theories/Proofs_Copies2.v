(** Concrete data for C132. *)
From Coq Require Import ZArith String List Bool Arith Lia Reals Lra Psatz.
From Verif Require Import Prelude F64 Num Model_Intersection Model_Fit Model_Scores Model_Refit Model_Rescale Model_Poisson Model_Linear Model_Estimation Model_Selection
  Proofs_Intersection Spec_Rescale Proofs_Rescale Spec_Poisson Proofs_Poisson Spec_Linear Proofs_Linear
  Spec_Estimation Proofs_Estimation Proofs_Choice Spec_Units Proofs_Units4 Spec_Flat Proofs_Flat Proofs_Flat2 Spec_Copies Proofs_Copies.
Import ListNotations.
Local Open Scope R_scope.

(** The response is the feature, twice as strong in the second half. *)
Definition copy_X : list (list R) := [[1; 1]; [-1; -1]; [1; 1]; [-1; -1]].
Definition copy_y : list R := [1; -1; 2; -2].
Definition copy_splits : list Model_Fit.split := [([0; 1], [2; 3]); ([2; 3], [0; 1])]%nat.
(** The minimizers: all on the first copy, or shared. *)
Definition copy_net : solver_net (N := Rnum) := fun X y lam mix => [Rmax 0 (entry y 0 - lam); 0].
Definition shared_net : solver_net (N := Rnum) := fun X y lam mix => let v := Rmax 0 ((entry y 0 - lam / 2) / (2 + lam / 2)) in [v; v].

Lemma copy_matrix : matrix 4 2 copy_X.
Proof. split; [reflexivity|]. repeat constructor. Qed.
Lemma copy_copies : copies 4 copy_X 0 1.
Proof. intros [|[|[|[|i]]]] Hi; try reflexivity. lia. Qed.
Lemma copy_rows sp : In sp copy_splits -> forall i, In i (fst sp) -> (i < 4)%nat.
Proof. intros [<-|[<-|[]]] i Hi; cbn [fst In] in Hi; lia. Qed.
Lemma copy_lasso (t lam : R) : 0 < t -> 0 < lam -> net_solution true 2 2 [[1; 1]; [-1; -1]] [t; -t] lam 1 [Rmax 0 (t - lam); 0].
Proof.
  intros Ht Hl. exists 0. split; [reflexivity|]. split; [reflexivity|]. intros [|c [|e [|]]] b L _; try discriminate.
  unfold net, penalty, eta, Sum, mat, entry. cbn. set (u := Rmax 0 (t - lam)). rewrite Rabs_R0.
  assert (Hu : 0 <= u) by apply Rmax_l. rewrite (Rabs_pos_eq u Hu).
  pose proof (Rle_0_sqr b) as Q. unfold Rsqr in Q.
  pose proof (Rle_abs c) as A1. pose proof (Rle_abs e) as A2. pose proof (Rabs_pos c) as P1. pose proof (Rabs_pos e) as P2.
  assert (K : 1 / 2 * ((t - u) * (t - u)) + lam * u <= 1 / 2 * ((t - (c + e)) * (t - (c + e))) + lam * (Rabs c + Rabs e)).
  { set (s := c + e). set (w := Rabs c + Rabs e). assert (Hw : s <= w) by (unfold s, w; lra). assert (W0 : 0 <= w) by (unfold w; lra).
    unfold u, Rmax. destruct (Rle_dec 0 (t - lam)) as [G|G].
    - pose proof (Rmult_le_compat_l lam s w (Rlt_le _ _ Hl) Hw). pose proof (Rle_0_sqr (s - (t - lam))) as S. unfold Rsqr in S. lra.
    - pose proof (Rle_0_sqr s) as S. unfold Rsqr in S. pose proof (Rmult_le_compat_r w t lam W0 ltac:(lra)). pose proof (Rmult_le_compat_l t s w (Rlt_le _ _ Ht) Hw). lra. }
  match goal with |- ?l <= ?r => replace l with (1 / 2 * ((t - u) * (t - u)) + lam * u) by field;
    replace r with (1 / 2 * ((t - (c + e)) * (t - (c + e))) + lam * (Rabs c + Rabs e) + 1 / 2 * (b * b)) by field end. lra.
Qed.
Lemma copy_ridge (t lam : R) : 0 < t -> 0 < lam -> let v := Rmax 0 ((t - lam / 2) / (2 + lam / 2)) in
  net_solution true 2 2 [[1; 1]; [-1; -1]] [t; -t] lam (1 / 2) [v; v].
Proof.
  intros Ht Hl v. exists 0. split; [reflexivity|]. split; [reflexivity|]. intros [|c [|e [|]]] b L _; try discriminate.
  unfold net, penalty, eta, Sum, mat, entry. cbn.
  assert (Hv : 0 <= v) by apply Rmax_l. rewrite (Rabs_pos_eq v Hv).
  pose proof (Rle_0_sqr b) as Q. unfold Rsqr in Q.
  pose proof (Rle_abs c) as A1. pose proof (Rle_abs e) as A2. pose proof (Rabs_pos c) as P1. pose proof (Rabs_pos e) as P2.
  assert (K : 1 / 2 * ((t - 2 * v) * (t - 2 * v)) + lam * v + lam / 2 * (v * v)
    <= 1 / 2 * ((t - (c + e)) * (t - (c + e))) + lam / 2 * (Rabs c + Rabs e) + lam / 4 * (c * c + e * e)).
  { set (w := Rabs c + Rabs e). assert (Hw : c + e <= w) by (unfold w; lra). assert (W0 : 0 <= w) by (unfold w; lra).
    pose proof (Rmult_le_compat_l (lam / 2) _ w ltac:(lra) Hw) as M1.
    assert (Z : v = 0 /\ t <= lam / 2 \/ v * (2 + lam / 2) = t - lam / 2).
    { unfold v, Rmax. destruct (Rle_dec 0 ((t - lam / 2) / (2 + lam / 2))) as [G|G]; [right; field; lra|left]. split; [reflexivity|].
      destruct (Rle_dec t (lam / 2)) as [|N]; [assumption|]. elim G. apply Rmult_le_pos; [lra|]. left. apply Rinv_0_lt_compat. lra. }
    pose proof (Rle_0_sqr (c - v)) as S1. pose proof (Rle_0_sqr (e - v)) as S2. pose proof (Rle_0_sqr (c + e - 2 * v)) as S3. unfold Rsqr in S1, S2, S3.
    pose proof (Rmult_le_pos (lam / 4) _ ltac:(lra) S1) as T1. pose proof (Rmult_le_pos (lam / 4) _ ltac:(lra) S2) as T2.
    destruct Z as [[-> Ht2]|Z].
    - pose proof (Rmult_le_compat_r w t _ W0 Ht2). pose proof (Rmult_le_compat_l t _ w (Rlt_le _ _ Ht) Hw). lra.
    - assert (T : t = v * (2 + lam / 2) + lam / 2) by lra. rewrite T. clear - M1 S3 T1 T2. nra. }
  match goal with |- ?l <= ?r => replace l with (1 / 2 * ((t - 2 * v) * (t - 2 * v)) + lam * v + lam / 2 * (v * v)) by field;
    replace r with (1 / 2 * ((t - (c + e)) * (t - (c + e))) + lam / 2 * (Rabs c + Rabs e) + lam / 4 * (c * c + e * e) + 1 / 2 * (b * b)) by field end. lra.
Qed.

(** The hypotheses of [lasso_wavering] hold; the fit of the solver that wavers loses both copies. *)
Lemma copy_example (ols : solver_ls (N := Rnum)) : exists net' : solver_net (N := Rnum),
  (forall sp (lam : R) (g : list R), In sp copy_splits -> lasso_grid (N := Rnum) true 2 copy_X copy_y (1 / 2) 2 = Ok g -> In lam g ->
     net_solution true (length (fst sp)) 2 (samples copy_X (fst sp)) (part_y copy_y (fst sp)) lam 1 (net' (samples copy_X (fst sp)) (part_y copy_y (fst sp)) lam 1)) /\
  forall c b, lasso_fit (N := Rnum) false true (1 / 2) 2 [2%Z] "r2" 1 2 net' ols copy_splits copy_splits copy_X copy_y = Ok (c, b) -> entry c 0 = 0 /\ entry c 1 = 0.
Proof.
  destruct (lasso_wavering false true "r2" 1 4 2 copy_X copy_y (1 / 2) 2 [2%Z] copy_net ols copy_splits copy_splits 0 1
    copy_matrix eq_refl ltac:(lia) ltac:(lia) ltac:(lia) ltac:(lia) copy_copies ltac:(discriminate) copy_rows) as (net' & S' & _ & F).
  - change (fst (linear_pre (N := Rnum) false true 2 copy_X copy_y)) with copy_X. change (snd (linear_pre (N := Rnum) false true 2 copy_X copy_y)) with copy_y.
    intros sp lam g Hsp Eg Hl. pose proof (grid_pos true 2 copy_X copy_y 1 (1 / 2) 2 g Eg lam Hl) as Pl.
    destruct Hsp as [<-|[<-|[]]]; [exact (copy_lasso 1 lam ltac:(lra) Pl)|exact (copy_lasso 2 lam ltac:(lra) Pl)].
  - intros t [<-|[]]. reflexivity.
  - exists ([0; 1], [2; 3])%nat, ([2; 3], [0; 1])%nat. split; [now left|]. split; [now right; left|].
    change ([1; -1] <> [2; -2]). intro E. injection E. lra.
  - exists net'. split; [exact S'|exact F].
Qed.
Lemma copy_elastic : forall ts mask, In mask (elastic_select (N := Rnum) true 2 (1 / 2) 2 [1 / 2] shared_net ts copy_splits copy_X copy_y) -> nth 0 mask false = nth 1 mask false.
Proof.
  intro ts. refine (elastic_copies false true 4 2 copy_X copy_y (1 / 2) 2 [1 / 2] ts shared_net copy_splits 0 1
    copy_matrix eq_refl ltac:(lia) ltac:(lia) ltac:(lia) ltac:(lia) copy_copies _ _).
  - intros a [<-|[]]. lra.
  - change (fst (linear_pre (N := Rnum) false true 2 copy_X copy_y)) with copy_X. change (snd (linear_pre (N := Rnum) false true 2 copy_X copy_y)) with copy_y.
    intros sp lam mix g Hsp Eg Hl. split; [exact (copy_rows sp Hsp)|]. unfold elastic_reg_params in Eg. cbn [mapM] in Eg.
    destruct (alpha_grid (N := Rnum) true 2 copy_X copy_y (1 / 2) (1 / 2) 2) as [gr|] eqn:E; cbn [bind rmap] in Eg; [|discriminate]. injection Eg as <-.
    destruct (pairs_in [1 / 2] [gr] _ Hl) as (a & g' & lam' & Eq & [Ha|[]] & Hlam). injection Ha as <- <-. injection Eq as -> ->.
    pose proof (grid_pos true 2 copy_X copy_y (1 / 2) (1 / 2) 2 gr E lam' Hlam) as Pl.
    destruct Hsp as [<-|[<-|[]]]; [exact (copy_ridge 1 lam' ltac:(lra) Pl)|exact (copy_ridge 2 lam' ltac:(lra) Pl)].
Qed.
