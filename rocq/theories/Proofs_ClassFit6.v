(** Proofs about swapping the two classes (C128): a tie among the training samples. *)
From Coq Require Import ZArith String List Bool Arith Lia Reals Lra Psatz.
From Verif Require Import Prelude F64 Num Model_Intersection Model_Fit Model_Scores Model_Refit Model_Rescale Model_Poisson Model_Linear Model_Estimation Model_Selection Model_ClassFit
  Proofs_Intersection Spec_Rescale Proofs_Rescale Spec_Poisson Proofs_Poisson Spec_Linear Proofs_Linear
  Spec_Estimation Proofs_Estimation Spec_Choice Spec_Units Proofs_Units3 Proofs_CountFit4 Spec_ClassFit Proofs_ClassFit Proofs_ClassFit2 Proofs_ClassFit3 Proofs_ClassFit4 Proofs_ClassFit5.
From Verif Require Proofs_Totals Model_Logistic Model_Labels Spec_Logistic Proofs_Logistic Proofs_LogisticGrid Proofs_LogisticIntercept.
Import ListNotations.
Local Open Scope R_scope.


(** ** Ten samples *)
Lemma six_matrix : matrix 10 2 six_X.
Proof. split; [reflexivity|]. unfold six_X, minus, plus. repeat constructor. Qed.
Lemma six_codes : Model_Labels.codes (map label six_z) = six_z /\ Model_Labels.codes (map label (map other six_z)) = map other six_z.
Proof. split; reflexivity. Qed.
Lemma six_binary : Forall (fun v => (v < 2)%nat) six_z.
Proof. unfold six_z. repeat constructor. Qed.
Lemma six_share : Spec_Logistic.share six_z = 1 / 2.
Proof. unfold Spec_Logistic.share. change (Spec_Logistic.count 1 six_z) with 5%nat. change (length six_z) with 10%nat. cbn [INR]. field. Qed.
Lemma six_centered j : (j < 2)%nat -> Sum 10 (fun i => mat six_X i j) = 0.
Proof. intro H. destruct j as [|[|j]]; [| |lia]; unfold six_X, minus, plus; sums; ring. Qed.
Lemma six_grid : class_Cs (N := Rnum) true 2 (1 / 2) 1 six_X six_z = Ok [20].
Proof.
  destruct (Proofs_LogisticGrid.alpha_max_binary 10 2 six_X six_z six_matrix ltac:(lia) eq_refl six_binary ltac:(lia)) as (A & EA & MA).
  pose proof Proofs_Logistic.tiny_pos as T. rewrite share_clipped in MA by (rewrite six_share; lra). rewrite six_share in MA.
  assert (I : INR 10 = 10) by (cbn; ring). rewrite I in MA.
  assert (S0 : Sum 10 (fun i => INR (nth i six_z 0%nat) * mat six_X i 0) = 1) by (unfold six_X, six_z, minus, plus; sums; ring).
  assert (S1 : Sum 10 (fun i => INR (nth i six_z 0%nat) * mat six_X i 1) = 0) by (unfold six_X, six_z, minus, plus; sums; ring).
  assert (E : A = / 20).
  { destruct MA as (U & j & Hj & E). pose proof (U 0%nat ltac:(lia)) as U0. cbn beta in U0. rewrite S0, Rabs_pos_eq in U0 by lra.
    destruct j as [|[|j]]; [| |lia]; [rewrite S0, Rabs_pos_eq in E by lra; lra|]. rewrite S1, Rmult_0_r, Rabs_R0 in E. lra. }
  unfold class_Cs. rewrite EA. cbn [rmap]. rewrite E, C_one by lra. now rewrite Rinv_inv.
Qed.
Lemma six_grid_swapped : class_Cs (N := Rnum) true 2 (1 / 2) 1 six_X (map other six_z) = Ok [20].
Proof. rewrite <- six_grid. exact (grid_swapped 10 2 six_X six_z (1 / 2) 1 six_matrix ltac:(lia) ltac:(lia) eq_refl six_binary six_share six_centered). Qed.
Lemma six_select : class_select (N := Rnum) 2 group_sel [1%Z; 2%Z] [20] [six_split; six_four] six_X six_z = [[false; false]; [true; false]].
Proof.
  apply (select_two group_sel 20 six_X six_z six_split six_four ((logit (2 / 3 - / 20) - logit (1 / 3 + / 20)) / 2) ((logit (1 / 3 + / 20) + logit (2 / 3 - / 20)) / 2) 0).
  - change (group_lm six_T six_y (/ 20) = ([(logit (2 / 3 - / 20) - logit (1 / 3 + / 20)) / 2; 0], (logit (1 / 3 + / 20) + logit (2 / 3 - / 20)) / 2)).
    destruct (group_value six_T six_y (/ 20) _ eq_refl eq_refl) as [V _]. exact (V eq_refl).
  - pose proof (logit_lt (1 / 3 + / 20) (2 / 3 - / 20) ltac:(lra) ltac:(lra) ltac:(lra)). lra.
  - change (group_lm four_X four_y (/ 20) = ([0; 0], 0)). rewrite four_lm by reflexivity. unfold group_model. cbn [repeat Nat.sub]. f_equal; [f_equal; field|field].
Qed.
Lemma six_solvers sp C : In sp [six_split; six_four] -> In C [20] ->
  let Xr := samples six_X (fst sp) in let yr := part_y (map INR six_z) (fst sp) in let k := length (fst sp) in
  (forall i, In i (fst sp) -> (i < 10)%nat) /\ clear_classes k 2 Xr yr (/ C) /\
  class_minimizer k 2 Xr yr (/ C) (group_sel Xr yr C) /\ class_minimizer k 2 Xr (swapped yr) (/ C) (group_sel Xr (swapped yr) C).
Proof.
  intros [<-|[<-|[]]] [<-|[]].
  - split; [intros i Hi; in_cases Hi|]. destruct (six_min 2 (/ 20) (or_intror eq_refl) ltac:(lra)) as (D1 & _ & D3 & D4). split; [exact (D3 ltac:(lra))|]. split; [exact D1|exact D4].
  - split; [intros i Hi; in_cases Hi|]. destruct (four_min (/ 20) ltac:(lra)) as (D1 & D2 & D3). split; [exact D1|]. split; [exact D2|exact D3].
Qed.
Lemma six_select_swapped : class_select (N := Rnum) 2 group_sel [1%Z; 2%Z] [20] [six_split; six_four] six_X (map other six_z) = [[false; false]; [true; false]].
Proof. rewrite <- six_select. exact (select_swapped 10 2 six_X six_z [1%Z; 2%Z] [20] group_sel [six_split; six_four] eq_refl six_binary six_solvers). Qed.

Lemma logit_third : logit (1 / 3) = - ln 2 /\ logit (2 / 3) = ln 2.
Proof. unfold logit. split; [replace (1 / 3 / (1 - 1 / 3)) with (/ 2) by field; apply ln_Rinv; lra|f_equal; field]. Qed.
Lemma ln2_pos : 0 < ln 2.
Proof. rewrite <- ln_1. apply ln_increasing; lra. Qed.
Lemma six_model : group_model 1 (logit (1 / 3 + 0)) (logit (2 / 3 - 0)) = ([ln 2], 0).
Proof. rewrite Rplus_0_r, Rminus_0_r. destruct logit_third as [-> ->]. unfold group_model. cbn [repeat Nat.sub]. f_equal; [f_equal; field|field]. Qed.
Lemma six_est : group_est (part six_X (fst six_split) [true; false]) (part_y (map INR six_z) (fst six_split)) = ([ln 2], 0).
Proof.
  change (group_lm (cols 1 six_T) six_y 0 = ([ln 2], 0)).
  destruct (group_value (cols 1 six_T) six_y 0 _ eq_refl eq_refl) as [V _]. rewrite (V eq_refl). exact six_model.
Qed.
Lemma six_other : part_y (map INR (map other six_z)) (fst six_split) = [0; 1; 1; 0; 0; 1].
Proof. reflexivity. Qed.
Lemma six_swapped_y : swapped six_y = [0; 1; 1; 0; 0; 1].
Proof. unfold swapped, six_y. cbn [map]. repeat (f_equal; try ring). Qed.
Lemma six_est_swapped : group_est (part six_X (fst six_split) [true; false]) (part_y (map INR (map other six_z)) (fst six_split)) = ([- ln 2], 0).
Proof.
  rewrite six_other. change (group_lm (cols 1 six_T) [0; 1; 1; 0; 0; 1] 0 = ([- ln 2], 0)).
  destruct (group_value (cols 1 six_T) [0; 1; 1; 0; 0; 1] 0 _ eq_refl eq_refl) as [_ V]. rewrite (V eq_refl).
  refine (eq_trans (f_equal flip six_model) _). unfold flip, opposite. cbn [fst snd map]. f_equal. ring.
Qed.
Lemma decided_sign (c x : R) : decided [c] 0 [x] = if Rlt_dec 0 (x * c + 0 + 0) then 1%nat else 0%nat.
Proof. rewrite decided_R. reflexivity. Qed.

Lemma six_fit clip :
  class_fit (N := Rnum) false true (1 / 2) 1 [1%Z; 2%Z] clip "acc" 1 2 group_sel group_est (exact_refit 2) [six_split; six_four] [six_split] six_X (map label six_z) = Ok ([0; 0], exact_refit 2 six_X [0; 0] six_z).
Proof.
  destruct six_codes as [K _]. pose proof ln2_pos as P.
  pose proof (fit_two group_sel group_est (exact_refit 2) clip (1 / 2) 20 10 six_X (map label six_z) six_split six_four [0; 0] [ln 2; 0] 1 (1 / 2)) as Q. cbv zeta in Q. rewrite K in Q.
  destruct (Rlt_dec 1 (1 / 2)) as [H|H]; [lra|]. apply Q.
  - reflexivity.
  - exists 0%nat, 1%nat. cbn. lia.
  - exact six_grid.
  - exact six_select.
  - refine (eq_trans (estimate_empty group_est clip six_X (map label six_z) (fst six_split) (snd six_split) 1%nat _) _).
    + rewrite K. apply predict_tie; [repeat constructor|]. change (Spec_Logistic.share [1; 0; 0; 1; 1; 0]%nat = 1 / 2).
      unfold Spec_Logistic.share. change (Spec_Logistic.count 1 [1; 0; 0; 1; 1; 0]%nat) with 3%nat. cbn [length INR]. field.
    + rewrite K. cbn [six_split snd map nth six_z length repeat]. rewrite acc_two. cbn [Nat.eqb]. do 2 f_equal. field.
  - refine (eq_trans (estimate_feature group_est clip six_X (map label six_z) (fst six_split) (snd six_split) (ln 2) 0 _) _).
    + rewrite K. exact six_est.
    + rewrite K. change (masked_columns (N := Rnum) [true; false] (matrix_rows (N := Rnum) six_X (snd six_split))) with [[1]; [-1]]. cbn [map six_split snd nth six_z].
      rewrite !decided_sign. destruct (Rlt_dec 0 (1 * ln 2 + 0 + 0)); [|lra]. destruct (Rlt_dec 0 (-1 * ln 2 + 0 + 0)); [lra|]. rewrite acc_two. cbn [Nat.eqb]. do 2 f_equal. field.
  - lra.
  - reflexivity.
  - reflexivity.
Qed.
Lemma six_fit_swapped clip :
  class_fit (N := Rnum) false true (1 / 2) 1 [1%Z; 2%Z] clip "acc" 1 2 group_sel group_est (exact_refit 2) [six_split; six_four] [six_split] six_X (map label (map other six_z)) = Ok ([- ln 2; 0], exact_refit 2 six_X [- ln 2; 0] (map other six_z)).
Proof.
  destruct six_codes as [_ K]. pose proof ln2_pos as P.
  pose proof (fit_two group_sel group_est (exact_refit 2) clip (1 / 2) 20 10 six_X (map label (map other six_z)) six_split six_four [0; 0] [- ln 2; 0] 0 (1 / 2)) as Q. cbv zeta in Q. rewrite K in Q.
  destruct (Rlt_dec 0 (1 / 2)) as [H|H]; [|lra]. apply Q.
  - reflexivity.
  - exists 0%nat, 1%nat. cbn. lia.
  - exact six_grid_swapped.
  - exact six_select_swapped.
  - refine (eq_trans (estimate_empty group_est clip six_X (map label (map other six_z)) (fst six_split) (snd six_split) 1%nat _) _).
    + rewrite K. apply predict_tie; [repeat constructor|]. change (Spec_Logistic.share [0; 1; 1; 0; 0; 1]%nat = 1 / 2).
      unfold Spec_Logistic.share. change (Spec_Logistic.count 1 [0; 1; 1; 0; 0; 1]%nat) with 3%nat. cbn [length INR]. field.
    + rewrite K. cbn [six_split snd map nth six_z length repeat other Nat.sub]. rewrite acc_two. cbn [Nat.eqb]. do 2 f_equal. field.
  - refine (eq_trans (estimate_feature group_est clip six_X (map label (map other six_z)) (fst six_split) (snd six_split) (- ln 2) 0 _) _).
    + rewrite K. exact six_est_swapped.
    + rewrite K. change (masked_columns (N := Rnum) [true; false] (matrix_rows (N := Rnum) six_X (snd six_split))) with [[1]; [-1]]. cbn [map six_split snd nth six_z other Nat.sub].
      rewrite !decided_sign. destruct (Rlt_dec 0 (1 * - ln 2 + 0 + 0)); [lra|]. destruct (Rlt_dec 0 (-1 * - ln 2 + 0 + 0)); [|lra]. rewrite acc_two. cbn [Nat.eqb]. do 2 f_equal. field.
  - lra.
  - reflexivity.
  - reflexivity.
Qed.

Lemma ties_found : exists n X y y2 (sel_lm : solver_C (N := Rnum)) (est_lm : solver_ml (N := Rnum)) (refit : refitter (N := Rnum)) four sp C b b',
  let z := Model_Labels.codes y in
  Model_Labels.codes y2 = map other z /\ Spec_Logistic.share (map (fun i => nth i z 0%nat) (fst sp)) = 1 / 2 /\
  class_Cs (N := Rnum) true 2 (1 / 2) 1 X z = Ok [C] /\ class_Cs (N := Rnum) true 2 (1 / 2) 1 X (map other z) = Ok [C] /\
  (forall s, In s [sp; four] -> let Xr := samples X (fst s) in let yr := part_y (map INR z) (fst s) in let k := length (fst s) in
     clear_classes k 2 Xr yr (/ C) /\ class_minimizer k 2 Xr yr (/ C) (sel_lm Xr yr C) /\ class_minimizer k 2 Xr (swapped yr) (/ C) (sel_lm Xr (swapped yr) C)) /\
  (let Xr := part X (fst sp) [true; false] in let yr := part_y (map INR z) (fst sp) in
     only_class_minimizer (length (fst sp)) 1 Xr yr 0 (est_lm Xr yr) /\ class_minimizer (length (fst sp)) 1 Xr (swapped yr) 0 (est_lm Xr (swapped yr))) /\
  (forall c w, length c = 2%nat -> w = z \/ w = map other z -> matching_intercept n 2 X (map INR w) c (refit X c w)) /\
  forall clip,
  class_fit (N := Rnum) false true (1 / 2) 1 [1%Z; 2%Z] clip "acc" 1 2 sel_lm est_lm refit [sp; four] [sp] X y = Ok ([0; 0], b) /\
  class_fit (N := Rnum) false true (1 / 2) 1 [1%Z; 2%Z] clip "acc" 1 2 sel_lm est_lm refit [sp; four] [sp] X y2 = Ok ([- ln 2; 0], b').
Proof.
  destruct six_codes as [K K2].
  exists 10%nat, six_X, (map label six_z), (map label (map other six_z)), group_sel, group_est, (exact_refit 2), six_four, six_split, 20, (exact_refit 2 six_X [0; 0] six_z), (exact_refit 2 six_X [- ln 2; 0] (map other six_z)).
  cbv zeta. rewrite K, K2. split; [reflexivity|]. split.
  { change (Spec_Logistic.share [1; 0; 0; 1; 1; 0]%nat = 1 / 2). unfold Spec_Logistic.share. change (Spec_Logistic.count 1 [1; 0; 0; 1; 1; 0]%nat) with 3%nat. cbn [length INR]. field. }
  split; [exact six_grid|]. split; [exact six_grid_swapped|]. split.
  { intros s Hs. exact (proj2 (six_solvers s 20 Hs (or_introl eq_refl))). }
  split. { destruct (six_min 1 0 (or_introl eq_refl) ltac:(lra)) as (_ & D2 & _ & D4). split; [exact (D2 eq_refl)|exact D4]. }
  split. { intros c w Lc Hw. apply exact_matches; [destruct Hw as [-> | ->]; reflexivity|lia|]. destruct Hw as [-> | ->]; unfold six_z, other; cbn [map Nat.sub]; sums; lra. }
  intro clip. split; [exact (six_fit clip)|exact (six_fit_swapped clip)].
Qed.
