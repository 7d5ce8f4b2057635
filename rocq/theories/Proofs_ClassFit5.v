(** Proofs about swapping the two classes (C128): the fits of the two data sets. *)
From Coq Require Import ZArith String List Bool Arith Lia Reals Lra Psatz.
From Verif Require Import Prelude F64 Num Model_Intersection Model_Fit Model_Scores Model_Refit Model_Rescale Model_Poisson Model_Linear Model_Estimation Model_Selection Model_ClassFit
  Proofs_Intersection Spec_Rescale Proofs_Rescale Spec_Poisson Proofs_Poisson Spec_Linear Proofs_Linear
  Spec_Estimation Proofs_Estimation Spec_Choice Spec_Units Proofs_Units3 Proofs_CountFit4 Spec_ClassFit Proofs_ClassFit Proofs_ClassFit2 Proofs_ClassFit3 Proofs_ClassFit4.
From Verif Require Proofs_Totals Model_Logistic Model_Labels Spec_Logistic Proofs_Logistic Proofs_LogisticGrid Proofs_LogisticIntercept.
Import ListNotations.
Local Open Scope R_scope.

Lemma select_two (sel_lm : solver_C (N := Rnum)) (C : R) X y tr four c b b' :
  sel_lm (samples X (fst tr)) (part_y (map INR y) (fst tr)) C = ([c; 0], b) -> c <> 0 ->
  sel_lm (samples X (fst four)) (part_y (map INR y) (fst four)) C = ([0; 0], b') ->
  class_select (N := Rnum) 2 sel_lm [1%Z; 2%Z] [C] [tr; four] X y = [[false; false]; [true; false]].
Proof.
  intros E1 Hc E2. unfold class_select. rewrite numbers_R. unfold selection_module, stable_rows, selection_sweep.
  cbn [flat_map app map length seq nth apply_params count fst].
  assert (F1 : sel_lm (matrix_rows (N := Rnum) X (fst tr)) (take_rows (N := Rnum) (map INR y) (fst tr)) C = ([c; 0], b)) by exact E1.
  assert (F2 : sel_lm (matrix_rows (N := Rnum) X (fst four)) (take_rows (N := Rnum) (map INR y) (fst four)) C = ([0; 0], b')) by exact E2.
  rr. rewrite F1, F2. cbn [fst nth]. rewrite (nonzero_pos c Hc), zero_nonzero. reflexivity.
Qed.

Lemma estimate_feature (est_lm : solver_ml (N := Rnum)) (clip : R) X y tr ts (c b : R) :
  est_lm (masked_columns (N := Rnum) [true; false] (matrix_rows (N := Rnum) X tr)) (part_y (map INR (Model_Labels.codes y)) tr) = ([c], b) ->
  estimate_class (N := Rnum) est_lm clip "acc" 1 2 X y (tr, ts) [true; false] =
  Ok ([c; 0], Model_Labels.accuracy (N := Rnum) (map (fun i => nth i (Model_Labels.codes y) 0%nat) ts) (map (decided [c] b) (masked_columns (N := Rnum) [true; false] (matrix_rows (N := Rnum) X ts)))).
Proof.
  intro E. unfold estimate_class. cbn [existsb orb fst snd]. rewrite numbers_R.
  assert (F : est_lm (masked_columns (N := Rnum) [true; false] (matrix_rows (N := Rnum) X tr)) (take_rows (N := Rnum) (map INR (Model_Labels.codes y)) tr) = ([c], b)) by exact E.
  rr. rewrite F. cbn [fst snd]. unfold Model_Labels.logistic_score, glm_score. cbn [String.eqb Ascii.eqb Bool.eqb target_rows Nat.eqb snd bind]. rewrite map_map. reflexivity.
Qed.
Lemma estimate_empty (est_lm : solver_ml (N := Rnum)) (clip : R) X y tr ts v :
  Model_Logistic.binary_predict (N := Rnum) (Model_Logistic.binary_intercept (N := Rnum) (map (fun i => nth i (Model_Labels.codes y) 0%nat) tr)) = v ->
  estimate_class (N := Rnum) est_lm clip "acc" 1 2 X y (tr, ts) [false; false] =
  Ok ([0; 0], Model_Labels.accuracy (N := Rnum) (map (fun i => nth i (Model_Labels.codes y) 0%nat) ts) (repeat v (length ts))).
Proof.
  intro E. unfold estimate_class. cbn [existsb orb fst snd]. unfold Model_Labels.logistic_score, glm_score. cbn [String.eqb Ascii.eqb Bool.eqb target_rows Nat.eqb snd bind]. rr. rewrite E. reflexivity.
Qed.
Lemma module_two (est_lm : solver_ml (N := Rnum)) refit (clip : R) X y sp (c0 c1 : list R) (v0 v1 : R) :
  estimate_class (N := Rnum) est_lm clip "acc" 1 2 X y sp [false; false] = Ok (c0, v0) ->
  estimate_class (N := Rnum) est_lm clip "acc" 1 2 X y sp [true; false] = Ok (c1, v1) -> v0 <> v1 ->
  length c0 = 2%nat -> length c1 = 2%nat ->
  let c := if Rlt_dec v0 v1 then c1 else c0 in
  class_module (N := Rnum) est_lm refit clip "acc" 1 2 true X y [[false; false]; [true; false]] [sp] = Ok (c, refit X c (Model_Labels.codes y)).
Proof.
  intros E0 E1 D L0 L1 c. destruct (best2 c0 c1 v0 v1 D) as (k & Eb & Hk).
  assert (G : (if k then c1 else c0) = c).
  { unfold c. destruct (Rlt_dec v0 v1) as [H|H]; destruct k; try reflexivity; exfalso; [pose proof (proj2 Hk H); discriminate|exact (H (proj1 Hk eq_refl))]. }
  unfold class_module. cbn [mapM bind]. rr. rewrite E0. cbn [bind]. rewrite E1. cbn [bind]. rewrite Eb. cbn [bind]. rewrite G.
  assert (Gb : bagged (N := Rnum) 2 [c] = c).
  { clear G. assert (Lc : length c = 2%nat) by (unfold c; destruct Rlt_dec; assumption). destruct c as [|a [|a' [|? ?]]]; try discriminate. apply bagged_one. }
  rr. rewrite Gb. reflexivity.
Qed.
Lemma fit_two (sel_lm : solver_C (N := Rnum)) (est_lm : solver_ml (N := Rnum)) refit (clip eps C : R) n X y sp four (c0 c1 : list R) (v0 v1 : R) :
  let z := Model_Labels.codes y in
  length z = n -> (exists i j, (i < n)%nat /\ (j < n)%nat /\ nth i z 0%nat <> nth j z 0%nat) ->
  class_Cs (N := Rnum) true 2 eps 1 X z = Ok [C] ->
  class_select (N := Rnum) 2 sel_lm [1%Z; 2%Z] [C] [sp; four] X z = [[false; false]; [true; false]] ->
  estimate_class (N := Rnum) est_lm clip "acc" 1 2 X y sp [false; false] = Ok (c0, v0) ->
  estimate_class (N := Rnum) est_lm clip "acc" 1 2 X y sp [true; false] = Ok (c1, v1) -> v0 <> v1 ->
  length c0 = 2%nat -> length c1 = 2%nat ->
  let c := if Rlt_dec v0 v1 then c1 else c0 in
  class_fit (N := Rnum) false true eps 1 [1%Z; 2%Z] clip "acc" 1 2 sel_lm est_lm refit [sp; four] [sp] X y = Ok (c, refit X c z).
Proof.
  intros z Lz V EC ES E0 E1 D L0 L1 c.
  assert (L1' : length (numbers (N := Rnum) z) = n) by (unfold numbers; now rewrite map_length).
  assert (C1 : constant_response (N := Rnum) (numbers z) = false).
  { apply (not_constant n (numbers (N := Rnum) z) L1' (numbers (N := Rnum) z) L1'). destruct V as (i & j & Hi & Hj & D'). exists i, j. split; [exact Hi|]. split; [exact Hj|].
    rewrite !number_at. intro Q. apply D'. now apply INR_eq. }
  unfold class_fit. cbn [base_transform]. fold z. unfold base_transform. rewrite map_id. rr. rewrite C1, EC. cbn [bind]. rewrite ES.
  rewrite (module_two est_lm refit clip X y sp c0 c1 v0 v1 E0 E1 D L0 L1). reflexivity.
Qed.

Lemma acc_two (a b q r : nat) : Model_Labels.accuracy (N := Rnum) [a; b] [q; r] = ((if Nat.eqb a q then 1 else 0) + (if Nat.eqb b r then 1 else 0)) / 2.
Proof.
  unfold Model_Labels.accuracy. cbn [map2]. match goal with |- nmean ?l = _ => refine (eq_trans (mean_n 2 l eq_refl) _) end. unfold Sum, entry. cbn [seq map fold_right nth]. replace (INR 2) with 2 by (cbn; ring).
  unfold none, nzero. cbn. destruct (Nat.eqb a q), (Nat.eqb b r); field.
Qed.

Ltac in_cases H := cbn [In fst snd scored Nat.eqb] in H; repeat (destruct H as [H|H]; [subst; cbn; lia|]); destruct H.

(** The model without features follows the majority; it predicts class 1 if there is none. *)
Lemma predict_zero z : Forall (fun v => (v < 2)%nat) z -> Spec_Logistic.share z < 1 / 2 /\ Spec_Logistic.tiny <= Spec_Logistic.share z ->
  Model_Logistic.binary_predict (N := Rnum) (Model_Logistic.binary_intercept (N := Rnum) z) = 0%nat.
Proof.
  intros Hb [H H']. rewrite (intercept_R z Hb). pose proof Proofs_Logistic.tiny_pos as T. rewrite share_clipped by lra. set (s := Spec_Logistic.share z) in *.
  assert (L : logit s < 0) by (rewrite <- logit_half; apply logit_lt; lra). unfold logit in L.
  unfold Model_Logistic.binary_predict, nzero. cbn. unfold Rleb. destruct (Rle_dec 0 _); [lra|reflexivity].
Qed.
Lemma predict_tie z : Forall (fun v => (v < 2)%nat) z -> Spec_Logistic.share z = 1 / 2 ->
  Model_Logistic.binary_predict (N := Rnum) (Model_Logistic.binary_intercept (N := Rnum) z) = 1%nat.
Proof.
  intros Hb H. rewrite (intercept_R z Hb). pose proof Proofs_Logistic.tiny_pos as T. rewrite share_clipped by lra. rewrite H.
  pose proof logit_half as L. unfold logit in L. rewrite L. unfold Model_Logistic.binary_predict, nzero. cbn. unfold Rleb. destruct (Rle_dec 0 0); [reflexivity|lra].
Qed.

(** ** Twelve samples *)
Lemma ten_matrix : matrix 12 2 ten_X.
Proof. split; [reflexivity|]. unfold ten_X, minus, plus. repeat constructor. Qed.
Lemma ten_codes : Model_Labels.codes (map label ten_z) = ten_z /\ Model_Labels.codes (map label (map other ten_z)) = map other ten_z.
Proof. split; reflexivity. Qed.
Lemma ten_binary : Forall (fun v => (v < 2)%nat) ten_z.
Proof. unfold ten_z. repeat constructor. Qed.
Lemma ten_share : Spec_Logistic.share ten_z = 1 / 2.
Proof. unfold Spec_Logistic.share. change (Spec_Logistic.count 1 ten_z) with 6%nat. change (length ten_z) with 12%nat. cbn [INR]. field. Qed.
Lemma ten_centered j : (j < 2)%nat -> Sum 12 (fun i => mat ten_X i j) = 0.
Proof. intro H. destruct j as [|[|j]]; [| |lia]; unfold ten_X, minus, plus; sums; ring. Qed.
Lemma C_one (A eps : R) : 0 < A -> 0 < eps -> Model_Logistic.C_grid (N := Rnum) A eps 1 = [/ A].
Proof.
  intros HA He. pose proof (Proofs_LogisticGrid.C_grid_value A eps 1 0 HA He ltac:(lia)) as V.
  assert (L : length (Model_Logistic.C_grid (N := Rnum) A eps 1) = 1%nat) by reflexivity.
  destruct (Model_Logistic.C_grid (N := Rnum) A eps 1) as [|g [|? ?]]; try discriminate. unfold entry in V. cbn [nth] in V.
  replace (INR 0 / INR (1 - 1)) with 0 in V by (cbn; unfold Rdiv; ring). rewrite Rpower_O, Rmult_1_r in V by (apply Rinv_0_lt_compat; lra). rr. now rewrite V.
Qed.
Lemma ten_grid : class_Cs (N := Rnum) true 2 (1 / 2) 1 ten_X ten_z = Ok [12].
Proof.
  destruct (Proofs_LogisticGrid.alpha_max_binary 12 2 ten_X ten_z ten_matrix ltac:(lia) eq_refl ten_binary ltac:(lia)) as (A & EA & MA).
  pose proof Proofs_Logistic.tiny_pos as T. rewrite share_clipped in MA by (rewrite ten_share; lra). rewrite ten_share in MA.
  assert (I : INR 12 = 12) by (cbn; ring). rewrite I in MA.
  assert (S0 : Sum 12 (fun i => INR (nth i ten_z 0%nat) * mat ten_X i 0) = 2) by (unfold ten_X, ten_z, minus, plus; sums; ring).
  assert (S1 : Sum 12 (fun i => INR (nth i ten_z 0%nat) * mat ten_X i 1) = 0) by (unfold ten_X, ten_z, minus, plus; sums; ring).
  assert (E : A = / 12).
  { destruct MA as (U & j & Hj & E). pose proof (U 0%nat ltac:(lia)) as U0. cbn beta in U0. rewrite S0, Rabs_pos_eq in U0 by lra.
    destruct j as [|[|j]]; [| |lia]; [rewrite S0, Rabs_pos_eq in E by lra; lra|]. rewrite S1, Rmult_0_r, Rabs_R0 in E. lra. }
  unfold class_Cs. rewrite EA. cbn [rmap]. rewrite E, C_one by lra. now rewrite Rinv_inv.
Qed.
Lemma ten_select : class_select (N := Rnum) 2 group_sel [1%Z; 2%Z] [12] [ten_split; ten_four] ten_X ten_z = [[false; false]; [true; false]].
Proof.
  apply (select_two group_sel 12 ten_X ten_z ten_split ten_four ((logit (3 / 5 - / 12) - logit (1 / 5 + / 12)) / 2) ((logit (1 / 5 + / 12) + logit (3 / 5 - / 12)) / 2) 0).
  - change (group_lm ten_T ten_y (/ 12) = ([(logit (3 / 5 - / 12) - logit (1 / 5 + / 12)) / 2; 0], (logit (1 / 5 + / 12) + logit (3 / 5 - / 12)) / 2)).
    destruct (group_value ten_T ten_y (/ 12) _ eq_refl eq_refl) as [V _]. exact (V eq_refl).
  - pose proof (logit_lt (1 / 5 + / 12) (3 / 5 - / 12) ltac:(lra) ltac:(lra) ltac:(lra)). lra.
  - change (group_lm four_X four_y (/ 12) = ([0; 0], 0)). rewrite four_lm by reflexivity. unfold group_model. cbn [repeat Nat.sub]. f_equal; [f_equal; field|field].
Qed.
Lemma logit_negative q : 0 < q < 1 / 2 -> logit q < 0.
Proof. intro H. rewrite <- logit_half. apply logit_lt; lra. Qed.
Lemma logit_positive q : 1 / 2 < q < 1 -> 0 < logit q.
Proof. intro H. rewrite <- logit_half. apply logit_lt; lra. Qed.
Lemma decided_at x u v : decided [(v - u) / 2] ((u + v) / 2) [x] = if Rlt_dec 0 (x * ((v - u) / 2) + 0 + (u + v) / 2) then 1%nat else 0%nat.
Proof. rewrite decided_R. reflexivity. Qed.
Lemma decided_minus u v : u < 0 -> decided [(v - u) / 2] ((u + v) / 2) [-1] = 0%nat.
Proof. intro H. rewrite decided_at. destruct Rlt_dec; [lra|reflexivity]. Qed.
Lemma decided_plus u v : 0 < v -> decided [(v - u) / 2] ((u + v) / 2) [1] = 1%nat.
Proof. intro H. rewrite decided_at. destruct Rlt_dec; [reflexivity|lra]. Qed.

Definition ten_c : R := (logit (3 / 5) - logit (1 / 5)) / 2.
Lemma ten_c_value : ten_c = ln 6 / 2.
Proof.
  unfold ten_c, logit. f_equal. replace (3 / 5 / (1 - 3 / 5)) with (6 * / 4) by field. replace (1 / 5 / (1 - 1 / 5)) with (/ 4) by field.
  rewrite ln_mult by lra. ring.
Qed.
Lemma ten_est : group_est (part ten_X (fst ten_split) [true; false]) (part_y (map INR ten_z) (fst ten_split)) = ([ten_c], (logit (1 / 5) + logit (3 / 5)) / 2).
Proof.
  change (group_lm (cols 1 ten_T) ten_y 0 = ([ten_c], (logit (1 / 5) + logit (3 / 5)) / 2)).
  destruct (group_value (cols 1 ten_T) ten_y 0 _ eq_refl eq_refl) as [V _]. rewrite (V eq_refl).
  change (group_model 1 (logit (1 / 5 + 0)) (logit (3 / 5 - 0)) = ([ten_c], (logit (1 / 5) + logit (3 / 5)) / 2)). rewrite Rplus_0_r, Rminus_0_r. reflexivity.
Qed.
Lemma ten_decisive : decisive 12 ten_X ten_z group_est 1 [[false; false]; [true; false]] ten_split.
Proof.
  split; [discriminate|]. split; [intros i Hi; in_cases Hi|]. split; [intros i Hi; unfold scored in Hi; in_cases Hi|]. split.
  - change (Spec_Logistic.share [1; 0; 0; 0; 0; 1; 1; 1; 0; 0]%nat <> 1 / 2). unfold Spec_Logistic.share.
    change (Spec_Logistic.count 1 [1; 0; 0; 0; 0; 1; 1; 1; 0; 0]%nat) with 4%nat. cbn [length INR]. lra.
  - intros mask [<-|[<-|[]]] Ex; [discriminate|]. destruct (ten_min 1 0 (or_introl eq_refl) ltac:(lra)) as (_ & D2 & _ & D4).
    split; [exact (D2 eq_refl)|]. split; [exact D4|].
    rewrite ten_est. cbn [fst snd]. pose proof (logit_negative (1 / 5) ltac:(lra)) as U. pose proof (logit_positive (3 / 5) ltac:(lra)) as V.
    intros r Hr. cbn in Hr. unfold ten_c. change (count (fun b : bool => b) [true; false]) with 1%nat. destruct r as [|[|r]]; [| |lia]; unfold ten_X, minus, plus, ten_split, scored; cbn [Nat.eqb snd]; unfold part, chosen; sums; intro; lra.
Qed.
Lemma ten_sums z : z = ten_z \/ z = map other ten_z -> 1 <= Sum 12 (entry (map INR z)) <= INR 12 - 1.
Proof. intros [-> | ->]; unfold ten_z, other; cbn [map Nat.sub]; sums; lra. Qed.

Lemma ten_solvers sp C : In sp [ten_split; ten_four] -> In C [12] ->
  let Xr := samples ten_X (fst sp) in let yr := part_y (map INR ten_z) (fst sp) in let k := length (fst sp) in
  (forall i, In i (fst sp) -> (i < 12)%nat) /\ clear_classes k 2 Xr yr (/ C) /\
  class_minimizer k 2 Xr yr (/ C) (group_sel Xr yr C) /\ class_minimizer k 2 Xr (swapped yr) (/ C) (group_sel Xr (swapped yr) C).
Proof.
  intros [<-|[<-|[]]] [<-|[]].
  - split; [intros i Hi; in_cases Hi|]. destruct (ten_min 2 (/ 12) (or_intror eq_refl) ltac:(lra)) as (D1 & _ & D3 & D4). split; [exact (D3 ltac:(lra))|]. split; [exact D1|exact D4].
  - split; [intros i Hi; in_cases Hi|]. destruct (four_min (/ 12) ltac:(lra)) as (D1 & D2 & D3). split; [exact D1|]. split; [exact D2|exact D3].
Qed.
Lemma ten_fit clip : exists b,
  class_fit (N := Rnum) false true (1 / 2) 1 [1%Z; 2%Z] clip "acc" 1 2 group_sel group_est (exact_refit 2) [ten_split; ten_four] [ten_split] ten_X (map label ten_z) = Ok ([ln 6 / 2; 0], b) /\
  class_fit (N := Rnum) false true (1 / 2) 1 [1%Z; 2%Z] clip "acc" 1 2 group_sel group_est (exact_refit 2) [ten_split; ten_four] [ten_split] ten_X (map label (map other ten_z)) = Ok ([- (ln 6 / 2); -0], - b).
Proof.
  destruct ten_codes as [K K2].
  pose proof ten_grid as G.
  pose proof (grid_swapped 12 2 ten_X ten_z (1 / 2) 1 ten_matrix ltac:(lia) ltac:(lia) eq_refl ten_binary ten_share ten_centered) as G2. rewrite G in G2.
  destruct (class_swapped false 12 2 ten_X (map label ten_z) (map label (map other ten_z)) (1 / 2) 1 [12] [1%Z; 2%Z] clip 1 group_sel group_est (exact_refit 2) [ten_split; ten_four] [ten_split]) as (_ & c & b & E & E2).
  - exact ten_matrix.
  - reflexivity.
  - rewrite K. exact ten_binary.
  - rewrite K. cbn. tauto.
  - rewrite K. cbn. tauto.
  - rewrite K2, K. reflexivity.
  - discriminate.
  - discriminate.
  - discriminate.
  - rewrite K. exact G.
  - rewrite K. exact G2.
  - rewrite K. exact ten_solvers.
  - rewrite K. intros sp [<-|[]].
    change (map (base_transform (N := Rnum) false true (fit_scaler (columns 2 ten_X))) ten_X) with (map (fun x : list R => x) ten_X). rewrite map_id.
    pose proof ten_select as S0. rr. rewrite S0. exact ten_decisive.
  - rewrite K. intros c w Lc Hw. apply exact_matches; [destruct Hw as [-> | ->]; reflexivity|lia|now apply ten_sums].
  - assert (F : c = [ln 6 / 2; 0]).
    { pose proof (fit_two group_sel group_est (exact_refit 2) clip (1 / 2) 12 12 ten_X (map label ten_z) ten_split ten_four [0; 0] [ten_c; 0] 0 (1 / 2)) as Q. cbv zeta in Q. rewrite K in Q.
      assert (Q' := Q eq_refl ltac:(exists 0%nat, 1%nat; cbn; lia) G ten_select). clear Q.
      destruct (Rlt_dec 0 (1 / 2)) as [H|H]; [|lra].
      assert (h0 : estimate_class (N := Rnum) group_est clip "acc" 1 2 ten_X (map label ten_z) ten_split [false; false] = Ok ([0; 0], 0)).
      { refine (eq_trans (estimate_empty group_est clip ten_X (map label ten_z) (fst ten_split) (snd ten_split) 0%nat _) _).
        - rewrite K. apply predict_zero; [repeat constructor|]. change (Spec_Logistic.share [1; 0; 0; 0; 0; 1; 1; 1; 0; 0]%nat < 1 / 2 /\ Spec_Logistic.tiny <= Spec_Logistic.share [1; 0; 0; 0; 0; 1; 1; 1; 0; 0]%nat).
          unfold Spec_Logistic.share. change (Spec_Logistic.count 1 [1; 0; 0; 0; 0; 1; 1; 1; 0; 0]%nat) with 4%nat. cbn [length INR]. unfold Spec_Logistic.tiny. lra.
        - rewrite K. cbn [ten_split snd map nth ten_z length repeat]. rewrite acc_two. cbn [Nat.eqb]. do 2 f_equal. field. }
      assert (h1 : estimate_class (N := Rnum) group_est clip "acc" 1 2 ten_X (map label ten_z) ten_split [true; false] = Ok ([ten_c; 0], 1 / 2)).
      { refine (eq_trans (estimate_feature group_est clip ten_X (map label ten_z) (fst ten_split) (snd ten_split) ten_c ((logit (1 / 5) + logit (3 / 5)) / 2) _) _).
        - rewrite K. exact ten_est.
        - rewrite K. change (masked_columns (N := Rnum) [true; false] (matrix_rows (N := Rnum) ten_X (snd ten_split))) with [[1]; [-1]]. cbn [map ten_split snd nth ten_z]. unfold ten_c.
          rewrite decided_plus by (apply logit_positive; lra). rewrite decided_minus by (apply logit_negative; lra). rewrite acc_two. cbn [Nat.eqb]. do 2 f_equal. field. }
      pose proof (eq_trans (eq_sym E) (Q' h0 h1 ltac:(lra) eq_refl eq_refl)) as W. apply Proofs_Totals.ok_inj in W. apply (f_equal fst) in W. cbn [fst] in W. rewrite W, ten_c_value. reflexivity. }
    exists b. rewrite E, E2, F. split; reflexivity.
Qed.
