(** Concrete data for C123. *)
From Coq Require Import ZArith String List Bool Arith Lia Reals Lra Psatz.
From Verif Require Import Prelude F64 Num Model_Intersection Model_Fit Model_Scores Model_Refit Model_Rescale Model_Poisson Model_Linear Model_Estimation Model_Selection
  Spec_Rescale Proofs_Rescale Spec_Poisson Proofs_Poisson Proofs_PoissonOpt Spec_Linear Proofs_Linear
  Proofs_LinearUnits Spec_Estimation Proofs_Estimation Proofs_Estimation2 Proofs_Estimation3 Proofs_Estimation4 Proofs_Estimation5 Spec_Choice Proofs_Choice Proofs_Choice3
  Spec_Units Proofs_Units Proofs_Units2 Proofs_Units3.
Import ListNotations.
Local Open Scope R_scope.

(** ** A point that the objective grows away from is its only minimizer *)
Lemma only_point has n X y lam mix (a d b0 : R) : (has = false -> b0 = 0) ->
  (forall c e b, net n 2 X y lam mix [a; d] b0 + 1 / 4 * ((c - a) * (c - a) + (e - d) * (e - d)) <= net n 2 X y lam mix [c; e] b) ->
  net_solution has n 2 X y lam mix [a; d] /\ forall c, net_solution has n 2 X y lam mix c -> c = [a; d].
Proof.
  intros Hb H. split.
  - exists b0. split; [reflexivity|]. split; [exact Hb|]. intros [|c [|e [|]]] b L _; try discriminate.
    specialize (H c e b). pose proof (Rle_0_sqr (c - a)) as Q1. pose proof (Rle_0_sqr (e - d)) as Q2. unfold Rsqr in *. lra.
  - intros c' (b & L & Hb' & M). destruct c' as [|c [|e [|]]]; try discriminate.
    specialize (H c e b). specialize (M [a; d] b0 eq_refl Hb).
    pose proof (Rle_0_sqr (c - a)) as Q1. pose proof (Rle_0_sqr (e - d)) as Q2. unfold Rsqr in *.
    assert (c - a = 0) as E1 by (apply Rsqr_0_uniq; unfold Rsqr; lra). assert (e - d = 0) as E2 by (apply Rsqr_0_uniq; unfold Rsqr; lra). f_equal; [lra|]. f_equal. lra.
Qed.
Lemma only_clear has n X y lam mix a d : (forall c, net_solution has n 2 X y lam mix c -> c = [a; d]) -> clear_features has n 2 X y lam mix.
Proof. intros H c c' Hc Hc' j _. rewrite (H c Hc), (H c' Hc'). reflexivity. Qed.
Ltac absolute c := generalize (Rle_abs c) (Rle_abs (- c)); rewrite Rabs_Ropp; intros.

(** The largest penalty, from the sums of products. *)
Lemma alpha_max_two has X (y : list R) (mix m m' : R) : matrix 8 2 X -> length y = 8%nat ->
  comoment has 8 X y 0 = m -> comoment has 8 X y 1 = m' -> Rabs m' <= Rabs m -> alpha_max (N := Rnum) has 2 X y mix = Rabs m / (8 * mix).
Proof.
  intros HX Ly E0 E1 Hm. destruct (alpha_max_value has 8 2 X y HX ltac:(lia) Ly mix ltac:(lia)) as (v & Hv & ->).
  assert (E : v = Rabs m).
  { apply (largest_unique 2 (comoment has 8 X y)); [exact Hv|]. split; [|exists 0%nat; split; [lia|now rewrite E0]].
    intros [|[|j]] Hj; [rewrite E0; apply Rle_refl|rewrite E1; exact Hm|lia]. }
  rr. rewrite E. f_equal. f_equal. cbn. ring.
Qed.

(** ** UoI_ElasticNet *)
Definition net_rows : list (list R) := [[1; 7/5]; [-1; -(7/5)]; [1; -(1/5)]; [-1; 1/5]].
Definition net_X : list (list R) := net_rows ++ net_rows.
Definition net_y : list R := [17/16; -(17/16); 15/16; -(15/16); 17/16; -(17/16); 15/16; -(15/16)].
Notation net_train := (samples net_X (fst half_split)).
Notation train_of y := (part_y y (fst half_split)).

Lemma net_matrix : matrix 8 2 net_X.
Proof. split; [reflexivity|]. repeat constructor. Qed.
Lemma net_alpha_max has : alpha_max (N := Rnum) has 2 net_X net_y (1 / 2) = 2.
Proof.
  rewrite (alpha_max_two has net_X net_y (1 / 2) 8 (26 / 5) net_matrix eq_refl).
  - rewrite Rabs_pos_eq by lra. rr. field.
  - unfold comoment, average, col, mat, entry, Sum. destruct has; cbn; field.
  - unfold comoment, average, col, mat, entry, Sum. destruct has; cbn; field.
  - rewrite !Rabs_pos_eq by lra. lra.
Qed.
Lemma net_grid has s : 1 <= s -> elastic_reg_params (N := Rnum) has 2 net_X (converted s 0 net_y) (1 / 2) 2 [1 / 2] = Ok [RegPair (s * 2) (1 / 2); RegPair s (1 / 2)].
Proof.
  intro Hs. assert (EA : alpha_max (N := Rnum) has 2 net_X (converted s 0 net_y) (1 / 2) = s * 2).
  { rewrite (alpha_max_mix s 0 has 8 2 net_X net_y (1 / 2) net_matrix ltac:(lia) eq_refl ltac:(lia) (fun _ => eq_refl)), net_alpha_max, Rabs_pos_eq by lra. reflexivity. }
  destruct (alpha_grid_value has 2 net_X (converted s 0 net_y) (1 / 2) (1 / 2) 2 ltac:(lra) ltac:(lra)) as (g & E & L & _ & V).
  { rewrite EA. apply Rlt_le_trans with 1; [|lra]. rewrite <- Rinv_1. apply Rinv_lt_contravar; [rewrite Rmult_1_l; apply pow_lt; lra|]. apply Rlt_pow_R1; [lra|lia]. }
  assert (G : g = [s * 2; s]).
  { specialize (V ltac:(lia)). rewrite EA in V. pose proof (V 0%nat ltac:(lia)) as V0. pose proof (V 1%nat ltac:(lia)) as V1.
    destruct g as [|g0 [|g1 [|]]]; try discriminate. unfold entry in V0, V1. cbn in V0, V1.
    rewrite V0, V1. replace (0 / 1) with 0 by field. replace (1 / 1) with 1 by field. rewrite Rpower_O, Rpower_1 by lra. f_equal; [ring|]. f_equal. field. }
  unfold elastic_reg_params. cbn [mapM]. rr. rewrite E, G. reflexivity.
Qed.

(** The minimizers, in four cases. *)
Lemma net_form s lam c e b : net 4 2 net_train (converted s 0 (train_of net_y)) lam (1 / 2) [c; e] b =
  s * s * (257 / 512) - s * (c + 13 / 20 * e) + 1 / 2 * (c * c + 6 / 5 * c * e + e * e) + 1 / 2 * b * b
  + lam * (1 / 2 * (Rabs c + Rabs e) + 1 / 4 * (c * c + e * e)).
Proof. unfold net, penalty, eta, Sum, mat, entry, converted, part_y. cbn. field. Qed.
Ltac net_bound c e := rewrite !net_form; rewrite ?Rabs_R0; absolute c; absolute e.
Ltac square u := pose proof (Rle_0_sqr (u)); unfold Rsqr in *.
Lemma net_2 s : 1 <= s -> forall c e b,
  net 4 2 net_train (converted s 0 (train_of net_y)) (s * 2) (1 / 2) [0; 0] 0 + 1 / 4 * ((c - 0) * (c - 0) + (e - 0) * (e - 0))
  <= net 4 2 net_train (converted s 0 (train_of net_y)) (s * 2) (1 / 2) [c; e] b.
Proof.
  intros Hs c e b. net_bound c e.
  assert (s * c <= s * Rabs c) by (apply Rmult_le_compat_l; lra). assert (s * (13 / 20 * e) <= s * Rabs e) by (apply Rmult_le_compat_l; lra).
  square (c + e). square c. square e. square b. assert (0 <= (s - 1) * (c * c + e * e)) by (apply Rmult_le_pos; lra). lra.
Qed.
Lemma net_1 c e b :
  net 4 2 net_train (converted 1 0 (train_of net_y)) 1 (1 / 2) [1 / 3; 0] 0 + 1 / 4 * ((c - 1 / 3) * (c - 1 / 3) + (e - 0) * (e - 0))
  <= net 4 2 net_train (converted 1 0 (train_of net_y)) 1 (1 / 2) [c; e] b.
Proof.
  net_bound c e. rewrite (Rabs_pos_eq (1 / 3)) by lra. assert (9 / 10 * e <= Rabs e) by lra.
  square (c - 1 / 3 + e). square b. square e. square (c - 1 / 3). lra.
Qed.
Lemma net_10 c e b :
  net 4 2 net_train (converted 10 0 (train_of net_y)) 10 (1 / 2) [485 / 594; 50 / 297] 0 + 1 / 4 * ((c - 485 / 594) * (c - 485 / 594) + (e - 50 / 297) * (e - 50 / 297))
  <= net 4 2 net_train (converted 10 0 (train_of net_y)) 10 (1 / 2) [c; e] b.
Proof.
  net_bound c e. rewrite (Rabs_pos_eq (485 / 594)), (Rabs_pos_eq (50 / 297)) by lra.
  square (c - 485 / 594 + (e - 50 / 297)). square b. square (c - 485 / 594). square (e - 50 / 297). lra.
Qed.

Lemma net_solutions has : forall s, 1 <= s ->
  (forall c, net_solution has 4 2 net_train (converted s 0 (train_of net_y)) (s * 2) (1 / 2) c -> c = [0; 0]).
Proof. intros s Hs. exact (proj2 (only_point has 4 _ _ _ _ 0 0 0 (fun _ => eq_refl) (net_2 s Hs))). Qed.

Lemma elastic_supports has s (net : solver_net (N := Rnum)) c : 1 <= s ->
  net_solution has 4 2 net_train (train_of (converted s 0 net_y)) (s * 2) (1 / 2) (net net_train (train_of (converted s 0 net_y)) (s * 2) (1 / 2)) ->
  net net_train (train_of (converted s 0 net_y)) s (1 / 2) = c ->
  elastic_select (N := Rnum) has 2 (1 / 2) 2 [1 / 2] net [1%Z] [half_split] net_X (converted s 0 net_y)
  = usort row_cmp [[false; false]; map (fun j => nnonzero (N := Rnum) (nth j c 0)) [0; 1]%nat].
Proof.
  intros Hs S1 S2.
  assert (E1 : net net_train (train_of (converted s 0 net_y)) (s * 2) (1 / 2) = [0; 0]) by (apply (net_solutions has s Hs); exact S1).
  unfold elastic_select. rewrite net_grid by exact Hs. cbn [select_with]. unfold selection_module. f_equal.
  cbn [flat_map app map length]. unfold stable_rows, selection_sweep. cbn [seq map nth apply_params].
  change (matrix_rows (N := Rnum) net_X (fst half_split)) with net_train. rewrite part_y_take. rr. rewrite E1, S2.
  unfold nnonzero, nzero. cbn [neqb nofZ Rnum nth count]. unfold Reqb.
  destruct (Req_EM_T 0 0) as [_|C]; [|easy]. destruct (Req_EM_T (nth 0 c 0) 0), (Req_EM_T (nth 1 c 0) 0); reflexivity.
Qed.
Lemma nonzero_R (v : R) : v <> 0 -> nnonzero (N := Rnum) v = true.
Proof. intro H. unfold nnonzero, nzero. cbn. unfold Reqb. destruct (Req_EM_T v 0); [easy|reflexivity]. Qed.
Lemma zero_R : nnonzero (N := Rnum) 0 = false.
Proof. unfold nnonzero, nzero. cbn. unfold Reqb. destruct (Req_EM_T 0 0); [reflexivity|easy]. Qed.
Lemma converted_one (y : list R) : converted 1 0 y = y.
Proof. unfold converted. refine (eq_trans (map_ext _ (fun v => v) _ y) (map_id y)). intro v. ring. Qed.

Lemma elastic_units has (net : solver_net (N := Rnum)) :
  (forall y lam, In (y, lam) [(net_y, 2); (net_y, 1); (converted 10 0 net_y, 20); (converted 10 0 net_y, 10)] ->
     net_solution has 4 2 net_train (train_of y) lam (1 / 2) (net net_train (train_of y) lam (1 / 2))) ->
  elastic_select (N := Rnum) has 2 (1 / 2) 2 [1 / 2] net [1%Z] [half_split] net_X net_y = [[false; false]; [true; false]] /\
  elastic_select (N := Rnum) has 2 (1 / 2) 2 [1 / 2] net [1%Z] [half_split] net_X (converted 10 0 net_y) = [[false; false]; [true; true]].
Proof.
  intro H. assert (T : forall s, train_of (converted s 0 net_y) = converted s 0 (train_of net_y)) by (intro s; reflexivity).
  split.
  - rewrite <- (converted_one net_y) at 1. rewrite (elastic_supports has 1 net [1 / 3; 0]).
    + cbn [map nth]. rewrite zero_R, nonzero_R by lra. reflexivity.
    + lra.
    + rewrite converted_one. replace (1 * 2) with 2 by ring. apply H. cbn. tauto.
    + refine (proj2 (only_point has 4 net_train (converted 1 0 (train_of net_y)) 1 (1 / 2) (1 / 3) 0 0 (fun _ => eq_refl) net_1) _ _).
      rewrite !T, converted_one. apply H. cbn. tauto.
  - rewrite (elastic_supports has 10 net [485 / 594; 50 / 297]).
    + cbn [map nth]. rewrite !nonzero_R by lra. reflexivity.
    + lra.
    + replace (10 * 2) with 20 by ring. apply H. cbn. tauto.
    + refine (proj2 (only_point has 4 net_train (converted 10 0 (train_of net_y)) 10 (1 / 2) (485 / 594) (50 / 297) 0 (fun _ => eq_refl) net_10) _ _).
      apply H. cbn. tauto.
Qed.
(** Such a solver. *)
Definition table_net : solver_net (N := Rnum) := fun _ _ lam _ =>
  if Req_EM_T lam 1 then [1 / 3; 0] else if Req_EM_T lam 10 then [485 / 594; 50 / 297] else [0; 0].
Lemma table_solves has y lam : In (y, lam) [(net_y, 2); (net_y, 1); (converted 10 0 net_y, 20); (converted 10 0 net_y, 10)] ->
  net_solution has 4 2 net_train (train_of y) lam (1 / 2) (table_net net_train (train_of y) lam (1 / 2)).
Proof.
  assert (T : train_of net_y = converted 1 0 (train_of net_y)) by (symmetry; apply converted_one).
  intros [E|[E|[E|[E|[]]]]]; injection E as <- <-; unfold table_net;
    repeat match goal with |- context [Req_EM_T ?a ?b] => destruct (Req_EM_T a b); try (exfalso; lra) end.
  - rewrite T. pose proof (proj1 (only_point has 4 _ _ _ _ 0 0 0 (fun _ => eq_refl) (net_2 1 ltac:(lra)))) as P. replace (1 * 2) with 2 in P by ring. exact P.
  - rewrite T. exact (proj1 (only_point has 4 _ _ _ _ _ _ 0 (fun _ => eq_refl) net_1)).
  - replace 20 with (10 * 2) by ring. exact (proj1 (only_point has 4 _ _ _ _ 0 0 0 (fun _ => eq_refl) (net_2 10 ltac:(lra)))).
  - exact (proj1 (only_point has 4 _ _ _ _ _ _ 0 (fun _ => eq_refl) net_10)).
Qed.

(** ** UoI_Lasso *)
Definition shrink (x l : R) : R := Rmax (x - l) 0 - Rmax (- x - l) 0.
(** The Lasso and least squares for balanced features. *)
Definition net_balanced : solver_net (N := Rnum) := fun X y lam _ => map (fun v => shrink v lam) (fst (ols_balanced X y)).
Definition ols_centered : solver_ls (N := Rnum) := fun X y => (fst (ols_balanced X y), (entry y 0 + entry y 1 + entry y 2 + entry y 3) / 4).
Notation two_train := (samples two_by_two (fst half_split)).

Lemma noisy_alpha_max has : alpha_max (N := Rnum) has 2 two_by_two y_noisy 1 = 2.
Proof.
  rewrite (alpha_max_two has two_by_two y_noisy 1 16 4 matrix_two eq_refl).
  - rewrite Rabs_pos_eq by lra. rr. field.
  - unfold comoment, average, col, mat, entry, Sum. destruct has; cbn; field.
  - unfold comoment, average, col, mat, entry, Sum. destruct has; cbn; field.
  - rewrite !Rabs_pos_eq by lra. lra.
Qed.
Lemma noisy_grid has : lasso_grid (N := Rnum) has 2 two_by_two y_noisy (1 / 2) 2 = Ok [2; 1].
Proof.
  destruct (alpha_grid_value has 2 two_by_two y_noisy 1 (1 / 2) 2 R1_neq_R0 ltac:(lra)) as (g & E & L & _ & V).
  { rewrite noisy_alpha_max. apply Rlt_le_trans with 1; [|lra]. rewrite <- Rinv_1. apply Rinv_lt_contravar; [rewrite Rmult_1_l; apply pow_lt; lra|]. apply Rlt_pow_R1; [lra|lia]. }
  specialize (V ltac:(lia)). rewrite noisy_alpha_max in V. pose proof (V 0%nat ltac:(lia)) as V0. pose proof (V 1%nat ltac:(lia)) as V1.
  destruct g as [|g0 [|g1 [|]]]; try discriminate. unfold entry in V0, V1. cbn in V0, V1.
  refine (eq_trans E _). rewrite V0, V1. replace (0 / 1) with 0 by field. replace (1 / 1) with 1 by field. rewrite Rpower_O, Rpower_1 by lra. f_equal. f_equal; [ring|]. f_equal. field.
Qed.
Lemma lasso_form s t lam c e b : net 4 2 two_train (converted s t (train_of y_noisy)) lam 1 [c; e] b =
  s * s * (21 / 8) - s * (2 * c + 1 / 2 * e) + 1 / 2 * (c * c + e * e) + 1 / 2 * (b - t) * (b - t) + lam * (Rabs c + Rabs e).
Proof. unfold net, penalty, eta, Sum, mat, entry, converted, part_y. cbn. field. Qed.
Lemma lasso_2 s t : s <> 0 -> forall c e b,
  net 4 2 two_train (converted s t (train_of y_noisy)) (Rabs s * 2) 1 [0; 0] t + 1 / 4 * ((c - 0) * (c - 0) + (e - 0) * (e - 0))
  <= net 4 2 two_train (converted s t (train_of y_noisy)) (Rabs s * 2) 1 [c; e] b.
Proof.
  intros Hs c e b. rewrite !lasso_form, Rabs_R0.
  assert (H : forall v, s * v <= Rabs s * Rabs v) by (intro v; rewrite <- Rabs_mult; apply Rle_abs).
  pose proof (H c). pose proof (H e). pose proof (Rmult_le_pos _ _ (Rabs_pos s) (Rabs_pos e)). square c. square e. square (b - t). lra.
Qed.
Lemma lasso_1 s t : s <> 0 -> forall c e b,
  net 4 2 two_train (converted s t (train_of y_noisy)) (Rabs s * 1) 1 [s; 0] t + 1 / 4 * ((c - s) * (c - s) + (e - 0) * (e - 0))
  <= net 4 2 two_train (converted s t (train_of y_noisy)) (Rabs s * 1) 1 [c; e] b.
Proof.
  intros Hs c e b. rewrite !lasso_form, Rabs_R0.
  assert (H : forall v, s * v <= Rabs s * Rabs v) by (intro v; rewrite <- Rabs_mult; apply Rle_abs).
  assert (Q : Rabs s * Rabs s = s * s) by (rewrite <- Rabs_mult; apply Rabs_pos_eq; nra).
  pose proof (H c). pose proof (H e). pose proof (Rmult_le_pos _ _ (Rabs_pos s) (Rabs_pos e)). square e. square (c - s). square (b - t). lra.
Qed.
Lemma shrink_values s : s <> 0 ->
  shrink (s * 2) (Rabs s * 2) = 0 /\ shrink (s * (1 / 2)) (Rabs s * 2) = 0 /\ shrink (s * 2) (Rabs s * 1) = s /\ shrink (s * (1 / 2)) (Rabs s * 1) = 0.
Proof. intro H. unfold shrink, Rmax, Rabs. repeat destruct (Rle_dec _ _); repeat destruct (Rcase_abs _); repeat split; lra. Qed.
Lemma balanced_net s t lam : net_balanced two_train (converted s t (train_of y_noisy)) lam 1 = [shrink (s * 2) lam; shrink (s * (1 / 2)) lam].
Proof.
  unfold net_balanced, ols_balanced, converted, part_y, mat, entry. cbn. f_equal; [|f_equal]; f_equal; field.
Qed.
Lemma balanced_ols s t : ols_centered (part two_by_two (fst half_split) [true; false]) (converted s t (train_of y_noisy)) = ([s * 2], t).
Proof. unfold ols_centered, ols_balanced, converted, part, part_y, mat, entry. cbn. f_equal; [f_equal; field|field]. Qed.
Lemma error_form s t c b : squared_error 1 (part two_by_two (fst half_split) [true; false]) (converted s t (train_of y_noisy)) [c] b =
  5 * s * s + 4 * (c - s * 2) * (c - s * 2) + 4 * (b - t) * (b - t).
Proof. unfold squared_error, eta, Sum, part, converted, part_y, mat, entry. cbn. field. Qed.
Lemma balanced_least has s t : (has = false -> t = 0) ->
  only_least_squares has 1 (part two_by_two (fst half_split) [true; false]) (converted s t (train_of y_noisy)) ([s * 2], t).
Proof.
  intro Ht. split.
  - split; [reflexivity|]. split; [exact Ht|]. intros [|c [|]] b L _; try discriminate. cbn [fst snd]. rewrite !error_form.
    square (c - s * 2). square (b - t). lra.
  - intros [c' b] (L & _ & H). cbn [fst snd] in *. destruct c' as [|c [|]]; try discriminate. specialize (H [s * 2] t eq_refl Ht). rewrite !error_form in H.
    square (c - s * 2). square (b - t).
    assert (c - s * 2 = 0) by (apply Rsqr_0_uniq; unfold Rsqr; lra). assert (b - t = 0) by (apply Rsqr_0_uniq; unfold Rsqr; lra). f_equal; [f_equal|]; lra.
Qed.

Lemma noisy_select has : lasso_select (N := Rnum) has 2 (1 / 2) 2 net_balanced [1%Z] [half_split] two_by_two y_noisy = [[false; false]; [true; false]].
Proof.
  unfold lasso_select. rewrite noisy_grid. cbn [rmap select_with map]. unfold selection_module. cbn [flat_map app map length]. unfold stable_rows, selection_sweep. cbn [seq map nth apply_params].
  change (matrix_rows (N := Rnum) two_by_two (fst half_split)) with two_train. rewrite part_y_take, <- (converted_one (train_of y_noisy)). rr.
  change (none (N := Rnum)) with 1. rewrite !balanced_net. destruct (shrink_values 1 R1_neq_R0) as (E1 & E2 & E3 & E4). rewrite Rabs_R1, !Rmult_1_l in *.
  rewrite E1, E2, E3, E4. unfold nnonzero, nzero. cbn [neqb nofZ Rnum nth count]. unfold Reqb.
  destruct (Req_EM_T 0 0) as [_|C]; [|easy]. destruct (Req_EM_T 1 0) as [C|_]; [lra|reflexivity].
Qed.

(** In units of -1/3 and with the origin at 5/3: y' = 5 - 3 y. *)
Lemma lasso_example : exists c b,
  lasso_fit (N := Rnum) false true (1 / 2) 2 [1%Z] "r2" 1 2 net_balanced ols_centered [half_split] [half_split] two_by_two y_noisy = Ok (c, b) /\
  lasso_fit (N := Rnum) false true (1 / 2) 2 [1%Z] "r2" 1 2 net_balanced ols_centered [half_split] [half_split] two_by_two (converted (-3) 5 y_noisy)
  = Ok (map (Rmult (-3)) c, -3 * b + 5).
Proof.
  apply (lasso_converted true "r2" 1 8 2 two_by_two y_noisy (-3) 5 (1 / 2) 2 [1%Z] net_balanced ols_centered [half_split] [half_split]).
  - exact matrix_two.
  - reflexivity.
  - lia.
  - lra.
  - discriminate.
  - lra.
  - lia.
  - discriminate.
  - discriminate.
  - cbn. tauto.
  - exists 0%nat, 1%nat. repeat split; try lia. unfold entry. cbn. lra.
  - rewrite noisy_alpha_max. apply Rlt_le_trans with 1; [|lra]. rewrite <- Rinv_1. apply Rinv_lt_contravar; [rewrite Rmult_1_l; apply pow_lt; lra|]. apply Rlt_pow_R1; [lra|lia].
  - rewrite noisy_alpha_max. unfold Rabs. destruct (Rcase_abs (-3)) as [_|C]; [|lra]. apply Rlt_le_trans with 1; [|lra]. rewrite <- Rinv_1. apply Rinv_lt_contravar; [rewrite Rmult_1_l; apply pow_lt; lra|]. apply Rlt_pow_R1; [lra|lia].
  - intros sp lam g [<-|[]] Eg Hl. rewrite noisy_grid in Eg. injection Eg as <-. split; [exact half_train|].
    assert (E : train_of y_noisy = converted 1 0 (train_of y_noisy)) by (symmetry; apply converted_one).
    assert (N3 : -3 <> 0) by lra. destruct (shrink_values 1 R1_neq_R0) as (E1 & E2 & E3 & E4). destruct (shrink_values (-3) N3) as (F1 & F2 & F3 & F4).
    destruct Hl as [<-|[<-|[]]].
    + pose proof (only_point true 4 _ _ _ _ 0 0 0 (fun _ => eq_refl) (lasso_2 1 0 R1_neq_R0)) as [P1 P2].
      pose proof (only_point true 4 _ _ _ _ 0 0 5 ltac:(discriminate) (lasso_2 (-3) 5 N3)) as [P3 _].
      rewrite <- E in P1, P2. rewrite Rabs_R1, !Rmult_1_l in *. split; [exact (only_clear _ _ _ _ _ _ _ _ P2)|]. split.
      * pose proof (balanced_net 1 0 2) as B. rewrite <- E in B. rewrite !Rmult_1_l, E1, E2 in B. change (length (fst half_split)) with 4%nat. rewrite B. exact P1.
      * change (length (fst half_split)) with 4%nat. rewrite balanced_net, F1, F2. exact P3.
    + pose proof (only_point true 4 _ _ _ _ 1 0 0 (fun _ => eq_refl) (lasso_1 1 0 R1_neq_R0)) as [P1 P2].
      pose proof (only_point true 4 _ _ _ _ (-3) 0 5 ltac:(discriminate) (lasso_1 (-3) 5 N3)) as [P3 _].
      rewrite <- E in P1, P2. rewrite Rabs_R1, !Rmult_1_l in *. split; [exact (only_clear _ _ _ _ _ _ _ _ P2)|]. split.
      * pose proof (balanced_net 1 0 1) as B. rewrite <- E in B. rewrite !Rmult_1_l, E3, E4 in B. change (length (fst half_split)) with 4%nat. rewrite B. exact P1.
      * change (length (fst half_split)) with 4%nat. rewrite balanced_net, F3, F4. exact P3.
  - intros sp [<-|[]]. split; [exact half_train|]. split; [discriminate|]. split; [exact half_test|]. split; [discriminate|]. split.
    + intros _. split; [cbn; lia|]. unfold distance2, average, Sum, part_y, entry. cbn. lra.
    + rewrite noisy_select. intros mask Hm. split; [|intro C; now elim C]. intro Ex. destruct Hm as [<-|[<-|[]]]; [discriminate|].
      assert (E : train_of y_noisy = converted 1 0 (train_of y_noisy)) by (symmetry; apply converted_one). split.
      * pose proof (balanced_ols 1 0) as B. pose proof (balanced_least true 1 0 ltac:(discriminate)) as Q. rewrite <- E in B, Q. rewrite B. exact Q.
      * rewrite balanced_ols. exact (proj1 (balanced_least true (-3) 5 ltac:(discriminate))).
Qed.

(** For binary64 the supports are those of Model_Intersection.v. *)
Lemma selection_same exp64 ln64 p nreg (coefs : list (list (list f64))) ts : (2 <= p)%nat -> (List.length ts * nreg <> 1)%nat ->
  intersection (mkCoefs nreg p coefs) (Some ts)
  = Ok (Arr2 p (usort row_cmp (flat_map (stable_rows (N := Fnum exp64 ln64) p nreg coefs) ts))).
Proof.
  intros Hp Hr. unfold intersection. cbn [c_feat].
  assert (E : all_support_rows (mkCoefs nreg p coefs) ts = flat_map (stable_rows (N := Fnum exp64 ln64) p nreg coefs) ts).
  { unfold all_support_rows. apply flat_map_ext. intro t. unfold support_rows, stable_rows. cbn [c_reg c_feat c_data].
    apply map_ext. intro r. apply map_ext. intro j. do 2 f_equal.
    clear. induction coefs as [|b l IH]; [reflexivity|]. cbn [count]. refine (f_equal2 Nat.add _ IH). refine (f_equal (fun q : bool => if q then 1%nat else 0%nat) _).
    unfold Model_Intersection.entry. change (nonzero64 (nth j (nth r b []) fzero) = nnonzero (N := Fnum exp64 ln64) (nth j (nth r b []) fzero)).
    generalize (nth j (nth r b []) fzero). intro x. destruct x as [sg| sg| |sg m e]; try destruct sg; reflexivity. }
  rewrite <- E. assert (L : List.length (all_support_rows (mkCoefs nreg p coefs) ts) = (List.length ts * nreg)%nat).
  { clear. unfold all_support_rows. induction ts as [|z ts IH]; [reflexivity|]. cbn [flat_map List.length]. rewrite app_length, IH. unfold support_rows at 1. cbn [c_reg]. rewrite map_length, seq_length. reflexivity. }
  unfold squeeze2. rewrite L. destruct (Nat.eqb_spec (List.length ts * nreg) 1) as [C|_]; [easy|]. destruct (Nat.eqb_spec p 1) as [C|_]; [lia|]. reflexivity.
Qed.
