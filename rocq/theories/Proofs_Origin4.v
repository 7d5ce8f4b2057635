(** Concrete data for the zero points of the features (C131). *)
From Coq Require Import ZArith String List Bool Arith Lia Reals Lra Psatz.
From Verif Require Import Prelude F64 Num Model_Intersection Model_Fit Model_Scores Model_Refit Model_Rescale Model_Poisson Model_Linear Model_Estimation Model_Selection Model_CountFit
  Spec_Rescale Proofs_Rescale Spec_Poisson Proofs_Poisson Proofs_PoissonOpt Spec_Linear Proofs_Linear
  Proofs_LinearUnits Spec_Estimation Proofs_Estimation Proofs_Estimation2 Proofs_Estimation3 Proofs_Estimation4 Proofs_Estimation5 Spec_Choice Proofs_Choice Proofs_Choice3
  Spec_Units Proofs_Units Proofs_Units2 Proofs_Units3 Proofs_Units4 Spec_CountFit Proofs_CountFit Proofs_CountFit2 Proofs_CountFit3 Spec_Origin Proofs_Origin Proofs_Origin2.
Import ListNotations.
Local Open Scope R_scope.

(** ** Solutions move along *)
Lemma solution_moves k p X y d lam mix c : matrix k p X -> length d = p ->
  net_solution true k p X y lam mix c -> net_solution true k p (displaced d X) y lam mix c.
Proof.
  intros HX Ld (b & Lc & _ & H). exists (b - offset d c). split; [exact Lc|]. split; [discriminate|]. intros c' b' Lc' _.
  rewrite !(net_displaced k p X y d HX Ld). replace (b - offset d c + offset d c) with b by ring. apply H; [exact Lc'|discriminate].
Qed.
Lemma least_moves k p X y d m : matrix k p X -> length y = k -> length d = p ->
  least_squares true p X y m -> least_squares true p (displaced d X) y (fst m, snd m - offset d (fst m)).
Proof.
  intros HX Ly Ld (Lc & _ & H). split; [exact Lc|]. split; [discriminate|]. cbn [fst snd]. intros c' b' Lc' _.
  rewrite !(error_displaced k p X y d HX Ly Ld). replace (snd m - offset d (fst m) + offset d (fst m)) with (snd m) by ring. apply H; [exact Lc'|discriminate].
Qed.
Lemma count_moves w k p X y d lam mix m : matrix k p X -> length d = p ->
  count_minimizer w k p X y lam mix m -> count_minimizer w k p (displaced d X) y lam mix (fst m, snd m - offset d (fst m)).
Proof.
  intros HX Ld (Lc & H). split; [exact Lc|]. cbn [fst snd]. intros c' b' Lc'.
  rewrite !(count_objective_displaced k p X y d w HX Ld). replace (snd m - offset d (fst m) + offset d (fst m)) with (snd m) by ring. now apply H.
Qed.

(** ** Least squares *)
Definition mean4 (X : list (list R)) (j : nat) : R := (mat X 0 j + mat X 1 j + mat X 2 j + mat X 3 j) / 4.
(** For samples whose features, less their means, are balanced. *)
Definition ols_moved : solver_ls (N := Rnum) := fun X y =>
  let c := fst (ols_balanced X y) in
  (c, (entry y 0 + entry y 1 + entry y 2 + entry y 3) / 4 - Sum (length c) (fun j => mean4 X j * entry c j)).

Lemma moved_net u v lam : net_balanced (samples (displaced [u; v] two_by_two) (fst half_split)) (train_of y_noisy) lam 1 = net_balanced two_train (train_of y_noisy) lam 1.
Proof.
  unfold net_balanced, ols_balanced, part_y, mat, entry. cbn. f_equal; [|f_equal]; f_equal; field.
Qed.
Lemma moved_ols : ols_moved (part two_by_two (fst half_split) [true; false]) (train_of y_noisy) = ([2], 0).
Proof. unfold ols_moved, mean4, ols_balanced, part, part_y, mat, entry, Sum. cbn. f_equal; [f_equal; field|field]. Qed.
Lemma moved_ols' u v : ols_moved (part (displaced [u; v] two_by_two) (fst half_split) [true; false]) (train_of y_noisy) = ([2], 0 - offset [u] [2]).
Proof. unfold ols_moved, mean4, ols_balanced, part, part_y, mat, entry, Sum, offset, Sum, entry. cbn. f_equal; [f_equal; field|field]. Qed.

Lemma noisy_least : only_least_squares true 1 (part two_by_two (fst half_split) [true; false]) (train_of y_noisy) ([2], 0).
Proof.
  pose proof (balanced_least true 1 0 ltac:(discriminate)) as Q. rewrite (converted_one (train_of y_noisy)), Rmult_1_l in Q. exact Q.
Qed.
Lemma noisy_solution (lam : R) : In lam [2; 1] ->
  clear_features true 4 2 two_train (train_of y_noisy) lam 1 /\ net_solution true 4 2 two_train (train_of y_noisy) lam 1 (net_balanced two_train (train_of y_noisy) lam 1).
Proof.
  intro Hl. assert (E : train_of y_noisy = converted 1 0 (train_of y_noisy)) by (symmetry; apply converted_one).
  destruct (shrink_values 1 R1_neq_R0) as (E1 & E2 & E3 & E4). destruct Hl as [<-|[<-|[]]].
  - pose proof (only_point true 4 _ _ _ _ 0 0 0 (fun _ => eq_refl) (lasso_2 1 0 R1_neq_R0)) as [P1 P2]. rewrite <- E in P1, P2. rewrite Rabs_R1, !Rmult_1_l in *.
    split; [exact (only_clear _ _ _ _ _ _ _ _ P2)|]. pose proof (balanced_net 1 0 2) as B. rewrite <- E in B. rewrite !Rmult_1_l, E1, E2 in B. rewrite B. exact P1.
  - pose proof (only_point true 4 _ _ _ _ 1 0 0 (fun _ => eq_refl) (lasso_1 1 0 R1_neq_R0)) as [P1 P2]. rewrite <- E in P1, P2. rewrite Rabs_R1, !Rmult_1_l in *.
    split; [exact (only_clear _ _ _ _ _ _ _ _ P2)|]. pose proof (balanced_net 1 0 1) as B. rewrite <- E in B. rewrite !Rmult_1_l, E3, E4 in B. rewrite B. exact P1.
Qed.
Lemma two_train_matrix : matrix 4 2 two_train.
Proof. split; [reflexivity|]. repeat constructor. Qed.
Lemma noisy_moves u v (lam : R) : In lam [2; 1] ->
  net_solution true 4 2 (samples (displaced [u; v] two_by_two) (fst half_split)) (train_of y_noisy) lam 1
    (net_balanced (samples (displaced [u; v] two_by_two) (fst half_split)) (train_of y_noisy) lam 1).
Proof.
  intro Hl. rewrite moved_net. rewrite (displaced_rows 8 2 two_by_two [u; v] matrix_two eq_refl (fst half_split) half_train).
  apply (solution_moves 4 2); [exact two_train_matrix|reflexivity|]. now apply noisy_solution.
Qed.
Lemma noisy_estimation u v mask : In mask [[false; false]; [true; false]] -> existsb (fun b => b) mask = true ->
  only_least_squares true (count (fun b => b) mask) (part two_by_two (fst half_split) mask) (train_of y_noisy) (ols_moved (part two_by_two (fst half_split) mask) (train_of y_noisy)) /\
  least_squares true (count (fun b => b) mask) (part (displaced [u; v] two_by_two) (fst half_split) mask) (train_of y_noisy)
    (ols_moved (part (displaced [u; v] two_by_two) (fst half_split) mask) (train_of y_noisy)).
Proof.
  intros [<-|[<-|[]]] Ex; [discriminate|]. rewrite moved_ols, moved_ols'. split; [exact noisy_least|].
  rewrite (displaced_part 8 2 two_by_two [u; v] matrix_two eq_refl (fst half_split) [true; false] half_train eq_refl).
  refine (least_moves 4 1 _ (train_of y_noisy) [u] ([2], 0) _ eq_refl eq_refl (proj1 noisy_least)). split; [reflexivity|]. repeat constructor.
Qed.

Lemma noisy_fit_ok : exists c b, lasso_fit (N := Rnum) false true (1 / 2) 2 [1%Z] "r2" 1 2 net_balanced ols_moved [half_split] [half_split] two_by_two y_noisy = Ok (c, b).
Proof.
  assert (E : exists c b, lasso_fit (N := Rnum) false true (1 / 2) 2 [1%Z] "r2" 1 2 net_balanced ols_moved [half_split] [half_split] two_by_two y_noisy = Ok (c, b) /\
    lasso_fit (N := Rnum) false true (1 / 2) 2 [1%Z] "r2" 1 2 net_balanced ols_moved [half_split] [half_split] two_by_two (converted 1 0 y_noisy) = Ok (map (Rmult 1) c, 1 * b + 0)).
  2: { destruct E as (c & b & E & _). now exists c, b. }
  apply (lasso_converted true "r2" 1 8 2 two_by_two y_noisy 1 0 (1 / 2) 2 [1%Z] net_balanced ols_moved [half_split] [half_split]).
  - exact matrix_two.
  - reflexivity.
  - lia.
  - lra.
  - reflexivity.
  - lra.
  - lia.
  - discriminate.
  - discriminate.
  - cbn. tauto.
  - exists 0%nat, 1%nat. repeat split; try lia. unfold entry. cbn. lra.
  - rewrite noisy_alpha_max. apply Rlt_le_trans with 1; [|lra]. rewrite <- Rinv_1. apply Rinv_lt_contravar; [rewrite Rmult_1_l; apply pow_lt; lra|]. apply Rlt_pow_R1; [lra|lia].
  - rewrite noisy_alpha_max, Rabs_R1. apply Rlt_le_trans with 1; [|lra]. rewrite <- Rinv_1. apply Rinv_lt_contravar; [rewrite Rmult_1_l; apply pow_lt; lra|]. apply Rlt_pow_R1; [lra|lia].
  - intros sp lam g [<-|[]] Eg Hl. rewrite noisy_grid in Eg. injection Eg as <-. split; [exact half_train|].
    rewrite (converted_one (train_of y_noisy)), Rabs_R1, Rmult_1_l. destruct (noisy_solution lam Hl) as [P Q]. split; [exact P|]. split; exact Q.
  - intros sp [<-|[]]. split; [exact half_train|]. split; [discriminate|]. split; [exact half_test|]. split; [discriminate|]. split.
    + intros _. split; [cbn; lia|]. unfold distance2, average, Sum, part_y, entry. cbn. lra.
    + rewrite noisy_select. intros mask Hm. split; [|intro C; now elim C]. intro Ex. rewrite (converted_one (train_of y_noisy)).
      destruct (noisy_estimation 0 0 mask Hm Ex) as [P _]. split; [exact P|exact (proj1 P)].
Qed.

(** The data of [lasso_example], with the features displaced by [u] and [v]. *)
Lemma lasso_origin_example u v : exists c b,
  lasso_fit (N := Rnum) false true (1 / 2) 2 [1%Z] "r2" 1 2 net_balanced ols_moved [half_split] [half_split] two_by_two y_noisy = Ok (c, b) /\
  lasso_fit (N := Rnum) false true (1 / 2) 2 [1%Z] "r2" 1 2 net_balanced ols_moved [half_split] [half_split] (displaced [u; v] two_by_two) y_noisy = Ok (c, b - offset [u; v] c).
Proof.
  destruct noisy_fit_ok as (c & b & E). exists c, b. split; [exact E|].
  refine (eq_trans (proj2 (lasso_displaced 8 2 two_by_two y_noisy [u; v] matrix_two _ _ eq_refl eq_refl "r2" 1 (1 / 2) 2%nat [1%Z] net_balanced ols_moved [half_split] [half_split] _ _)) _).
  - lia.
  - lia.
  - intros sp lam g [<-|[]] Eg Hl. rewrite noisy_grid in Eg. injection Eg as <-. split; [exact half_train|]. destruct (noisy_solution lam Hl) as [P Q]. split; [exact P|]. split; [exact Q|].
    exact (noisy_moves u v lam Hl).
  - intros sp [<-|[]]. split; [intros i [Hi|Hi]; [now apply half_train|now apply half_test]|]. rewrite noisy_select. intros mask Hm Ex. exact (noisy_estimation u v mask Hm Ex).
  - rr. rewrite E. reflexivity.
Qed.

Lemma elastic_params_one has X y eps num : elastic_reg_params (N := Rnum) has 2 X y eps num [1] = rmap (map (fun lam => RegPair lam 1)) (lasso_grid (N := Rnum) has 2 X y eps num).
Proof.
  unfold elastic_reg_params, lasso_grid. cbn [mapM]. change (none (N := Rnum)) with 1. destruct (alpha_grid _ _ _ _ _ _ _) as [g|e]; cbn [bind rmap]; [|reflexivity].
  unfold pairs. cbn. now rewrite ?app_nil_r.
Qed.
Lemma elastic_one has eps num (net : solver_net (N := Rnum)) ts sel X y : elastic_select (N := Rnum) has 2 eps num [1] net ts sel X y = lasso_select (N := Rnum) has 2 eps num net ts sel X y.
Proof.
  unfold elastic_select, lasso_select. pose proof (elastic_params_one has X y eps num) as E. rr. rewrite E. clear E. destruct (lasso_grid _ _ _ _ _ _) as [g|e]; cbn [rmap select_with]; [|reflexivity].
  unfold selection_module. rewrite !map_length.
  assert (S0 : map (selection_sweep (N := Rnum) net X y (map (fun lam => RegPair lam 1) g)) sel = map (selection_sweep (N := Rnum) net X y (map RegAlpha g)) sel).
  { apply map_ext. intro sp. unfold selection_sweep. rewrite !map_map. reflexivity. }
  rr. now rewrite S0.
Qed.
Lemma elastic_origin_example u v : exists c b,
  elastic_fit (N := Rnum) false true (1 / 2) 2 [1] [1%Z] "r2" 1 2 net_balanced ols_moved [half_split] [half_split] two_by_two y_noisy = Ok (c, b) /\
  elastic_fit (N := Rnum) false true (1 / 2) 2 [1] [1%Z] "r2" 1 2 net_balanced ols_moved [half_split] [half_split] (displaced [u; v] two_by_two) y_noisy = Ok (c, b - offset [u; v] c).
Proof.
  assert (E0 : exists c b, elastic_fit (N := Rnum) false true (1 / 2) 2 [1] [1%Z] "r2" 1 2 net_balanced ols_moved [half_split] [half_split] two_by_two y_noisy = Ok (c, b)).
  { destruct noisy_fit_ok as (c & b & E). exists c, b. rewrite <- E. unfold elastic_fit, lasso_fit, regressor_fit. now rewrite elastic_one. }
  destruct E0 as (c & b & E). exists c, b. split; [exact E|].
  refine (eq_trans (proj2 (elastic_displaced 8 2 two_by_two y_noisy [u; v] matrix_two _ _ eq_refl eq_refl "r2" 1 (1 / 2) 2%nat [1] [1%Z] net_balanced ols_moved [half_split] [half_split] _ _)) _).
  - lia.
  - lia.
  - intros sp lam mix g [<-|[]] Eg Hl. rewrite elastic_params_one, noisy_grid in Eg. injection Eg as <-. assert (Hq : mix = 1 /\ In lam [2; 1]) by (destruct Hl as [H|[H|[]]]; injection H as <- <-; cbn; tauto). clear Hl. destruct Hq as [-> Hl].
    split; [exact half_train|]. destruct (noisy_solution lam Hl) as [P Q]. split; [exact P|]. split; [exact Q|]. exact (noisy_moves u v lam Hl).
  - intros sp [<-|[]]. split; [intros i [Hi|Hi]; [now apply half_train|now apply half_test]|]. rewrite elastic_one, noisy_select. intros mask Hm Ex. exact (noisy_estimation u v mask Hm Ex).
  - rr. rewrite E. reflexivity.
Qed.

(** ** Counts *)
(** The minimizer for data of the form of [crossed], with any first sample. *)
Definition crossed_moved : solver_glm (N := Rnum) := fun X y lam mix =>
  let m := crossed_lm X y lam mix in (fst m, snd m - offset (nth 0 X []) (fst m)).
Lemma moved_crossed X y lam mix : (forall c, offset (nth 0 X []) c = 0) -> crossed_moved X y lam mix = crossed_lm X y lam mix.
Proof. intro H. unfold crossed_moved. rewrite H, Rminus_0_r. now destruct (crossed_lm X y lam mix). Qed.
Lemma moved_first d X y lam mix : length d = length (nth 0 X []) -> (forall j, entry (nth 0 X []) j = 0) -> (0 < length X)%nat ->
  crossed_moved (displaced d X) y lam mix = (fst (crossed_lm X y lam mix), snd (crossed_lm X y lam mix) - offset d (fst (crossed_lm X y lam mix))).
Proof.
  intros Ld H0 L. unfold crossed_moved.
  assert (E : nth 0 (displaced d X) [] = d).
  { destruct X as [|x X]; [cbn in L; lia|]. cbn [displaced map nth] in *. apply (list_eq_entries _ _ (length d)); [now rewrite map_length, seq_length|reflexivity|].
    intros j Hj. pose proof (entry_mapseq (fun j => entry x j + entry d j) (length d) j Hj) as E. rewrite E. clear E. rewrite H0. ring. }
  assert (F : crossed_lm (displaced d X) y lam mix = crossed_lm X y lam mix) by (unfold crossed_lm; rr; rewrite E, Ld; reflexivity).
  rr. rewrite F, E. reflexivity.
Qed.
Lemma offset_zeros d c : (forall j, entry d j = 0) -> offset d c = 0.
Proof. intro H. unfold offset. apply Sum_zero. intros j _. rewrite H. ring. Qed.

Lemma crossed_first_zero c : offset (nth 0 crossed []) c = 0.
Proof. apply offset_zeros. intros [|[|[|j]]]; reflexivity. Qed.
Lemma masked_first_zero c : offset (nth 0 [[0]; [1]; [0]; [1]] []) c = 0.
Proof. apply offset_zeros. intros [|[|j]]; reflexivity. Qed.

Lemma moved_support : count_select (N := Rnum) 2 (1 / 2) 2 [1] crossed_moved [1%Z] [crossed_split] crossed crossed_y = [[false; false]; [true; false]].
Proof.
  exact crossed_support.
Qed.

Lemma moved_closed d lam : length d = 2%nat -> 0 <= lam -> 1 + 2 * lam <= 5 - 2 * lam ->
  only_minimizer (fun _ => 1) 4 2 crossed [1; 5; 1; 5] lam 1 (crossed_moved crossed [1; 5; 1; 5] lam 1) /\
  count_minimizer (fun _ => 1) 4 2 (displaced d crossed) [1; 5; 1; 5] lam 1 (crossed_moved (displaced d crossed) [1; 5; 1; 5] lam 1).
Proof.
  intros Ld Hl Hb. pose proof (crossed_closed 1 5 lam ltac:(lra) Hl Hb) as P. rewrite (moved_crossed crossed _ _ _ crossed_first_zero). split; [exact P|].
  rewrite (moved_first d crossed); [|exact Ld|intros [|[|[|j]]]; reflexivity|cbn; lia]. apply count_moves; [exact crossed_matrix|exact Ld|exact (proj1 P)].
Qed.
Lemma moved_closed_one d : length d = 1%nat ->
  only_minimizer (fun _ => 1) 4 1 [[0]; [1]; [0]; [1]] [1; 5; 1; 5] 0 1 (crossed_moved [[0]; [1]; [0]; [1]] [1; 5; 1; 5] 0 1) /\
  count_minimizer (fun _ => 1) 4 1 (displaced d [[0]; [1]; [0]; [1]]) [1; 5; 1; 5] 0 1 (crossed_moved (displaced d [[0]; [1]; [0]; [1]]) [1; 5; 1; 5] 0 1).
Proof.
  intros Ld. pose proof (closed_one 1 5 0 ltac:(lra) ltac:(lra) ltac:(lra) eq_refl) as P. rewrite (moved_crossed [[0]; [1]; [0]; [1]] _ _ _ masked_first_zero). split; [exact P|].
  rewrite (moved_first d [[0]; [1]; [0]; [1]]); [|exact Ld|intros [|[|j]]; reflexivity|cbn; lia]. apply count_moves; [|exact Ld|exact (proj1 P)].
  split; [reflexivity|]. repeat constructor.
Qed.

Lemma moved_fit_ok : exists c b, count_fit (N := Rnum) false true (1 / 2) 2 [1] [1%Z] "log" 1 2 crossed_moved crossed_moved [crossed_split] [crossed_split] crossed crossed_y = Ok (c, b).
Proof.
  destruct (count_converted false 1 4 2 crossed crossed_y 1 (1 / 2) 2 [1] [1%Z] crossed_moved crossed_moved [crossed_split] [crossed_split] (fun _ _ => 1)) as (Es & c & b & E & E2 & _); [..|now exists c, b].
  - exact crossed_matrix.
  - reflexivity.
  - lia.
  - lra.
  - lra.
  - lia.
  - discriminate.
  - discriminate.
  - discriminate.
  - exists 0%nat, 1%nat. split; [lia|]. split; [lia|]. unfold entry, crossed_y. cbn. lra.
  - unfold average, Sum, entry, crossed_y. cbn. lra.
  - intros a [<-|[]]. unfold centering_transform. rewrite map_id, crossed_max. lra.
  - intros sp lam mix [<-|[]]. unfold centering_transform. rewrite map_id. rr. rewrite crossed_params. intro H.
    assert (Hq : mix = 1 /\ 0 <= lam /\ 1 + 2 * lam <= 5 - 2 * lam).
    { destruct H as [H|[H|[]]]; injection H as <- <-; lra. }
    destruct Hq as (-> & Hl & Hb). cbv zeta.
    change (samples crossed (fst crossed_split)) with crossed. change (part_y crossed_y (fst crossed_split)) with [1; 5; 1; 5].
    change (length (fst crossed_split)) with 4%nat. replace (map (Rmult 1) [1; 5; 1; 5]) with [1; 5; 1; 5] by (cbn [map]; repeat (f_equal; try ring)). rewrite Rmult_1_l.
    destruct (moved_closed [0; 0] lam eq_refl Hl Hb) as [[M U] _]. split; [|split; exact M].
    intros m m' Hm Hm'. rewrite (U m Hm), (U m' Hm'). intros j _. reflexivity.
  - intros sp [<-|[]]. cbv zeta. split; [intros i Hi; cbn in Hi; lia|]. split; [discriminate|]. split; [discriminate|]. split.
    { unfold average, Sum, entry, crossed_y. cbn. lra. }
    intro mask. unfold centering_transform at 1. rewrite map_id. rr. rewrite moved_support. intros [<-|[<-|[]]] Hmask; [discriminate|].
    exists (fun _ => 1). unfold centering_transform. rewrite map_id.
    change (part crossed (fst crossed_split) [true; false]) with [[0]; [1]; [0]; [1]]. change (part_y crossed_y (fst crossed_split)) with [1; 5; 1; 5].
    change (length (fst crossed_split)) with 4%nat. replace (map (Rmult 1) [1; 5; 1; 5]) with [1; 5; 1; 5] by (cbn [map]; repeat (f_equal; try ring)). change (count (fun b => b) [true; false]) with 1%nat.
    pose proof (proj1 (moved_closed_one [0] eq_refl)) as P. split; [exact P|exact (proj1 P)].
Qed.

Lemma poisson_origin_example u v : exists c b,
  count_fit (N := Rnum) false true (1 / 2) 2 [1] [1%Z] "log" 1 2 crossed_moved crossed_moved [crossed_split] [crossed_split] crossed crossed_y = Ok (c, b) /\
  count_fit (N := Rnum) false true (1 / 2) 2 [1] [1%Z] "log" 1 2 crossed_moved crossed_moved [crossed_split] [crossed_split] (displaced [u; v] crossed) crossed_y = Ok (c, b - offset [u; v] c).
Proof.
  destruct moved_fit_ok as (c & b & E). exists c, b. split; [exact E|].
  assert (Hr : forall i, In i (fst crossed_split) -> (i < 4)%nat) by (intros i Hi; cbn in Hi; lia).
  refine (eq_trans (proj2 (poisson_displaced 4 2 crossed crossed_y [u; v] crossed_matrix _ _ eq_refl eq_refl "log" 1 (1 / 2) 2%nat [1] [1%Z] crossed_moved crossed_moved [crossed_split] [crossed_split] (fun _ _ => 1) _ _ _)) _).
  - lia.
  - lia.
  - unfold average, Sum, entry, crossed_y. cbn. lra.
  - intros sp lam mix [<-|[]] H. rewrite crossed_params in H.
    assert (Hq : mix = 1 /\ 0 <= lam /\ 1 + 2 * lam <= 5 - 2 * lam).
    { destruct H as [H|[H|[]]]; injection H as <- <-; lra. }
    destruct Hq as (-> & Hl & Hb). cbv zeta. split; [exact Hr|]. rewrite (displaced_rows 4 2 crossed [u; v] crossed_matrix eq_refl (fst crossed_split) Hr).
    change (samples crossed (fst crossed_split)) with crossed. change (part_y crossed_y (fst crossed_split)) with [1; 5; 1; 5]. change (length (fst crossed_split)) with 4%nat.
    destruct (moved_closed [u; v] lam eq_refl Hl Hb) as [[M U] M']. split; [|split; assumption].
    intros m m' Hm Hm'. rewrite (U m Hm), (U m' Hm'). intros j _. reflexivity.
  - intros sp [<-|[]]. split; [intros i [Hi|Hi]; cbn in Hi; lia|]. rewrite moved_support. intros mask [<-|[<-|[]]] Hmask; [discriminate|]. split; [|now left].
    exists (fun _ => 1). rewrite (displaced_part 4 2 crossed [u; v] crossed_matrix eq_refl (fst crossed_split) [true; false] Hr eq_refl).
    change (part crossed (fst crossed_split) [true; false]) with [[0]; [1]; [0]; [1]]. change (part_y crossed_y (fst crossed_split)) with [1; 5; 1; 5].
    change (length (fst crossed_split)) with 4%nat. change (count (fun b => b) [true; false]) with 1%nat. exact (moved_closed_one [u] eq_refl).
  - rr. rewrite E. reflexivity.
Qed.
