(** Column subset selection over the real numbers. *)
From Coq Require Import ZArith List Bool Arith Reals Permutation Sorted Lia Lra.
From Verif Require Import Prelude F64 Num Spec_Rescale Spec_Poisson Model_Thresholds Model_Cur Spec_Cur
  Proofs_Rescale Proofs_Poisson Proofs_PoissonOpt Proofs_LbfgsVec Proofs_Intersection Proofs_Cur Proofs_CurFit.
Import ListNotations.
Local Open Scope R_scope.

Lemma leverages_length {N : NumOps} (V : list (list N)) : length (leverages V) = length V.
Proof. unfold leverages. apply map_length. Qed.
Lemma matrix_row n p X i : matrix n p X -> (i < n)%nat -> length (nth i X []) = p.
Proof. intros [L F] Hi. rewrite Forall_forall in F. apply F. apply nth_In. lia. Qed.
Lemma matrix_firstn n p k X : matrix n p X -> (k <= p)%nat -> matrix n k (map (firstn k) X).
Proof.
  intros [L F] Hk. split; [now rewrite map_length|]. rewrite Forall_forall in *. intros r Hr. apply in_map_iff in Hr.
  destruct Hr as (r' & <- & Hr'). rewrite firstn_length. specialize (F r' Hr'). lia.
Qed.
Lemma nth_firstn_lt {A} (l : list A) k i d : (i < k)%nat -> nth i (firstn k l) d = nth i l d.
Proof. revert k i; induction l; intros [|k] [|i] H; simpl; try lia; auto. apply IHl. lia. Qed.
Lemma mat_firstn V k i j : (i < k)%nat -> mat (map (firstn k) V) j i = mat V j i.
Proof.
  intro H. unfold mat, entry. rewrite <- (nth_firstn_lt (nth j V []) k i 0 H). f_equal.
  change (@nil R) with (firstn k (@nil R)) at 1 || (replace (@nil R) with (firstn k (@nil R)) at 1 by apply firstn_nil). apply (map_nth (firstn k)).
Qed.
Lemma sum_squares (row : list R) : nsum (N := Rnum) (map (nsquare (N := Rnum)) row) = Sum (length row) (fun i => entry row i * entry row i).
Proof.
  induction row as [|a row IH]; [reflexivity|]. cbn [length]. rewrite Sum_shift. unfold nsum in *. cbn [map fold_right].
  etransitivity; [apply (f_equal (fun x => a * a + x)); exact IH|]. reflexivity.
Qed.
Lemma leverages_nth p k (V : list (list R)) j : matrix p k V -> (j < p)%nat ->
  nth j (leverages (N := Rnum) V) 0 = leverage k V j.
Proof.
  intros M Hj. pose proof (matrix_row _ _ _ _ M Hj) as Lj. pose proof (matrix_row p k V 0 M ltac:(lia)) as L0.
  unfold leverages, leverage.
  assert (E0 : length (hd [] V) = k) by (rewrite <- L0; now destruct V).
  pose (f := fun row : list R => nsum (N := Rnum) (map (nsquare (N := Rnum)) row) / IZR (Z.of_nat (length (hd [] V)))).
  change (nth j (map f V) 0 = Sum k (fun i => mat V j i * mat V j i) / INR k). rewrite (nth_indep _ 0 (f [])) by (rewrite map_length; destruct M; lia).
  rewrite (map_nth f). unfold f. etransitivity; [apply (f_equal (fun x => x / IZR (Z.of_nat (length (hd [] V)))) (sum_squares (nth j V [])))|].
  rewrite Lj, E0, <- INR_IZR_INZ. reflexivity.
Qed.
Lemma leverage_firstn V k j : leverage k (map (firstn k) V) j = leverage k V j.
Proof. unfold leverage. f_equal. apply Sum_ext. intros i Hi. now rewrite mat_firstn. Qed.
Lemma leverage_nonneg k V j : (0 < k)%nat -> 0 <= leverage k V j.
Proof.
  intro Hk. unfold leverage. apply Rmult_le_pos; [apply Sum_nonneg; intros; apply Rle_0_sqr|].
  left. apply Rinv_0_lt_compat. now apply lt_0_INR.
Qed.
Lemma min1_Rmin (x : R) : min1 (N := Rnum) x = Rmin 1 x.
Proof.
  unfold min1, none. rn. unfold Rmin. destruct (Rltb x 1) eqn:E; [apply Rltb_t in E|apply Rltb_f in E]; destruct (Rle_dec 1 x); lra.
Qed.
Lemma picks_drawn p k (V : list (list R)) (c : R) (u : nat -> R) j : matrix p k V -> (j < p)%nat ->
  picks (N := Rnum) V c u j = true <-> drawn_column k V c u j.
Proof.
  intros M Hj. unfold picks, drawn_column, probability. change (nltb (n := Rnum)) with Rltb. rewrite Rltb_t.
  match goal with |- _ < @min1 ?N ?x <-> _ => assert (E : @min1 N x = Rmin 1 (c * leverage k V j)) end.
  { rewrite min1_Rmin. f_equal. change (c * nth j (leverages (N := Rnum) V) 0 = c * leverage k V j). f_equal. now apply (leverages_nth p). }
  rewrite E. easy.
Qed.

Lemma select_iff (argsort : list R -> list nat) p k V c s u : sorts argsort -> matrix p k V ->
  forall j, In j (column_select (N := Rnum) argsort V c s u) <-> (j < p)%nat /\ drawn_column k V c u j.
Proof.
  intros HS M j.
  assert (E : In j (column_select (N := Rnum) argsort V c s u) <-> In j (column_select (N := Rnum) argsort V c false u)).
  { destruct s; [|easy]. pose proof (select_perm (N := Rnum) argsort V c u (fun l => proj1 (HS l))) as P.
    split; apply Permutation_in; [exact P|now symmetry]. }
  rewrite E. pose proof (proj1 M) as L. etransitivity; [exact (select_In (N := Rnum) argsort V c u j)|].
  split; intros [Hj H].
  - assert (Hj' : (j < p)%nat) by (rewrite <- L; exact Hj). split; [exact Hj'|]. exact (proj1 (picks_drawn p k V c u j M Hj') H).
  - split; [rewrite <- L in Hj; exact Hj|]. exact (proj2 (picks_drawn p k V c u j M Hj) H).
Qed.
Lemma select_distinct (argsort : list R -> list nat) V c s u : sorts argsort -> NoDup (column_select (N := Rnum) argsort V c s u).
Proof.
  intro HS. assert (NoDup (column_select (N := Rnum) argsort V c false u)) by apply sorted_NoDup, (select_sorted (N := Rnum)).
  destruct s; [|easy]. eapply Permutation_NoDup; [|exact H]. symmetry. exact (select_perm (N := Rnum) argsort V c u (fun l => proj1 (HS l))).
Qed.
Lemma select_by_leverage (argsort : list R -> list nat) p k V c u : sorts argsort -> matrix p k V ->
  StronglySorted Rle (map (leverage k V) (column_select (N := Rnum) argsort V c true u)).
Proof.
  intros HS M. rewrite (select_sort (N := Rnum)). cbv zeta. set (l := filter _ _).
  set (pi := map (fun j => nth j (leverages (N := Rnum) V) 0) l).
  destruct (HS pi) as [HP Hs]. rewrite map_map.
  erewrite map_ext_in; [exact Hs|]. intros i Hi. cbv beta.
  assert (Hi' : (i < length l)%nat).
  { assert (In i (seq 0 (length pi))) by (eapply Permutation_in; [exact HP|exact Hi]). apply in_seq in H. unfold pi in H. rewrite map_length in H. lia. }
  unfold pi. set (f := fun j => nth j (leverages (N := Rnum) V) 0).
  rewrite (nth_indep _ 0 (f 0%nat)) by (now rewrite map_length). rewrite (map_nth f). unfold f. symmetry. apply (leverages_nth p); [exact M|].
  assert (In (nth i l 0%nat) l) by now apply nth_In. unfold l in H at 2. apply filter_In in H. destruct H as [H _]. apply in_seq in H. destruct M as [L _]. rewrite <- L. exact (proj2 H).
Qed.

Lemma probability_bounds k V c j : (0 < k)%nat -> 0 <= c -> 0 <= probability k V c j <= 1.
Proof.
  intros Hk Hc. unfold probability. split; [|apply Rmin_l]. apply Rmin_glb; [lra|]. apply Rmult_le_pos; [exact Hc|now apply leverage_nonneg].
Qed.
Lemma leverage_sum p k V : (0 < k)%nat -> unit_columns p k V -> Sum p (leverage k V) = 1.
Proof.
  intros Hk U. unfold leverage. unfold Rdiv. rewrite Sum_scal_r, Sum_swap.
  rewrite (Sum_ext k _ (fun _ => 1)) by (intros i Hi; now apply U). rewrite Sum_const. field. apply not_0_INR. lia.
Qed.
Lemma expected_columns p k V c : (0 < k)%nat -> unit_columns p k V -> Sum p (probability k V c) <= c.
Proof.
  intros Hk U. replace c with (c * Sum p (leverage k V)) at 2 by (rewrite (leverage_sum p k V Hk U); lra).
  rewrite <- Sum_scal. apply Sum_le. intros j _. apply Rmin_r.
Qed.
(** Equality when no probability is cut off. *)
Lemma expected_exact p k V c : (0 < k)%nat -> unit_columns p k V -> (forall j, (j < p)%nat -> c * leverage k V j <= 1) -> Sum p (probability k V c) = c.
Proof.
  intros Hk U B. replace c with (c * Sum p (leverage k V)) at 2 by (rewrite (leverage_sum p k V Hk U); lra).
  rewrite <- Sum_scal. apply Sum_ext. intros j Hj. unfold probability. apply Rmin_right. now apply B.
Qed.
Lemma certain_column k V c u j : 1 <= c * leverage k V j -> uniform (u j) -> drawn_column k V c u j.
Proof. intros H [_ U]. unfold drawn_column, probability. rewrite Rmin_left by exact H. exact U. Qed.
Lemma impossible_column k V c u j : c * leverage k V j <= 0 -> uniform (u j) -> ~ drawn_column k V c u j.
Proof. intros H [U _] D. unfold drawn_column, probability in D. pose proof (Rmin_r 1 (c * leverage k V j)). lra. Qed.
