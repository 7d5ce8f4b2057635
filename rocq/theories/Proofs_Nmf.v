(** Proofs about the dissimilarity of bases. *)
From Coq Require Import ZArith List Bool Arith Reals Permutation Lia Lra.
From Verif Require Import Prelude F64 Num Spec_Rescale Spec_Poisson Model_Nmf Spec_Nmf
  Proofs_Rescale Proofs_Poisson Proofs_PoissonOpt Proofs_LbfgsVec Proofs_CurFit Proofs_CurReal.
Import ListNotations.
Local Open Scope R_scope.

(** ** Vectors *)
Lemma norm2_nonneg p a : 0 <= norm2 p a. Proof. apply sqrt_pos. Qed.
Lemma norm2_sq p a : norm2 p a * norm2 p a = Sum p (fun j => entry a j * entry a j).
Proof. apply sqrt_sqrt. apply Sum_nonneg. intros; apply Rle_0_sqr. Qed.
Lemma Sum_pos p f j : (forall j, (j < p)%nat -> 0 <= f j) -> (j < p)%nat -> 0 < f j -> 0 < Sum p f.
Proof.
  revert j. induction p as [|p IH]; intros j H Hj P; [lia|]. rewrite Sum_S.
  assert (0 <= Sum p f) by (apply Sum_nonneg; intros; apply H; lia). assert (0 <= f p) by (apply H; lia).
  destruct (Nat.eq_dec j p) as [->|Ne]; [lra|]. assert (0 < Sum p f) by (apply (IH j); [intros; apply H; lia|lia|exact P]). lra.
Qed.
Lemma norm2_pos p a : (exists j, (j < p)%nat /\ entry a j <> 0) -> 0 < norm2 p a.
Proof.
  intros (j & Hj & Nz). apply sqrt_lt_R0. apply (Sum_pos p _ j); [intros; apply Rle_0_sqr|exact Hj|]. now apply Rsqr_pos_lt.
Qed.
Lemma Sum_zero_inv p f : (forall j, (j < p)%nat -> 0 <= f j) -> Sum p f = 0 -> forall j, (j < p)%nat -> f j = 0.
Proof.
  intros H E j Hj. destruct (Rle_lt_or_eq_dec 0 (f j) (H j Hj)) as [L|L]; [|now symmetry].
  pose proof (Sum_pos p f j H Hj L). lra.
Qed.
(** The squared distance of the two unit vectors. *)
Lemma unit_distance p a b : 0 < norm2 p a -> 0 < norm2 p b ->
  Sum p (fun j => (entry a j / norm2 p a - entry b j / norm2 p b) * (entry a j / norm2 p a - entry b j / norm2 p b)) = 2 - 2 * cosine p a b.
Proof.
  intros Ha Hb.
  rewrite (Sum_ext p _ (fun j => (entry a j * entry a j) * / (norm2 p a * norm2 p a) + (entry b j * entry b j) * / (norm2 p b * norm2 p b)
     - (entry a j * entry b j) * (2 * / (norm2 p a * norm2 p b)))) by (intros j _; field; lra).
  rewrite Sum_minus, Sum_plus, !Sum_scal_r, <- !norm2_sq. unfold cosine. field. lra.
Qed.
Lemma cosine_le_1 p a b : 0 < norm2 p a -> 0 < norm2 p b -> cosine p a b <= 1.
Proof.
  intros Ha Hb. pose proof (unit_distance p a b Ha Hb) as E.
  assert (0 <= 2 - 2 * cosine p a b) by (rewrite <- E; apply Sum_nonneg; intros; apply Rle_0_sqr). lra.
Qed.
Lemma cosine_1 p a b : 0 < norm2 p a -> 0 < norm2 p b -> cosine p a b = 1 <-> parallel p a b.
Proof.
  intros Ha Hb. split.
  - intro E. pose proof (unit_distance p a b Ha Hb) as D. rewrite E in D. replace (2 - 2 * 1) with 0 in D by ring.
    exists (norm2 p a / norm2 p b). split; [apply Rdiv_lt_0_compat; assumption|]. intros j Hj.
    pose proof (Sum_zero_inv _ _ (fun j _ => Rle_0_sqr _) D j Hj) as Z. apply Rsqr_0_uniq in Z.
    apply (Rmult_eq_reg_r (/ norm2 p a)); [|apply Rinv_neq_0_compat; lra].
    transitivity (entry b j / norm2 p b); [unfold Rdiv in *; lra|]. field. lra.
  - intros (s & Hs & E).
    assert (En : norm2 p a = s * norm2 p b).
    { unfold norm2. rewrite (Sum_ext p _ (fun j => (s * s) * (entry b j * entry b j))) by (intros j Hj; rewrite (E j Hj); ring).
      rewrite Sum_scal, sqrt_mult_alt by nra. now rewrite sqrt_square by lra. }
    unfold cosine. rewrite (Sum_ext p _ (fun j => s * (entry b j * entry b j))) by (intros j Hj; rewrite (E j Hj); ring).
    rewrite Sum_scal, <- norm2_sq, En. field. split; lra.
Qed.
Lemma cosine_nonneg p a b : 0 < norm2 p a -> 0 < norm2 p b -> (forall j, 0 <= entry a j) -> (forall j, 0 <= entry b j) -> 0 <= cosine p a b.
Proof.
  intros Ha Hb Pa Pb. apply Rmult_le_pos; [apply Sum_nonneg; intros; apply Rmult_le_pos; auto|].
  left. apply Rinv_0_lt_compat. now apply Rmult_lt_0_compat.
Qed.
Lemma cosine_sym p a b : cosine p a b = cosine p b a.
Proof. unfold cosine. rewrite (Rmult_comm (norm2 p a)). f_equal. apply Sum_ext. intros; ring. Qed.
Lemma cosine_ge_m1 p a b : 0 < norm2 p a -> 0 < norm2 p b -> -1 <= cosine p a b.
Proof.
  intros Ha Hb.
  assert (E : Sum p (fun j => (entry a j / norm2 p a + entry b j / norm2 p b) * (entry a j / norm2 p a + entry b j / norm2 p b)) = 2 + 2 * cosine p a b).
  { rewrite (Sum_ext p _ (fun j => (entry a j * entry a j) * / (norm2 p a * norm2 p a) + (entry b j * entry b j) * / (norm2 p b * norm2 p b)
     + (entry a j * entry b j) * (2 * / (norm2 p a * norm2 p b)))) by (intros j _; field; lra).
    rewrite !Sum_plus, !Sum_scal_r, <- !norm2_sq. unfold cosine. field. lra. }
  assert (0 <= 2 + 2 * cosine p a b) by (rewrite <- E; apply Sum_nonneg; intros; apply Rle_0_sqr). lra.
Qed.

(** ** The model computes these *)
Lemma vector_norm_R p (r : list R) : length r = p -> vector_norm (N := Rnum) r = norm2 p r.
Proof. intros <-. unfold vector_norm, norm2. rn. apply f_equal. exact (sum_squares r). Qed.

Lemma max_fold (l : list R) : forall x, (In (fold_left (np_maximum (N := Rnum)) l x) (x :: l)) /\ (forall y, In y (x :: l) -> y <= fold_left (np_maximum (N := Rnum)) l x).
Proof.
  induction l as [|a l IH]; intro x; cbn [fold_left].
  - split; [now left|]. intros y [<-|[]]. apply Rle_refl.
  - destruct (IH (np_maximum (N := Rnum) x a)) as [I1 I2].
    assert (M : (np_maximum (N := Rnum) x a = x /\ a <= x) \/ (np_maximum (N := Rnum) x a = a /\ x <= a)).
    { unfold np_maximum. rn. rewrite (proj2 (Reqb_t x x) eq_refl). cbn [negb]. rewrite orb_false_r.
      destruct (Rleb a x) eqn:E; [left; split; [easy|now apply Rleb_t]|right; split; [easy|]]. apply Rleb_f in E. lra. }
    split.
    + destruct I1 as [I1|I1]; [|right; now right]. destruct M as [[M _]|[M _]]; rewrite M in I1; rewrite M, <- I1; [now left|right; now left].
    + intros y [<-|[<-|Hy]].
      * apply Rle_trans with (np_maximum (N := Rnum) x a); [destruct M as [[-> M]|[-> M]]; lra|]. apply I2. now left.
      * apply Rle_trans with (np_maximum (N := Rnum) x a); [destruct M as [[-> M]|[-> M]]; lra|]. apply I2. now left.
      * apply I2. now right.
Qed.
Lemma np_max_largest k (f : nat -> R) : (0 < k)%nat -> largest k f (np_max (N := Rnum) (map f (seq 0 k))).
Proof.
  intro Hk. destruct k as [|k]; [lia|]. cbn [seq map np_max]. destruct (max_fold (map f (seq 1 k)) (f 0%nat)) as [I1 I2].
  change (f 0%nat :: map f (seq 1 k)) with (map f (seq 0 (S k))) in I1, I2. split.
  - apply in_map_iff in I1. destruct I1 as (i & E & Hi). apply in_seq in Hi. exists i. split; [lia|exact E].
  - intros i Hi. apply I2. apply in_map_iff. exists i. split; [easy|]. apply in_seq. lia.
Qed.
Lemma map_seq_nth {A B} (f : A -> B) (l : list A) d : map f l = map (fun i => f (nth i l d)) (seq 0 (length l)).
Proof. rewrite <- (map_nth_seq l d) at 1. rewrite map_map. reflexivity. Qed.
Lemma entry_unit p (r : list R) j : length r = p -> entry (map (fun x : R => x / norm2 p r) r) j = entry r j / norm2 p r.
Proof.
  intro L. unfold entry. destruct (le_lt_dec (length r) j) as [C|C].
  - rewrite !nth_overflow by (rewrite ?map_length; exact C). unfold Rdiv. ring.
  - rewrite (nth_indep _ 0 (0 / norm2 p r)) by (now rewrite map_length). apply (map_nth (fun x => x / norm2 p r)).
Qed.
Lemma unit_dot p (a b : list R) : length a = p -> length b = p -> norm2 p a <> 0 -> norm2 p b <> 0 ->
  ndot (N := Rnum) (map (fun x : R => x / norm2 p a) a) (map (fun x : R => x / norm2 p b) b) = cosine p a b.
Proof.
  intros La Lb Na Nb.
  assert (E := ndot_Sum (map (fun x : R => x / norm2 p a) a) (map (fun x : R => x / norm2 p b) b)). 
  etransitivity; [apply E; now rewrite !map_length, La, Lb|]. rewrite map_length, La.
  rewrite (Sum_ext p _ (fun j => (entry a j * entry b j) * / (norm2 p a * norm2 p b))).
  - rewrite Sum_scal_r. reflexivity.
  - intros j _. rewrite !entry_unit by assumption. field. now split.
Qed.
Lemma unit_rows_R k p H : matrix k p H -> unit_rows (N := Rnum) H = map (fun r => map (fun x : R => x / norm2 p r) r) H.
Proof.
  intros [_ F]. apply map_ext_in. intros r Hr. rewrite Forall_forall in F. apply map_ext. intro x.
  change (x / vector_norm (N := Rnum) r = x / norm2 p r). f_equal. apply vector_norm_R. now apply F.
Qed.
Lemma basis_norm k p H i : basis k p H -> (i < k)%nat -> 0 < norm2 p (row H i).
Proof. intros [M B] Hi. apply norm2_pos. exact (B i Hi). Qed.
Lemma basis_length k p H i : basis k p H -> (i < k)%nat -> length (row H i) = p.
Proof. intros [M B] Hi. now apply (matrix_row k p H). Qed.

Lemma dissimilarity_eq {N : NumOps} (H1 H2 : list (list N)) k f : (0 < k)%nat -> length H1 = k -> length H2 = k ->
  length (hd [] H1) = length (hd [] H2) ->
  map (fun a => map (ndot a) (unit_rows H2)) (unit_rows H1) = map (fun i => map (f i) (seq 0 k)) (seq 0 k) ->
  dissimilarity H1 H2 = Ok (nsub none (ndiv (nadd (nsum (map (fun j => np_max (map (fun i => f i j) (seq 0 k))) (seq 0 k)))
     (nsum (map (fun i => np_max (map (f i) (seq 0 k))) (seq 0 k)))) (nmul (nofZ 2) (nofnat k)))).
Proof.
  intros Hk L1 L2 W EC. unfold dissimilarity. rewrite W, Nat.eqb_refl, L1, L2. cbn [negb].
  destruct (Nat.eqb_spec k 0); [lia|]. cbn [orb]. cbv zeta. rewrite EC.
  assert (LB : length (unit_rows H2) = k) by (unfold unit_rows; now rewrite map_length). rewrite LB.
  rewrite map_map. do 5 f_equal. apply map_ext_in. intros j Hj. apply in_seq in Hj. rewrite map_map. f_equal. apply map_ext.
  intro i. rewrite nth_flags by lia. reflexivity.
Qed.

Lemma dissimilarity_value k p H1 H2 : (0 < k)%nat -> basis k p H1 -> basis k p H2 ->
  exists d, dissimilarity (N := Rnum) H1 H2 = Ok d /\ is_dissimilarity k p H1 H2 d.
Proof.
  intros Hk B1 B2. pose proof B1 as [[L1 F1] _]. pose proof B2 as [[L2 F2] _].
  assert (E1 : unit_rows (N := Rnum) H1 = map (fun i => map (fun x : R => x / norm2 p (row H1 i)) (row H1 i)) (seq 0 k)).
  { rewrite (unit_rows_R k p) by apply B1. rewrite (map_seq_nth _ H1 []), L1. reflexivity. }
  assert (E2 : unit_rows (N := Rnum) H2 = map (fun i => map (fun x : R => x / norm2 p (row H2 i)) (row H2 i)) (seq 0 k)).
  { rewrite (unit_rows_R k p) by apply B2. rewrite (map_seq_nth _ H2 []), L2. reflexivity. }
  pose (f := fun i j => cosine p (row H1 i) (row H2 j)).
  assert (EC : map (fun a => map (ndot (N := Rnum) a) (unit_rows (N := Rnum) H2)) (unit_rows (N := Rnum) H1) = map (fun i => map (f i) (seq 0 k)) (seq 0 k)).
  { rewrite E1, E2, map_map. apply map_ext_in. intros i Hi. apply in_seq in Hi. rewrite map_map. apply map_ext_in. intros j Hj. apply in_seq in Hj.
    apply unit_dot; [apply (basis_length k)|apply (basis_length k)|apply Rgt_not_eq, (basis_norm k)|apply Rgt_not_eq, (basis_norm k)]; try assumption; lia. }
  exists (1 - (Sum k (fun j => np_max (N := Rnum) (map (fun i => f i j) (seq 0 k))) + Sum k (fun i => np_max (N := Rnum) (map (f i) (seq 0 k)))) / (2 * INR k)).
  split.
  - assert (H0 : length (hd [] H1) = p /\ length (hd [] H2) = p).
    { split; [rewrite <- (basis_length k p H1 0 B1 Hk)|rewrite <- (basis_length k p H2 0 B2 Hk)]; unfold row; [now destruct H1|now destruct H2]. }
    destruct H0 as [Ha Hb].
    etransitivity; [exact (dissimilarity_eq (N := Rnum) H1 H2 k f Hk L1 L2 (eq_trans Ha (eq_sym Hb)) EC)|].
    rewrite INR_IZR_INZ. reflexivity.
  - exists (fun i => np_max (N := Rnum) (map (f i) (seq 0 k))), (fun j => np_max (N := Rnum) (map (fun i => f i j) (seq 0 k))).
    split; [intros i _; now apply np_max_largest|]. split; [intros j _; now apply (np_max_largest k (fun i => f i j))|].
    f_equal. f_equal. ring.
Qed.

(** ** Consequences *)
Lemma largest_unique k f m m' : largest k f m -> largest k f m' -> m = m'.
Proof.
  intros [(i & Hi & Ei) U] [(i' & Hi' & Ei') U']. apply Rle_antisym; [rewrite <- Ei; now apply U'|rewrite <- Ei'; now apply U].
Qed.
Lemma is_dissimilarity_unique k p H1 H2 d d' : is_dissimilarity k p H1 H2 d -> is_dissimilarity k p H1 H2 d' -> d = d'.
Proof.
  intros (m1 & m2 & A1 & A2 & ->) (m1' & m2' & B1 & B2 & ->).
  rewrite (Sum_ext k m1 m1') by (intros i Hi; exact (largest_unique _ _ _ _ (A1 i Hi) (B1 i Hi))).
  rewrite (Sum_ext k m2 m2') by (intros i Hi; exact (largest_unique _ _ _ _ (A2 i Hi) (B2 i Hi))). reflexivity.
Qed.
Lemma is_dissimilarity_sym k p H1 H2 d : is_dissimilarity k p H1 H2 d -> is_dissimilarity k p H2 H1 d.
Proof.
  assert (L : forall f g m, (forall i, f i = g i) -> largest k f m -> largest k g m).
  { intros f g m E [(i & Hi & Ei) U]. split; [exists i; now rewrite <- E|]. intros j Hj. rewrite <- E. now apply U. }
  intros (m1 & m2 & A1 & A2 & ->). exists m2, m1. split; [|split; [|f_equal; f_equal; ring]].
  - intros i Hi. eapply L; [|exact (A2 i Hi)]. intro; apply cosine_sym.
  - intros i Hi. eapply L; [|exact (A1 i Hi)]. intro; apply cosine_sym.
Qed.
Lemma dissimilarity_sym k p H1 H2 : (0 < k)%nat -> basis k p H1 -> basis k p H2 ->
  dissimilarity (N := Rnum) H1 H2 = dissimilarity (N := Rnum) H2 H1.
Proof.
  intros Hk B1 B2. destruct (dissimilarity_value k p H1 H2 Hk B1 B2) as (d & E & D). destruct (dissimilarity_value k p H2 H1 Hk B2 B1) as (d' & E' & D').
  apply is_dissimilarity_sym in D'. rewrite (is_dissimilarity_unique _ _ _ _ _ _ D D') in E. etransitivity; [exact E|]. symmetry. exact E'.
Qed.
Lemma mean_bounds k (m1 m2 : nat -> R) lo : (0 < k)%nat -> (forall i, (i < k)%nat -> lo <= m1 i <= 1) -> (forall i, (i < k)%nat -> lo <= m2 i <= 1) ->
  0 <= 1 - (Sum k m1 + Sum k m2) / (2 * INR k) <= 1 - lo.
Proof.
  intros Hk A1 A2. pose proof (lt_0_INR k Hk) as P.
  assert (U1 : Sum k m1 <= INR k * 1) by (rewrite <- Sum_const; apply Sum_le; intros; now apply A1).
  assert (U2 : Sum k m2 <= INR k * 1) by (rewrite <- Sum_const; apply Sum_le; intros; now apply A2).
  assert (L1 : INR k * lo <= Sum k m1) by (rewrite <- Sum_const; apply Sum_le; intros; now apply A1).
  assert (L2 : INR k * lo <= Sum k m2) by (rewrite <- Sum_const; apply Sum_le; intros; now apply A2).
  assert (E : (Sum k m1 + Sum k m2) / (2 * INR k) * (2 * INR k) = Sum k m1 + Sum k m2) by (field; lra).
  set (q := (Sum k m1 + Sum k m2) / (2 * INR k)) in *. split; nra.
Qed.
Lemma dissimilarity_bounds k p H1 H2 d : (0 < k)%nat -> basis k p H1 -> basis k p H2 -> is_dissimilarity k p H1 H2 d ->
  0 <= d <= 2 /\ (nonnegative H1 -> nonnegative H2 -> d <= 1).
Proof.
  intros Hk B1 B2 (m1 & m2 & A1 & A2 & ->). split.
  - replace 2 with (1 - -1) at 3 by ring. apply mean_bounds; [exact Hk| |]; intros i Hi; [destruct (A1 i Hi) as [(j & Hj & <-) _]|destruct (A2 i Hi) as [(j & Hj & <-) _]];
      (split; [apply cosine_ge_m1|apply cosine_le_1]; apply (basis_norm k); assumption).
  - intros P1 P2. replace 1 with (1 - 0) at 2 by ring. apply mean_bounds; [exact Hk| |]; intros i Hi; [destruct (A1 i Hi) as [(j & Hj & <-) _]|destruct (A2 i Hi) as [(j & Hj & <-) _]];
      (split; [apply cosine_nonneg; [apply (basis_norm k); assumption|apply (basis_norm k); assumption|intro; apply P1|intro; apply P2]|apply cosine_le_1; apply (basis_norm k); assumption]).
Qed.
Lemma parallel_sym p a b : parallel p a b -> parallel p b a.
Proof.
  intros (s & Hs & E). exists (/ s). split; [now apply Rinv_0_lt_compat|]. intros j Hj. rewrite (E j Hj). field. lra.
Qed.
Lemma dissimilarity_zero k p H1 H2 d : (0 < k)%nat -> basis k p H1 -> basis k p H2 -> is_dissimilarity k p H1 H2 d ->
  d = 0 <-> (forall i, (i < k)%nat -> exists j, (j < k)%nat /\ parallel p (row H1 i) (row H2 j)) /\
            (forall j, (j < k)%nat -> exists i, (i < k)%nat /\ parallel p (row H2 j) (row H1 i)).
Proof.
  intros Hk B1 B2 (m1 & m2 & A1 & A2 & ->). pose proof (lt_0_INR k Hk) as P.
  assert (U1 : forall i, (i < k)%nat -> m1 i <= 1).
  { intros i Hi. destruct (A1 i Hi) as [(j & Hj & <-) _]. apply cosine_le_1; apply (basis_norm k); assumption. }
  assert (U2 : forall i, (i < k)%nat -> m2 i <= 1).
  { intros i Hi. destruct (A2 i Hi) as [(j & Hj & <-) _]. apply cosine_le_1; apply (basis_norm k); assumption. }
  split.
  - intro E.
    assert (S : Sum k m1 + Sum k m2 = 2 * INR k).
    { apply (Rmult_eq_reg_r (/ (2 * INR k))); [|apply Rinv_neq_0_compat; lra]. rewrite Rinv_r by lra. unfold Rdiv in E. lra. }
    assert (Z1 : Sum k (fun i => 1 - m1 i) = 0 /\ Sum k (fun i => 1 - m2 i) = 0).
    { assert (0 <= Sum k (fun i => 1 - m1 i)) by (apply Sum_nonneg; intros i Hi; specialize (U1 i Hi); lra).
      assert (0 <= Sum k (fun i => 1 - m2 i)) by (apply Sum_nonneg; intros i Hi; specialize (U2 i Hi); lra).
      rewrite !Sum_minus, !Sum_const in *. split; lra. }
    destruct Z1 as [Z1 Z2].
    assert (V1 : forall i, (i < k)%nat -> 0 <= 1 - m1 i) by (intros i Hi; specialize (U1 i Hi); lra).
    assert (V2 : forall i, (i < k)%nat -> 0 <= 1 - m2 i) by (intros i Hi; specialize (U2 i Hi); lra).
    split; intros i Hi.
    + destruct (A1 i Hi) as [(j & Hj & Ej) _]. exists j. split; [exact Hj|]. apply cosine_1; [now apply (basis_norm k)|now apply (basis_norm k)|].
      assert (Q : 1 - m1 i = 0) by exact (Sum_zero_inv k (fun i => 1 - m1 i) V1 Z1 i Hi). lra.
    + destruct (A2 i Hi) as [(j & Hj & Ej) _]. exists j. split; [exact Hj|]. apply parallel_sym, cosine_1; [now apply (basis_norm k)|now apply (basis_norm k)|].
      assert (Q : 1 - m2 i = 0) by exact (Sum_zero_inv k (fun i => 1 - m2 i) V2 Z2 i Hi). lra.
  - intros [I1 I2].
    assert (E1 : forall i, (i < k)%nat -> m1 i = 1).
    { intros i Hi. apply Rle_antisym; [now apply U1|]. destruct (I1 i Hi) as (j & Hj & Pj). apply cosine_1 in Pj; [|now apply (basis_norm k)|now apply (basis_norm k)].
      rewrite <- Pj. now apply (A1 i Hi). }
    assert (E2 : forall i, (i < k)%nat -> m2 i = 1).
    { intros i Hi. apply Rle_antisym; [now apply U2|]. destruct (I2 i Hi) as (j & Hj & Pj). apply parallel_sym, cosine_1 in Pj; [|now apply (basis_norm k)|now apply (basis_norm k)].
      rewrite <- Pj. now apply (A2 i Hi). }
    rewrite (Sum_ext k m1 (fun _ => 1)) by exact E1. rewrite (Sum_ext k m2 (fun _ => 1)) by exact E2. rewrite Sum_const. field. lra.
Qed.
