(** Proofs about the Poisson regressor. *)
From Coq Require Import ZArith List Bool Reals Lra Lia Arith.
From Verif Require Import Prelude Num Model_Rescale Spec_Rescale Proofs_Rescale Model_Refit
  Model_Poisson Spec_Poisson Deriv.
Import ListNotations.
Local Open Scope R_scope.

(** ** Vectors and matrices *)
Lemma entry_map2 (f : R -> R -> R) (a b : list R) i : (i < length a)%nat -> (i < length b)%nat ->
  entry (map2 f a b) i = f (entry a i) (entry b i).
Proof. intros. exact (map2_nth f a b i 0 0 0 H H0). Qed.

Lemma entry_map2n (f : R -> R -> R) n (a b : list R) i : length a = n -> length b = n -> (i < n)%nat ->
  entry (map2 f a b) i = f (entry a i) (entry b i).
Proof. intros. apply entry_map2; lia. Qed.
Lemma entry_mapn (f : R -> R) n (a : list R) i : length a = n -> (i < n)%nat ->
  entry (map f a) i = f (entry a i).
Proof. intros. apply entry_map; lia. Qed.

Lemma length_lset {A} k (v : A) c : length (lset k v c) = length c.
Proof. revert k. induction c as [|a c IH]; intros [|k]; cbn; auto. Qed.
Lemma nth_lset {A} k (v d : A) c j : (k < length c)%nat ->
  nth j (lset k v c) d = if Nat.eqb j k then v else nth j c d.
Proof.
  revert k j. induction c as [|a c IH]; intros [|k] [|j] H; cbn in *; try lia; auto. apply IH. lia.
Qed.
Lemma lset_upd k v (c : list R) : (k < length c)%nat -> lset k v c = upd c k v.
Proof.
  unfold upd. revert k. induction c as [|a c IH]; intros [|k] H; cbn in *; try lia; auto. rewrite IH by lia. reflexivity.
Qed.
Lemma length_upd c k v : (k < length c)%nat -> length (upd c k v) = length c.
Proof. intro H. rewrite <- lset_upd by assumption. apply length_lset. Qed.
Lemma entry_upd c k v j : (k < length c)%nat -> entry (upd c k v) j = if Nat.eqb j k then v else entry c j.
Proof. intro H. rewrite <- lset_upd by assumption. unfold entry. now apply nth_lset. Qed.

Lemma upd_same (coef : list R) j : (j < length coef)%nat -> upd coef j (entry coef j) = coef.
Proof.
  unfold upd, entry. revert j. induction coef as [|a l IH]; intros [|j] H; cbn in *; try lia; auto.
  f_equal. apply IH. lia.
Qed.
Lemma Sum_at p k (f : nat -> R) a : (k < p)%nat ->
  Sum p (fun j => if Nat.eqb j k then a else f j) = Sum p f - f k + a.
Proof.
  revert k. induction p; intros k H; [lia|]. rewrite !Sum_S. destruct (Nat.eq_dec k p) as [->|Hne].
  - rewrite Nat.eqb_refl. rewrite (Sum_ext p _ f).
    + lra.
    + intros j Hj. destruct (Nat.eqb_spec j p); [lia|reflexivity].
  - rewrite IHp by lia. destruct (Nat.eqb_spec p k); [lia|]. lra.
Qed.
Lemma Sum_nonneg p f : (forall j, (j < p)%nat -> 0 <= f j) -> 0 <= Sum p f.
Proof.
  induction p; intro H; [rewrite Sum_0; lra|]. rewrite Sum_S.
  assert (0 <= Sum p f) by (apply IHp; intros; apply H; lia).
  assert (0 <= f p) by (apply H; lia). lra.
Qed.
Lemma Sum_le p f g : (forall j, (j < p)%nat -> f j <= g j) -> Sum p f <= Sum p g.
Proof.
  intro H. assert (0 <= Sum p (fun j => g j - f j)) by (apply Sum_nonneg; intros j Hj; specialize (H j Hj); lra).
  rewrite Sum_minus in H0. lra.
Qed.
Lemma Sum_const p k : Sum p (fun _ => k) = INR p * k.
Proof. induction p; [rewrite Sum_0; cbn; lra|]. rewrite Sum_S, IHp, S_INR. lra. Qed.

Section Matrix.
  Variables (n p : nat) (X : list (list R)).
  Hypothesis HX : matrix n p X.

  Lemma row_length i : (i < n)%nat -> length (nth i X []) = p.
  Proof.
    destruct HX as [L F]. rewrite Forall_forall in F. intro H. apply F. apply nth_In. lia.
  Qed.
  Lemma length_matvec (c : list R) : length (matvec (N := Rnum) X c) = n.
  Proof. destruct HX as [L _]. unfold matvec. now rewrite map_length. Qed.
  Lemma entry_matvec (c : list R) i : length c = p -> (i < n)%nat ->
    entry (matvec (N := Rnum) X c) i = Sum p (fun j => mat X i j * entry c j).
  Proof.
    destruct HX as [L _]. intros Hc Hi. pose proof (row_length i Hi) as Hr.
    assert (E : nth i (map (fun r : list R => ndot (N := Rnum) r c) X) (ndot (N := Rnum) [] c)
                = ndot (N := Rnum) (nth i X []) c) by exact (map_nth _ X [] i).
    unfold entry at 1. unfold matvec. rr. rewrite (nth_indep _ 0 (ndot (N := Rnum) [] c)) by (rewrite map_length; lia).
    refine (eq_trans E _). refine (eq_trans (ndot_Sum (nth i X []) c _) _); rr; [congruence|]. now rewrite Hr.
  Qed.
  Lemma length_column j : length (column (N := Rnum) X j) = n.
  Proof. destruct HX as [L _]. unfold column. now rewrite map_length. Qed.
  Lemma entry_column j i : (i < n)%nat -> entry (column (N := Rnum) X j) i = mat X i j.
  Proof.
    destruct HX as [L _]. intro Hi. unfold entry, column, mat.
    rewrite (nth_indep _ 0 (nth j (@nil R) (nzero (N := Rnum)))) by (rewrite map_length; rr; lia).
    exact (map_nth (fun r : list R => nth j r (nzero (N := Rnum))) X [] i).
  Qed.
  Lemma length_eta (b : R) (c : list R) : length (map (nadd (n := Rnum) b) (matvec (N := Rnum) X c)) = n.
  Proof. rewrite map_length. apply length_matvec. Qed.
  Lemma entry_eta (b : R) (c : list R) i : length c = p -> (i < n)%nat ->
    entry (map (nadd (n := Rnum) b) (matvec (N := Rnum) X c)) i = eta p X c b i.
  Proof.
    intros Hc Hi. unfold eta. rewrite <- (entry_matvec c i Hc Hi).
    apply (entry_map (fun v => b + v)). rewrite length_matvec. exact Hi.
  Qed.
  Lemma length_tmatvec (v : list R) : length (tmatvec (N := Rnum) p X v) = p.
  Proof. unfold tmatvec. now rewrite map_length, seq_length. Qed.
  Lemma entry_tmatvec (v : list R) j : length v = n -> (j < p)%nat ->
    entry (tmatvec (N := Rnum) p X v) j = Sum n (fun i => mat X i j * entry v i).
  Proof.
    intros Hv Hj. unfold entry, tmatvec.
    rewrite (nth_indep _ 0 (ndot (N := Rnum) (column (N := Rnum) X 0) v)) by (rewrite map_length, seq_length; lia).
    rewrite (map_nth (fun j => ndot (N := Rnum) (column (N := Rnum) X j) v)), seq_nth by assumption. cbn [Nat.add].
    rewrite (ndot_Sum (column (N := Rnum) X j) v) by (rewrite length_column; rr; congruence).
    rewrite length_column. apply Sum_ext. intros i Hi. now rewrite entry_column.
  Qed.
End Matrix.

Lemma dot_n (n : nat) (a b : list R) : length a = n -> length b = n ->
  ndot (N := Rnum) a b = Sum n (fun i => entry a i * entry b i).
Proof. intros H1 H2. rewrite (ndot_Sum a b) by (rr; congruence). rr. now rewrite H1. Qed.
Lemma sum_n (n : nat) (a : list R) : length a = n -> nsum (N := Rnum) a = Sum n (fun i => entry a i).
Proof. intro H. rewrite (nsum_Sum a). rr. now rewrite H. Qed.
Lemma mean_n (n : nat) (a : list R) : length a = n -> nmean (N := Rnum) a = Sum n (fun i => entry a i) / INR n.
Proof.
  intro H. unfold nmean. rewrite (sum_n n a H). unfold nofnat. rn. rr. rewrite H. now rewrite <- INR_IZR_INZ.
Qed.
Lemma length_map2n {A B C} (f : A -> B -> C) n a b : length a = n -> length b = n -> length (map2 f a b) = n.
Proof. intros. rewrite map2_length. lia. Qed.

(** ** Soft thresholding *)
Definition soft (x t : R) : R := soft_threshold (N := Rnum) x t.

Lemma soft_cases x t : 0 <= t ->
  (t < x /\ soft x t = x - t) \/ (x < - t /\ soft x t = x + t) \/ (- t <= x <= t /\ soft x t = 0).
Proof.
  intro Ht. unfold soft, soft_threshold, nsign, nzero, none. rn. unfold Rltb, Reqb.
  destruct (Rlt_dec t (Rabs x)) as [H|H].
  - destruct (Rlt_dec 0 x) as [H0|H0].
    + rewrite Rabs_right in * by lra. left. split; lra.
    + destruct (Rlt_dec x 0) as [H1|H1].
      * rewrite Rabs_left in * by lra. right. left. split; lra.
      * assert (x = 0) by lra. subst. rewrite Rabs_R0 in H. lra.
  - right. right. assert (H0 : Rabs x <= t) by lra. pose proof (Rle_abs x). pose proof (Rle_abs (- x)). rewrite Rabs_Ropp in *. split; [lra|].
    rewrite Rmult_0_r. reflexivity.
Qed.

Lemma soft_prox x t u : 0 <= t ->
  (soft x t - x) * (soft x t - x) / 2 + t * Rabs (soft x t) <= (u - x) * (u - x) / 2 + t * Rabs u.
Proof.
  intro Ht. destruct (soft_cases x t Ht) as [[H ->]|[[H ->]|[H ->]]].
  - rewrite (Rabs_right (x - t)) by lra. pose proof (Rle_abs u).
    pose proof (Rle_0_sqr (u - x + t)). unfold Rsqr in *. nra.
  - rewrite (Rabs_left (x + t)) by lra. pose proof (Rle_abs (- u)). rewrite Rabs_Ropp in *.
    pose proof (Rle_0_sqr (u - x - t)). unfold Rsqr in *. nra.
  - rewrite Rabs_R0. pose proof (Rle_0_sqr u). unfold Rsqr in *.
    destruct (Rcase_abs u) as [Hu|Hu].
    + rewrite (Rabs_left u) by lra. nra.
    + rewrite (Rabs_right u) by lra. nra.
Qed.
Lemma soft_unique x t u : 0 <= t ->
  (u - x) * (u - x) / 2 + t * Rabs u <= (soft x t - x) * (soft x t - x) / 2 + t * Rabs (soft x t) ->
  u = soft x t.
Proof.
  intros Ht Hu. pose proof (soft_prox x t ((u + soft x t) / 2) Ht) as H.
  assert (Ha : Rabs ((u + soft x t) / 2) <= (Rabs u + Rabs (soft x t)) / 2).
  { unfold Rdiv. rewrite Rabs_mult, (Rabs_right (/ 2)) by lra. apply Rmult_le_compat_r; [lra|]. apply Rabs_triang. }
  assert (Hsq : (u - soft x t) * (u - soft x t) <= 0) by nra.
  pose proof (Rle_0_sqr (u - soft x t)) as H2. unfold Rsqr in H2.
  assert ((u - soft x t) * (u - soft x t) = 0) by lra.
  apply Rmult_integral in H0. lra.
Qed.

Lemma eta_upd (p : nat) (X : list (list R)) (coef : list R) b j v i : length coef = p -> (j < p)%nat ->
  eta p X (upd coef j v) b i = eta p X (upd coef j 0) b i + mat X i j * v.
Proof.
  intros Hc Hj. unfold eta.
  rewrite (Sum_ext p (fun k => mat X i k * entry (upd coef j v) k)
             (fun k => if Nat.eqb k j then mat X i j * v else mat X i k * entry coef k)).
  2:{ intros k Hk. rewrite entry_upd by lia. destruct (Nat.eqb_spec k j); [now subst|reflexivity]. }
  rewrite (Sum_ext p (fun k => mat X i k * entry (upd coef j 0) k)
             (fun k => if Nat.eqb k j then 0 else mat X i k * entry coef k)).
  2:{ intros k Hk. rewrite entry_upd by lia. destruct (Nat.eqb_spec k j); lra. }
  rewrite !Sum_at by assumption. lra.
Qed.
(** ** Coordinate descent *)
Section Sweep.
  Variables (n p : nat) (X : list (list R)) (w z : list R) (c : config Rnum).
  Hypothesis HX : matrix n p X.
  Hypothesis Hn : (0 < n)%nat.
  Hypothesis Hw : length w = n.
  Hypothesis Hz : length z = n.
  Hypothesis Hw0 : forall i, (i < n)%nat -> 0 <= entry w i.
  Hypothesis Hlam : 0 <= alpha c.
  Hypothesis Hmix : 0 <= l1_ratio c <= 1.
  Notation lam := (alpha c : R).
  Notation mix := (l1_ratio c : R).

  (** Partial residual without feature j, numerator and denominator. *)
  Definition partial (coef : list R) (b : R) (j i : nat) : R :=
    entry z i - eta p X (upd coef j 0) b i.
  Definition num (coef : list R) (b : R) (j : nat) : R :=
    Sum n (fun i => entry w i * (mat X i j * partial coef b j i)) / INR n.
  Definition den (j : nat) : R :=
    Sum n (fun i => entry w i * (mat X i j * mat X i j)) / INR n.

  Lemma INR_pos : 0 < INR n.
  Proof. apply lt_0_INR. exact Hn. Qed.


  Definition rest (coef : list R) (b : R) (j : nat) : R :=
    / (2 * INR n) * Sum n (fun i => entry w i * (partial coef b j i * partial coef b j i))
    + lam * (mix * (Sum p (fun k => Rabs (entry coef k)) - Rabs (entry coef j))
             + (1 - mix) / 2 * (Sum p (fun k => entry coef k * entry coef k) - entry coef j * entry coef j)).

  (** The objective as a function of one coordinate. *)
  Lemma quad_coord (coef : list R) b j v : length coef = p -> (j < p)%nat ->
    quad n p X w z lam mix (upd coef j v) b
    = (den j + lam * (1 - mix)) / 2 * (v * v) - num coef b j * v + lam * mix * Rabs v + rest coef b j.
  Proof.
    intros Hc Hj. unfold quad, penalty, rest, den, num.
    rewrite (Sum_ext n (fun i => entry w i * (entry z i - eta p X (upd coef j v) b i) * (entry z i - eta p X (upd coef j v) b i))
       (fun i => entry w i * (partial coef b j i * partial coef b j i)
                 - 2 * v * (entry w i * (mat X i j * partial coef b j i))
                 + v * v * (entry w i * (mat X i j * mat X i j)))).
    2:{ intros i Hi. rewrite (eta_upd p X coef b j v i Hc Hj). unfold partial. ring. }
    rewrite Sum_plus, Sum_minus, !Sum_scal.
    rewrite (Sum_ext p (fun k => Rabs (entry (upd coef j v) k))
               (fun k => if Nat.eqb k j then Rabs v else Rabs (entry coef k))).
    2:{ intros k Hk. rewrite entry_upd by lia. now destruct (Nat.eqb_spec k j). }
    rewrite (Sum_ext p (fun k => entry (upd coef j v) k * entry (upd coef j v) k)
               (fun k => if Nat.eqb k j then v * v else entry coef k * entry coef k)).
    2:{ intros k Hk. rewrite entry_upd by lia. now destruct (Nat.eqb_spec k j). }
    rewrite !Sum_at by assumption. pose proof INR_pos. field. lra.
  Qed.

  Definition roff (p j : nat) : list R := one_off (N := Rnum) p j.
  Lemma one_off_mul (coef : list R) j : length coef = p -> (j < p)%nat ->
    map2 Rmult coef (roff p j) = upd coef j 0.
  Proof.
    intros Hc Hj.
    assert (Lo : length (roff p j) = p) by (unfold roff, one_off; now rewrite map_length, seq_length).
    apply (nth_ext _ _ 0 0).
    - rewrite map2_length, Lo. rewrite length_upd by lia. lia.
    - intros k Hk. rewrite map2_length, Lo in Hk.
      change (entry (map2 Rmult coef (roff p j)) k = entry (upd coef j 0) k).
      rewrite entry_upd by lia. rewrite entry_map2 by (rewrite ?Lo; lia).
      assert (Eo : entry (roff p j) k = if Nat.eqb k j then 0 else 1).
      { unfold entry, roff, one_off. rr. rewrite (nth_indep _ 0 ((fun k => if Nat.eqb k j then nzero (N := Rnum) else none (N := Rnum)) 0%nat)) by (rewrite map_length, seq_length; lia).
        rewrite (map_nth (fun k => if Nat.eqb k j then nzero (N := Rnum) else none (N := Rnum))), seq_nth by lia. reflexivity. }
      rewrite Eo. destruct (Nat.eqb k j); ring.
  Qed.

  Lemma update_value (coef : list R) b j : length coef = p -> (j < p)%nat ->
    cd_update (N := Rnum) c X w z b coef j
    = upd coef j (soft (num coef b j) (mix * lam) / (den j + lam * (1 - mix))).
  Proof.
    intros Hc Hj. unfold cd_update. rewrite <- lset_upd by lia.
    assert (Eu : map2 (nmul (n := Rnum)) coef (one_off (N := Rnum) (length coef) j) = upd coef j 0)
      by (rewrite Hc; exact (one_off_mul coef j Hc Hj)).
    rr. rewrite Eu.
    assert (Lu : length (upd coef j 0) = p) by (rewrite length_upd; lia).
    assert (Lr : length (map2 (nsub (n := Rnum)) z (map (nadd (n := Rnum) b) (matvec (N := Rnum) X (upd coef j 0)))) = n)
      by (apply length_map2n; [exact Hz|apply (length_eta n p X HX)]).
    assert (E1 : ndot (N := Rnum) w (map2 (nmul (n := Rnum)) (column (N := Rnum) X j)
               (map2 (nsub (n := Rnum)) z (map (nadd (n := Rnum) b) (matvec (N := Rnum) X (upd coef j 0)))))
             = Sum n (fun i => entry w i * (mat X i j * partial coef b j i))).
    { rewrite (dot_n n); [|exact Hw|apply length_map2n; [apply (length_column n p X HX)|exact Lr]].
      apply Sum_ext. intros i Hi. f_equal.
      refine (eq_trans (entry_map2n Rmult n _ _ i (length_column n p X HX j) Lr Hi) _).
      rewrite (entry_column n p X HX) by exact Hi. f_equal.
      refine (eq_trans (entry_map2n Rminus n _ _ i Hz (length_eta n p X HX b (upd coef j 0)) Hi) _).
      rewrite (entry_eta n p X HX) by (auto; lia). reflexivity. }
    assert (E2 : ndot (N := Rnum) w (map nsquare (column (N := Rnum) X j))
             = Sum n (fun i => entry w i * (mat X i j * mat X i j))).
    { rewrite (dot_n n); [|exact Hw|rewrite map_length; apply (length_column n p X HX)].
      apply Sum_ext. intros i Hi. f_equal.
      refine (eq_trans (entry_mapn (fun v => v * v) n _ i (length_column n p X HX j) Hi) _).
      now rewrite (entry_column n p X HX) by exact Hi. }
    rr. rewrite E1, E2. unfold soft, num, den, nofnat, none. rn. destruct HX as [L _]. rr. rewrite L.
    rewrite <- INR_IZR_INZ. reflexivity.
  Qed.

  Lemma update_length (coef : list R) b j : length (cd_update (N := Rnum) c X w z b coef j) = length coef.
  Proof. unfold cd_update. apply length_lset. Qed.

  Lemma update_optimal (coef : list R) b j v : length coef = p -> (j < p)%nat -> 0 < den j + lam * (1 - mix) ->
    quad n p X w z lam mix (cd_update (N := Rnum) c X w z b coef j) b
    <= quad n p X w z lam mix (upd coef j v) b.
  Proof.
    intros Hc Hj HD. rewrite update_value by assumption. rewrite !quad_coord by assumption.
    set (D := den j + lam * (1 - mix)) in *. set (B := num coef b j). set (t := mix * lam).
    assert (Ht : 0 <= t) by (unfold t; apply Rmult_le_pos; lra).
    pose proof (soft_prox B t (D * v) Ht) as H. set (s := soft B t) in *.
    rewrite Rabs_mult, (Rabs_right D) in H by lra.
    replace (lam * mix) with t by (unfold t; ring).
    assert (HI : D * / D = 1) by (field; lra). assert (0 < / D) by now apply Rinv_0_lt_compat.
    change (s / D) with (s * / D). set (I := / D) in *.
    rewrite (Rabs_mult s I), (Rabs_right I) by lra.
    assert (G : I * (s * s / 2 - B * s + t * Rabs s) <= I * (D * v * (D * v) / 2 - B * (D * v) + t * (D * Rabs v))).
    { apply Rmult_le_compat_l; [lra|]. lra. }
    replace (I * (D * v * (D * v) / 2 - B * (D * v) + t * (D * Rabs v)))
      with ((D * I) * (D / 2 * (v * v) - B * v + t * Rabs v)) in G by (unfold Rdiv; ring).
    rewrite HI, Rmult_1_l in G.
    assert (G2 : D / 2 * (s * I * (s * I)) = I * (s * s / 2)).
    { replace (D / 2 * (s * I * (s * I))) with ((D * I) * (I * (s * s / 2))) by (unfold Rdiv; ring). now rewrite HI, Rmult_1_l. }
    rewrite G2. lra.
  Qed.

  Lemma updates_decrease b active (coef : list R) : length coef = p ->
    (forall j, In j active -> (j < p)%nat /\ 0 < den j + lam * (1 - mix)) ->
    quad n p X w z lam mix (fold_left (cd_update (N := Rnum) c X w z b) active coef) b
    <= quad n p X w z lam mix coef b.
  Proof.
    revert coef. induction active as [|j r IH]; intros coef Hc Ha; [cbn; lra|].
    cbn [fold_left]. destruct (Ha j (or_introl eq_refl)) as [Hj HD].
    eapply Rle_trans; [apply IH|].
    - rewrite update_length. exact Hc.
    - intros k Hk. apply Ha. now right.
    - pose proof (update_optimal coef b j (entry coef j) Hc Hj HD) as H.
      rewrite upd_same in H by lia. exact H.
  Qed.

  (** The intercept step: weighted mean of the residuals. *)
  Lemma intercept_optimal (coef : list R) b v : length coef = p -> 0 < Sum n (fun i => entry w i) ->
    b = Sum n (fun i => entry w i * (entry z i - eta p X coef 0 i)) / Sum n (fun i => entry w i) ->
    quad n p X w z lam mix coef b <= quad n p X w z lam mix coef v.
  Proof.
    intros Hc HW Hb. unfold quad. apply Rplus_le_compat_r.
    pose proof INR_pos as Hp. apply Rmult_le_compat_l; [left; apply Rinv_0_lt_compat; lra|].
    set (W := Sum n (fun i => entry w i)) in *.
    set (T := Sum n (fun i => entry w i * (entry z i - eta p X coef 0 i))) in *.
    set (Q := Sum n (fun i => entry w i * ((entry z i - eta p X coef 0 i) * (entry z i - eta p X coef 0 i)))).
    assert (E : forall u, Sum n (fun i => entry w i * (entry z i - eta p X coef u i) * (entry z i - eta p X coef u i))
               = Q - 2 * u * T + u * u * W).
    { intro u. unfold Q, T, W. rewrite <- !Sum_scal, <- Sum_minus, <- Sum_plus. apply Sum_ext. intros i Hi.
      unfold eta. ring. }
    rewrite !E. assert (HbT : b * W = T) by (rewrite Hb; field; lra).
    rewrite <- HbT. assert (0 <= (b - v) * (b - v) * W).
    { apply Rmult_le_pos; [apply Rle_0_sqr|lra]. }
    nra.
  Qed.

  Lemma sweep_intercept (coef : list R) : length coef = p -> fit_intercept c = true ->
    forall active, snd (cd_sweep (N := Rnum) c X w z active coef)
    = Sum n (fun i => entry w i * (entry z i - eta p X coef 0 i)) / Sum n (fun i => entry w i).
  Proof.
    intros Hc Hf active. unfold cd_sweep. cbn [snd]. rewrite Hf. rn.
    rewrite (sum_n n w Hw). f_equal. rewrite (dot_n n w).
    - apply Sum_ext. intros i Hi. f_equal.
      refine (eq_trans (entry_map2n Rminus n _ _ i Hz (length_matvec n p X HX coef) Hi) _).
      rewrite (entry_matvec n p X HX) by (auto; lia). unfold eta. lra.
    - exact Hw.
    - apply length_map2n; [exact Hz|apply (length_matvec n p X HX)].
  Qed.

  Lemma sweep_decrease (coef : list R) b active : length coef = p ->
    (forall j, In j active -> (j < p)%nat /\ 0 < den j + lam * (1 - mix)) ->
    (if fit_intercept c then 0 < Sum n (fun i => entry w i) else b = 0) ->
    let r := cd_sweep (N := Rnum) c X w z active coef in
    quad n p X w z lam mix (fst r) (snd r) <= quad n p X w z lam mix coef b.
  Proof.
    intros Hc Ha Hb r. unfold r, cd_sweep. cbn [fst snd].
    eapply Rle_trans; [apply updates_decrease; assumption|].
    pose proof (sweep_intercept coef Hc) as E. unfold cd_sweep in E. cbn [snd] in E.
    destruct (fit_intercept c) eqn:F.
    - apply intercept_optimal; auto.
    - subst b. unfold nzero. rn. lra.
  Qed.
End Sweep.

(** ** The same functions on plain real lists *)
Definition rsum (l : list R) : R := fold_right Rplus 0 l.
Definition rdot (a b : list R) : R := rsum (map2 Rmult a b).
Definition rmean (l : list R) : R := rsum l / IZR (Z.of_nat (length l)).
Definition rmatvec (X : list (list R)) (v : list R) : list R := map (fun r => rdot r v) X.
Definition rcol (X : list (list R)) (j : nat) : list R := map (fun r => nth j r 0) X.
Definition rtmat (p : nat) (X : list (list R)) (v : list R) : list R := map (fun j => rdot (rcol X j) v) (seq 0 p).

Lemma rsum_Sum n l : length l = n -> rsum l = Sum n (fun i => entry l i).
Proof. exact (sum_n n l). Qed.
Lemma rdot_Sum n a b : length a = n -> length b = n -> rdot a b = Sum n (fun i => entry a i * entry b i).
Proof. exact (dot_n n a b). Qed.
Lemma rmean_Sum n a : length a = n -> rmean a = Sum n (fun i => entry a i) / INR n.
Proof. exact (mean_n n a). Qed.

(** ** Loss and gradient *)
Section Loss.
  Variables (n p : nat) (X : list (list R)) (y : list R) (l2 : R) (swo : option (list R)).
  Hypothesis HX : matrix n p X.
  Hypothesis Hn : (0 < n)%nat.
  Hypothesis Hy : length y = n.
  Hypothesis Hsw : match swo with Some s => length s = n | None => True end.

  Definition weights : list R := match swo with Some s => s | None => repeat 1 n end.
  Lemma length_weights : length weights = n.
  Proof. unfold weights. destruct swo; [exact Hsw|apply repeat_length]. Qed.

  Definition icpt (coef : list R) : R := if Nat.ltb p (length coef) then last coef 0 else 0.
  Definition plg (coef : list R) : R * list R := poisson_loss_and_grad (N := Rnum) p X y l2 swo coef.
  Definition etas (coef : list R) : list R := map (Rplus (icpt coef)) (rmatvec X (firstn p coef)).

  Lemma plg_R coef : plg coef =
    (- rsum (map2 Rmult weights (map2 Rminus (map2 Rmult y (etas coef)) (map exp (etas coef)))) / IZR (Z.of_nat n)
       + 1 / 2 * l2 * rdot (firstn p coef) (firstn p coef),
     let g := map2 Rplus (map (fun v => - v / IZR (Z.of_nat n))
                (rtmat p X (map2 Rmult weights (map2 Rminus y (map exp (etas coef))))))
                (map (Rmult l2) (firstn p coef)) in
     if Nat.ltb p (length coef)
     then g ++ [- rmean (map2 Rmult weights (map2 Rminus y (map exp (etas coef))))] else g).
  Proof.
    unfold weights. destruct HX as [<- _]. reflexivity.
  Qed.

  Lemma length_etas coef : length (etas coef) = n.
  Proof. unfold etas, rmatvec. rewrite !map_length. apply HX. Qed.
  Lemma entry_etas coef i : length coef = p \/ length coef = S p -> (i < n)%nat ->
    entry (etas coef) i = eta p X (firstn p coef) (icpt coef) i.
  Proof.
    intros Hc Hi. apply (entry_eta n p X HX (icpt coef) (firstn p coef) i); [|exact Hi].
    rr. rewrite firstn_length. lia.
  Qed.
  Lemma entry_res coef i : length coef = p \/ length coef = S p -> (i < n)%nat ->
    entry (map2 Rmult weights (map2 Rminus y (map exp (etas coef)))) i
    = entry weights i * (entry y i - exp (eta p X (firstn p coef) (icpt coef) i)).
  Proof.
    intros Hc Hi. pose proof (length_etas coef) as Le.
    rewrite (entry_map2n Rmult n), (entry_map2n Rminus n), (entry_mapn exp n), entry_etas; auto; try rewrite map_length; auto.
    - exact length_weights.
    - apply length_map2n; [exact Hy|now rewrite map_length].
  Qed.
  Lemma length_res coef : length (map2 Rmult weights (map2 Rminus y (map exp (etas coef)))) = n.
  Proof.
    apply length_map2n; [exact length_weights|]. apply length_map2n; [exact Hy|]. rewrite map_length. apply length_etas.
  Qed.

  Lemma loss_value coef : length coef = p \/ length coef = S p ->
    fst (plg coef) = poisson_loss n p X y weights l2 (firstn p coef) (icpt coef).
  Proof.
    intro Hc. rewrite plg_R. cbn [fst]. unfold poisson_loss.
    assert (Lc : length (firstn p coef) = p) by (rewrite firstn_length; lia).
    pose proof (length_etas coef) as Le.
    rewrite <- INR_IZR_INZ. rewrite (rdot_Sum p) by assumption.
    assert (L1 : length (map2 Rminus (map2 Rmult y (etas coef)) (map exp (etas coef))) = n).
    { apply length_map2n; [apply length_map2n; assumption|now rewrite map_length]. }
    rewrite (rsum_Sum n) by (apply length_map2n; [exact length_weights|exact L1]).
    rewrite (Sum_ext n (fun i => entry (map2 Rmult weights _) i)
       (fun i => (-1) * (entry weights i * (exp (eta p X (firstn p coef) (icpt coef) i) - entry y i * eta p X (firstn p coef) (icpt coef) i)))).
    - rewrite Sum_scal. unfold Rdiv. ring.
    - intros i Hi. rewrite (entry_map2n Rmult n) by (auto using length_weights).
      rewrite (entry_map2n Rminus n); [|apply length_map2n; assumption|now rewrite map_length|exact Hi].
      rewrite (entry_map2n Rmult n), (entry_mapn exp n), entry_etas by auto. ring.
  Qed.

  Lemma length_g coef : length coef = p \/ length coef = S p ->
    length (map2 Rplus (map (fun v => - v / IZR (Z.of_nat n))
                (rtmat p X (map2 Rmult weights (map2 Rminus y (map exp (etas coef))))))
                (map (Rmult l2) (firstn p coef))) = p.
  Proof.
    intro Hc. apply length_map2n; rewrite map_length.
    - unfold rtmat. now rewrite map_length, seq_length.
    - rewrite firstn_length. lia.
  Qed.

  Lemma grad_length coef : length coef = p \/ length coef = S p -> length (snd (plg coef)) = length coef.
  Proof.
    intro Hc. rewrite plg_R. cbn [snd]. destruct (Nat.ltb_spec p (length coef)) as [H|H];
      rewrite ?app_length, length_g by assumption; cbn; lia.
  Qed.

  Lemma entry_firstn coef j : (j < p)%nat -> entry (firstn p coef) j = entry coef j.
  Proof.
    unfold entry. clear. revert j coef. induction p; intros [|j] [|a l] H; cbn; try lia; auto. apply IHn. lia.
  Qed.

  Lemma grad_coef coef j : length coef = p \/ length coef = S p -> (j < p)%nat ->
    entry (snd (plg coef)) j
    = / INR n * Sum n (fun i => entry weights i * (exp (eta p X (firstn p coef) (icpt coef) i) - entry y i) * mat X i j)
      + l2 * entry coef j.
  Proof.
    intros Hc Hj. rewrite plg_R. cbn [snd]. pose proof (length_g coef Hc) as Lg.
    set (g := map2 Rplus _ _) in *.
    assert (Eg : entry (if (p <? length coef)%nat then g ++ [- rmean (map2 Rmult weights (map2 Rminus y (map exp (etas coef))))] else g) j = entry g j).
    { destruct (p <? length coef)%nat; [|reflexivity]. unfold entry. rewrite app_nth1 by lia. reflexivity. }
    cbv zeta. rewrite Eg. unfold g.
    assert (Lt : length (rtmat p X (map2 Rmult weights (map2 Rminus y (map exp (etas coef))))) = p)
      by (unfold rtmat; now rewrite map_length, seq_length).
    assert (Lf : length (firstn p coef) = p) by (rewrite firstn_length; lia).
    rewrite (entry_map2n Rplus p) by (rewrite ?map_length; assumption).
    rewrite (entry_mapn (fun v => - v / IZR (Z.of_nat n)) p), (entry_mapn (Rmult l2) p), entry_firstn by assumption.
    rewrite <- INR_IZR_INZ. f_equal.
    assert (Et : entry (rtmat p X (map2 Rmult weights (map2 Rminus y (map exp (etas coef))))) j
                 = Sum n (fun i => mat X i j * entry (map2 Rmult weights (map2 Rminus y (map exp (etas coef)))) i))
      by exact (entry_tmatvec n p X HX _ j (length_res coef) Hj).
    rewrite Et. rewrite (Sum_ext n _ (fun i => (-1) * (entry weights i * (exp (eta p X (firstn p coef) (icpt coef) i) - entry y i) * mat X i j))).
    - rewrite Sum_scal. unfold Rdiv. ring.
    - intros i Hi. rewrite entry_res by assumption. ring.
  Qed.
  Lemma grad_icpt coef : length coef = S p ->
    entry (snd (plg coef)) p
    = / INR n * Sum n (fun i => entry weights i * (exp (eta p X (firstn p coef) (icpt coef) i) - entry y i)).
  Proof.
    intro Hc. rewrite plg_R. cbn [snd]. pose proof (length_g coef (or_intror Hc)) as Lg.
    set (g := map2 Rplus _ _) in *. cbv zeta. rewrite Hc.
    rewrite (proj2 (Nat.ltb_lt p (S p))) by lia. unfold entry at 1. rewrite app_nth2 by lia. rewrite Lg, Nat.sub_diag.
    cbn [nth]. rewrite (rmean_Sum n) by apply length_res.
    rewrite (Sum_ext n _ (fun i => (-1) * (entry weights i * (exp (eta p X (firstn p coef) (icpt coef) i) - entry y i)))).
    - rewrite Sum_scal. unfold Rdiv. ring.
    - intros i Hi. rewrite entry_res by auto. ring.
  Qed.

  Lemma firstn_upd coef j v : (j < p)%nat -> length coef = p \/ length coef = S p ->
    firstn p (upd coef j v) = upd (firstn p coef) j v.
  Proof.
    intros Hj Hc. unfold upd. clear -Hj Hc. revert j p Hj Hc. induction coef as [|a l IH]; intros [|j] [|q] Hj Hc; cbn in *; try lia.
    - reflexivity.
    - f_equal. apply IH; lia.
  Qed.
  Lemma icpt_upd coef j v : (j < p)%nat -> length coef = p \/ length coef = S p ->
    icpt (upd coef j v) = icpt coef.
  Proof.
    intros Hj Hc. unfold icpt. rewrite length_upd by lia. destruct (Nat.ltb_spec p (length coef)) as [H|H]; [|reflexivity].
    assert (E : forall l : list R, l <> [] -> last l 0 = nth (length l - 1) l 0).
    { clear. intro l. induction l as [|a l IH]; intro H; [now destruct H|]. destruct l as [|b l]; [reflexivity|].
      change (last (a :: b :: l) 0) with (last (b :: l) 0). rewrite IH by discriminate.
      cbn [length]. rewrite !Nat.sub_succ, !Nat.sub_0_r. reflexivity. }
    rewrite !E.
    - change (entry (upd coef j v) (length (upd coef j v) - 1) = entry coef (length coef - 1)).
      rewrite length_upd, entry_upd by lia. destruct (Nat.eqb_spec (length coef - 1) j); [lia|reflexivity].
    - intros ->. cbn in H. lia.
    - intro E0. assert (L : length (upd coef j v) = 0%nat) by now rewrite E0. rewrite length_upd in L; lia.
  Qed.
  Lemma upd_last coef v : length coef = S p -> firstn p (upd coef p v) = firstn p coef /\ icpt (upd coef p v) = v.
  Proof.
    intro Hc. unfold icpt. rewrite length_upd by lia. rewrite Hc, (proj2 (Nat.ltb_lt p (S p))) by lia.
    unfold upd. rewrite skipn_all2 by lia. split.
    - rewrite firstn_app, firstn_length, Hc, Nat.min_l by lia. rewrite Nat.sub_diag, firstn_O, app_nil_r.
      rewrite firstn_firstn, Nat.min_id. reflexivity.
    - apply last_last.
  Qed.

  Lemma poisson_gradient coef j : length coef = p \/ length coef = S p -> (j < length coef)%nat ->
    derivable_pt_lim (fun t => fst (plg (upd coef j t))) (entry coef j) (entry (snd (plg coef)) j).
  Proof.
    intros Hc Hj. destruct (Nat.lt_ge_cases j p) as [Hjp|Hjp].
    - rewrite grad_coef by assumption.
      apply (der_ext (fun t => poisson_loss n p X y weights l2 (upd (firstn p coef) j t) (icpt coef))).
      { intro t. rewrite loss_value by (rewrite length_upd; assumption). rewrite firstn_upd, icpt_upd by assumption. reflexivity. }
      assert (Lf : length (firstn p coef) = p) by (rewrite firstn_length; lia).
      set (c := firstn p coef) in *. set (b := icpt coef).
      assert (Ej : entry coef j = entry c j) by (symmetry; now apply entry_firstn). rewrite Ej.
      unfold poisson_loss.
      assert (De : forall i, derivable_pt_lim (fun t => eta p X (upd c j t) b i) (entry c j) (mat X i j)).
      { intro i. unfold eta. apply (der_val _ _ (0 + mat X i j)); [lra|]. apply der_plus; [apply der_const|].
        apply (der_ext (fun t => Sum p (fun k => mat X i k * (if Nat.eqb k j then t else entry c k)))).
        - intro t. apply Sum_ext. intros k Hk. now rewrite entry_upd by lia.
        - now apply der_at. }
      apply der_plus.
      + apply der_scal. apply der_Sum. intros i Hi.
        apply (der_val _ _ (entry weights i * (exp (eta p X (upd c j (entry c j)) b i) * mat X i j - entry y i * mat X i j))).
        { rewrite upd_same by lia. ring. }
        apply der_scal. apply der_minus; [|apply der_scal, De].
        apply (der_exp (fun t => eta p X (upd c j t) b i)). apply De.
      + apply (der_val _ _ (l2 / 2 * (2 * entry c j))); [lra|]. apply der_scal.
        apply (der_ext (fun t => Sum p (fun k => (if Nat.eqb k j then t else entry c k) * (if Nat.eqb k j then t else entry c k)))).
        * intro t. apply Sum_ext. intros k Hk. now rewrite entry_upd by lia.
        * now apply der_square.
    - assert (Hc' : length coef = S p) by lia. assert (j = p) by lia. subst j.
      rewrite grad_icpt by assumption.
      apply (der_ext (fun t => poisson_loss n p X y weights l2 (firstn p coef) t)).
      { intro t. rewrite loss_value by (rewrite length_upd; assumption). destruct (upd_last coef t Hc') as [-> ->]. reflexivity. }
      assert (Eb : entry coef p = icpt coef).
      { rewrite <- (upd_same coef p) at 2 by lia. symmetry. apply (upd_last coef (entry coef p) Hc'). }
      rewrite Eb. set (b := icpt coef). unfold poisson_loss.
      apply (der_val _ _ (/ INR n * Sum n (fun i => entry weights i * (exp (eta p X (firstn p coef) b i) - entry y i)) + 0)); [lra|].
      apply der_plus; [|apply der_const]. apply der_scal. apply der_Sum. intros i Hi.
      assert (De : derivable_pt_lim (fun t => eta p X (firstn p coef) t i) b 1).
      { unfold eta. apply (der_val _ _ (1 + 0)); [lra|]. apply der_plus; [apply der_id|apply der_const]. }
      apply der_scal. apply der_minus.
      + apply (der_val _ _ (exp (eta p X (firstn p coef) b i) * 1)); [lra|].
        apply (der_exp (fun t => eta p X (firstn p coef) t i)). exact De.
      + apply (der_val _ _ (entry y i * 1)); [lra|]. now apply der_scal.
  Qed.
End Loss.
