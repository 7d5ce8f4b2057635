(** Proofs about the grids of the linear regressors (C101). *)
From Coq Require Import ZArith List Bool Arith Lia Reals Lra Psatz.
From Verif Require Import Prelude Num Model_Rescale Model_Refit Spec_Rescale Proofs_Rescale
  Model_Poisson Spec_Poisson Proofs_Poisson Proofs_PoissonOpt Model_Linear Spec_Linear.
Import ListNotations.
Local Open Scope R_scope.

Lemma length_col n X j : length (col n X j) = n.
Proof. unfold col. now rewrite map_length, seq_length. Qed.
Lemma entry_mapseq (f : nat -> R) n i : (i < n)%nat -> entry (map f (seq 0 n)) i = f i.
Proof.
  intro Hi. unfold entry. rewrite (nth_indep _ 0 (f 0%nat)) by (rewrite map_length, seq_length; lia).
  now rewrite map_nth, seq_nth.
Qed.
Lemma entry_colmat n X j i : (i < n)%nat -> entry (col n X j) i = mat X i j.
Proof. intro Hi. unfold col. now apply (entry_mapseq (fun i => mat X i j)). Qed.
Lemma list_eq_entries (u v : list R) n : length u = n -> length v = n ->
  (forall i, (i < n)%nat -> entry u i = entry v i) -> u = v.
Proof. intros H1 H2 H. apply (nth_ext _ _ 0 0); [congruence|]. intros i Hi. apply H. lia. Qed.
Lemma column_col n p X j : matrix n p X -> column (N := Rnum) X j = col n X j.
Proof.
  intros [L _]. apply (list_eq_entries _ _ n); [unfold column; now rewrite map_length|apply length_col|].
  intros i Hi. rewrite entry_colmat by assumption. exact (entry_col X j i).
Qed.
Lemma columns_col n p X : matrix n p X -> columns (N := Rnum) p X = map (col n X) (seq 0 p).
Proof. intro H. unfold columns. apply map_ext. intro j. exact (column_col n p X j H). Qed.
Lemma row_length n p X i : matrix n p X -> (i < n)%nat -> length (nth i X []) = p.
Proof. intros [L F] Hi. rewrite Forall_forall in F. apply F, nth_In. lia. Qed.

(** ** The largest penalty *)
Section Max.
  Variables (has : bool) (n p : nat) (X : list (list R)) (y : list R).
  Hypothesis HX : matrix n p X.
  Hypothesis Hn : (0 < n)%nat.
  Hypothesis Hy : length y = n.

  Lemma HN : 0 < INR n. Proof. apply lt_0_INR; lia. Qed.

  Lemma centered_matrix : matrix n p (centered_rows (N := Rnum) p X).
  Proof.
    destruct HX as [L F]. split; [unfold centered_rows; now rewrite map_length|].
    unfold centered_rows. rewrite Forall_map, Forall_forall in *. intros r Hr. specialize (F r Hr).
    rewrite map2_length, map_length. unfold columns. rewrite map_length, seq_length. rr. rewrite F. apply Nat.min_id.
  Qed.
  Lemma centered_entry i j : (i < n)%nat -> (j < p)%nat ->
    mat (centered_rows (N := Rnum) p X) i j = mat X i j - average n (col n X j).
  Proof.
    intros Hi Hj. pose proof (row_length n p X i HX Hi) as Lr. destruct HX as [L _].
    unfold mat at 1, centered_rows.
    set (f := fun r => map2 (nsub (n := Rnum)) r (map (nmean (N := Rnum)) (columns p X))).
    rewrite (nth_indep _ [] (f [])) by (rewrite map_length; rr; lia). rewrite (map_nth f). unfold f.
    assert (Lm : length (map (nmean (N := Rnum)) (columns p X)) = p) by (rewrite map_length; unfold columns; now rewrite map_length, seq_length).
    refine (eq_trans (entry_map2n Rminus p _ _ j Lr Lm Hj) _). unfold mat. f_equal.
    rewrite (columns_col n p X HX), map_map.
    refine (eq_trans (entry_mapseq (fun j => nmean (N := Rnum) (col n X j)) p j Hj) _).
    exact (mean_n n _ (length_col n X j)).
  Qed.
  Lemma centered_length : length (centered (N := Rnum) y) = n.
  Proof. unfold centered. now rewrite map_length. Qed.
  Lemma centered_value i : (i < n)%nat -> entry (centered (N := Rnum) y) i = entry y i - average n y.
  Proof.
    intro Hi. unfold centered. refine (eq_trans (entry_map_sub n y _ i Hy Hi) _). f_equal. exact (mean_n n y Hy).
  Qed.

  Definition used_X := if has then centered_rows (N := Rnum) p X else X.
  Definition used_y := if has then centered (N := Rnum) y else y.
  Lemma used_matrix : matrix n p used_X.
  Proof. unfold used_X. destruct has; [apply centered_matrix|exact HX]. Qed.
  Lemma used_length : length used_y = n.
  Proof. unfold used_y. destruct has; [apply centered_length|exact Hy]. Qed.
  Lemma used_moment j : (j < p)%nat -> Sum n (fun i => mat used_X i j * entry used_y i) = comoment has n X y j.
  Proof.
    intro Hj. unfold comoment. apply Sum_ext. intros i Hi. unfold used_X, used_y. destruct has.
    - now rewrite centered_entry, centered_value.
    - now rewrite !Rminus_0_r.
  Qed.

  Lemma alpha_max_value (mix : R) : (0 < p)%nat -> exists m,
    largest p (comoment has n X y) m /\ alpha_max (N := Rnum) has p X y mix = m / (INR n * mix).
  Proof.
    intro Hp. pose proof used_matrix as UM. pose proof used_length as UL. pose proof used_moment as UE.
    set (t := tmatvec (N := Rnum) p used_X used_y).
    set (l := map (fun v : R => sqrt (v * v)) t).
    assert (Lt : length t = p) by apply length_tmatvec.
    assert (Ll : length l = p) by (unfold l; rewrite map_length; exact Lt).
    assert (El : forall j, (j < p)%nat -> entry l j = Rabs (comoment has n X y j)).
    { intros j Hj. unfold l. rewrite (entry_mapn (fun v => sqrt (v * v)) p t j Lt Hj).
      change (sqrt (entry t j * entry t j)) with (sqrt (Rsqr (entry t j))). rewrite sqrt_Rsqr_abs. f_equal.
      unfold t. refine (eq_trans (entry_tmatvec n p used_X UM used_y j UL Hj) _). now apply UE. }
    assert (Hl : l <> []) by (intro E; rewrite E in Ll; cbn in Ll; lia).
    destruct (nmaxl_R l Hl) as [M1 M2]. exists (nmaxl (N := Rnum) l). split; [split|].
    - intros j Hj. rewrite <- El by assumption. apply M1. apply nth_In. lia.
    - destruct (In_nth l _ 0 M2) as (j & Hj & Ej). exists j. split; [lia|]. rewrite <- El by lia. exact Ej.
    - unfold alpha_max. fold used_X used_y. fold t. unfold nofnat. rn. rr. rewrite Hy, <- INR_IZR_INZ. reflexivity.
  Qed.

  (** ** The null model *)
  Definition b0 := if has then average n y else 0.
  Definition res i := entry y i - b0.
  Lemma res_total : has = true -> Sum n res = 0.
  Proof.
    intro E. unfold res, b0. rewrite E, Sum_minus, Sum_const. unfold average. pose proof HN.
    change (fun i => entry y i) with (entry y). field. lra.
  Qed.
  Lemma raw_moment j : Sum n (fun i => mat X i j * res i) = comoment has n X y j.
  Proof.
    unfold comoment. rewrite (Sum_ext n (fun i => (mat X i j - _) * _)
      (fun i => mat X i j * res i - (if has then average n (col n X j) else 0) * res i)).
    - rewrite Sum_minus, Sum_scal. change (fun i => res i) with res. destruct has eqn:E; [|lra].
      rewrite (res_total E). lra.
    - intros i _. unfold res, b0. destruct has; ring.
  Qed.
  Lemma null_net lam mix : net n p X y lam mix (repeat 0 p) b0 = / (2 * INR n) * Sum n (fun i => res i * res i).
  Proof.
    unfold net, penalty. rewrite (Sum_zero p (fun j => Rabs _)) by (intros; rewrite entry_zeros; apply Rabs_R0).
    rewrite (Sum_zero p (fun j => entry _ j * _)) by (intros; rewrite entry_zeros; ring).
    replace (lam * _) with 0 by ring. rewrite Rplus_0_r. f_equal. apply Sum_ext. intros i _.
    unfold eta. rewrite (Sum_zero p) by (intros; rewrite entry_zeros; ring). unfold res. now rewrite Rplus_0_r.
  Qed.
  (** The gain of another model is at most the first order one. *)
  Lemma net_below lam mix m c b : largest p (comoment has n X y) m -> 0 <= lam -> 0 <= mix <= 1 ->
    (has = false -> b = 0) ->
    net n p X y lam mix (repeat 0 p) b0 + (lam * mix - m / INR n) * Sum p (fun j => Rabs (entry c j))
    <= net n p X y lam mix c b.
  Proof.
    intros [M1 _] Hl Hm Hb. rewrite null_net. pose proof HN as HN'. unfold net, penalty.
    set (L1 := Sum p (fun j => Rabs (entry c j))).
    assert (H2 : 0 <= Sum p (fun j => entry c j * entry c j)) by (apply Sum_nonneg; intros; nra).
    set (d := fun i => b - b0 + Sum p (fun j => mat X i j * entry c j)).
    assert (A : Sum n (fun i => res i * res i - 2 * (res i * d i))
                <= Sum n (fun i => (entry y i - eta p X c b i) * (entry y i - eta p X c b i))).
    { apply Sum_le. intros i _. replace (entry y i - eta p X c b i) with (res i - d i) by (unfold res, d, eta; ring). nra. }
    rewrite Sum_minus, Sum_scal in A.
    assert (B : Sum n (fun i => res i * d i) = Sum p (fun j => entry c j * comoment has n X y j)).
    { rewrite (Sum_ext n _ (fun i => res i * (b - b0) + Sum p (fun j => mat X i j * res i * entry c j))).
      - rewrite Sum_plus, Sum_scal_r. change (fun i => res i) with res.
        replace (Sum n res * (b - b0)) with 0.
        + rewrite Rplus_0_l, Sum_swap. apply Sum_ext. intros j _. rewrite Sum_scal_r, raw_moment. ring.
        + unfold b0. destruct has eqn:E; [rewrite (res_total E); ring|rewrite (Hb eq_refl); ring].
      - intros i _. unfold d. rewrite Rmult_plus_distr_l, <- Sum_scal. f_equal. apply Sum_ext. intros; ring. }
    assert (C : Sum p (fun j => entry c j * comoment has n X y j) <= m * L1).
    { unfold L1. rewrite <- Sum_scal. apply Sum_le. intros j Hj. apply Rle_trans with (Rabs (entry c j * comoment has n X y j)); [apply Rle_abs|].
      rewrite Rabs_mult, Rmult_comm. apply Rmult_le_compat_r; [apply Rabs_pos|auto]. }
    rewrite B in A.
    assert (I0 : 0 < / (2 * INR n)) by (apply Rinv_0_lt_compat; lra).
    assert (D : / (2 * INR n) * (Sum n (fun i => res i * res i) - 2 * (m * L1))
                <= / (2 * INR n) * Sum n (fun i => (entry y i - eta p X c b i) * (entry y i - eta p X c b i))).
    { apply Rmult_le_compat_l; lra. }
    replace (/ (2 * INR n) * (Sum n (fun i => res i * res i) - 2 * (m * L1)))
      with (/ (2 * INR n) * Sum n (fun i => res i * res i) - m / INR n * L1) in D by (field; lra).
    assert (0 <= lam * ((1 - mix) / 2 * Sum p (fun j => entry c j * entry c j))).
    { apply Rmult_le_pos; [assumption|]. apply Rmult_le_pos; lra. }
    lra.
  Qed.

  Lemma net_single lam mix j t : (j < p)%nat ->
    let b := if has then average n y - t * average n (col n X j) else 0 in
    let V := Sum n (fun i => (mat X i j - if has then average n (col n X j) else 0) * (mat X i j - if has then average n (col n X j) else 0)) in
    net n p X y lam mix (upd (repeat 0 p) j t) b
    = net n p X y lam mix (repeat 0 p) b0 - t * (comoment has n X y j / INR n) + lam * mix * Rabs t
      + t * t * (V / (2 * INR n) + lam * (1 - mix) / 2).
  Proof.
    intros Hj b V. rewrite null_net. pose proof HN as HN'. unfold net, penalty.
    assert (EU : forall k, entry (upd (repeat 0 p) j t) k = if Nat.eqb k j then t else 0).
    { intro k. rewrite entry_upd by (rewrite repeat_length; lia). destruct (Nat.eqb k j); [reflexivity|apply entry_zeros]. }
    assert (S1 : Sum p (fun k => Rabs (entry (upd (repeat 0 p) j t) k)) = Rabs t).
    { rewrite (Sum_ext p _ (fun k => if Nat.eqb k j then Rabs t else 0)).
      - rewrite Sum_at by assumption. rewrite (Sum_zero p (fun k => 0)) by reflexivity. lra.
      - intros k _. rewrite EU. destruct (Nat.eqb k j); [reflexivity|apply Rabs_R0]. }
    assert (S2 : Sum p (fun k => entry (upd (repeat 0 p) j t) k * entry (upd (repeat 0 p) j t) k) = t * t).
    { rewrite (Sum_ext p _ (fun k => if Nat.eqb k j then t * t else 0)).
      - rewrite Sum_at by assumption. rewrite (Sum_zero p (fun k => 0)) by reflexivity. lra.
      - intros k _. rewrite EU. destruct (Nat.eqb k j); ring. }
    rewrite S1, S2.
    set (x := fun i => mat X i j - if has then average n (col n X j) else 0) in *.
    rewrite (Sum_ext n (fun i => (entry y i - eta p X _ b i) * _) (fun i => res i * res i - 2 * t * (x i * res i) + t * t * (x i * x i))).
    - rewrite Sum_plus, Sum_minus, !Sum_scal. change (Sum n (fun i => x i * x i)) with V.
      change (Sum n (fun i => x i * res i)) with (comoment has n X y j). field. lra.
    - intros i _. unfold eta. rewrite (Sum_ext p _ (fun k => if Nat.eqb k j then mat X i j * t else 0)).
      + rewrite Sum_at by assumption. rewrite (Sum_zero p (fun k => 0)) by reflexivity. unfold b, res, b0, x. destruct has; ring.
      + intros k _. rewrite EU. destruct (Nat.eqb_spec k j); [subst|]; ring.
  Qed.

  Lemma null_iff (mix lam : R) : (0 < p)%nat -> 0 < mix <= 1 -> 0 <= lam ->
    (net_minimizer has n p X y lam mix (repeat 0 p) b0 <-> alpha_max (N := Rnum) has p X y mix <= lam).
  Proof.
    intros Hp Hm Hl. destruct (alpha_max_value mix Hp) as (m & M & E). rewrite E. pose proof HN as HN'.
    assert (EM : m / (INR n * mix) <= lam <-> m / INR n <= lam * mix).
    { assert (Hq : m / (INR n * mix) * mix = m / INR n) by (field; lra). split; intro H.
      - rewrite <- Hq. apply Rmult_le_compat_r; lra.
      - apply (Rmult_le_reg_r mix); lra. }
    rewrite EM. split.
    - intros (_ & _ & O). destruct (Rle_lt_dec (m / INR n) (lam * mix)) as [|G]; [assumption|exfalso].
      destruct M as [_ (j & Hj & Ej)].
      set (V := Sum n (fun i => (mat X i j - if has then average n (col n X j) else 0) * (mat X i j - if has then average n (col n X j) else 0))).
      set (K := V / (2 * INR n) + lam * (1 - mix) / 2).
      assert (HV : 0 <= V) by (apply Sum_nonneg; intros i _; apply Rle_0_sqr).
      assert (HK : 0 <= K).
      { unfold K. apply Rplus_le_le_0_compat; [apply Rmult_le_pos; [assumption|left; apply Rinv_0_lt_compat; lra]|].
        apply Rmult_le_pos; [|lra]. apply Rmult_le_pos; lra. }
      set (k := m / INR n - lam * mix). assert (Hk : 0 < k) by (unfold k; lra).
      set (u := k / (K + 1)). assert (Hu : 0 < u) by (apply Rmult_lt_0_compat; [assumption|apply Rinv_0_lt_compat; lra]).
      assert (HuK : u * (K + 1) = k) by (unfold u; field; lra).
      set (t := (if Rle_dec 0 (comoment has n X y j) then 1 else -1) * u).
      assert (T1 : Rabs t = u) by (unfold t; destruct (Rle_dec _ _); [rewrite Rmult_1_l, Rabs_right|rewrite Rabs_left]; lra).
      assert (T2 : t * t = u * u) by (unfold t; destruct (Rle_dec _ _); ring).
      assert (T3 : t * (comoment has n X y j / INR n) = u * (m / INR n)).
      { rewrite <- Ej. unfold t. destruct (Rle_dec 0 _); [rewrite Rabs_right by lra|rewrite Rabs_left by lra]; field; lra. }
      specialize (O (upd (repeat 0 p) j t) (if has then average n y - t * average n (col n X j) else 0)).
      rewrite length_upd in O by (rewrite repeat_length; lia). rewrite repeat_length in O. specialize (O eq_refl).
      assert (Hb : has = false -> (if has then average n y - t * average n (col n X j) else 0) = 0) by (intros ->; reflexivity).
      specialize (O Hb). rewrite (net_single lam mix j t Hj) in O. fold V in O. fold K in O. rewrite T1, T2, T3 in O.
      assert (Q : u * u * (K + 1) = u * k) by (rewrite <- HuK; ring). unfold k in Q.
      assert (0 < u * u) by (apply Rmult_lt_0_compat; assumption).
      set (q := m / INR n) in *. lra.
    - intro G. split; [apply repeat_length|]. split; [unfold b0; now intros ->|]. intros c b _ Hb.
      pose proof (net_below lam mix m c b M Hl ltac:(lra) Hb) as B.
      assert (0 <= (lam * mix - m / INR n) * Sum p (fun j => Rabs (entry c j))).
      { apply Rmult_le_pos; [lra|]. apply Sum_nonneg. intros. apply Rabs_pos. }
      lra.
  Qed.

  Lemma null_unique (mix lam : R) c b : (0 < p)%nat -> 0 < mix <= 1 ->
    alpha_max (N := Rnum) has p X y mix < lam -> net_minimizer has n p X y lam mix c b -> c = repeat 0 p.
  Proof.
    intros Hp Hm Hl (Lc & Hb & O). destruct (alpha_max_value mix Hp) as (m & M & E). rewrite E in Hl. pose proof HN as HN'.
    assert (Hm0 : 0 <= m) by (destruct M as [_ (j & _ & <-)]; apply Rabs_pos).
    assert (Hq : m / (INR n * mix) * mix = m / INR n) by (field; lra).
    assert (H0 : 0 <= m / (INR n * mix)).
    { apply Rmult_le_pos; [assumption|]. left. apply Rinv_0_lt_compat, Rmult_lt_0_compat; lra. }
    assert (G : m / INR n < lam * mix) by (rewrite <- Hq; apply Rmult_lt_compat_r; lra).
    pose proof (net_below lam mix m c b M ltac:(lra) ltac:(lra) Hb) as B.
    specialize (O (repeat 0 p) b0 (repeat_length _ _) ltac:(unfold b0; now intros ->)).
    apply (list_eq_entries _ _ p); [assumption|apply repeat_length|]. intros j Hj. rewrite entry_zeros.
    destruct (Req_dec (entry c j) 0) as [|Ne]; [assumption|exfalso].
    assert (P : 0 < Sum p (fun k => Rabs (entry c k))).
    { pose proof (Sum_at p j (fun k => Rabs (entry c k)) 0 Hj) as SA.
      assert (0 <= Sum p (fun k => if Nat.eqb k j then 0 else Rabs (entry c k))).
      { apply Sum_nonneg. intros k _. destruct (Nat.eqb k j); [lra|apply Rabs_pos]. }
      pose proof (Rabs_pos_lt _ Ne). rewrite SA in H. lra. }
    assert (0 < (lam * mix - m / INR n) * Sum p (fun k => Rabs (entry c k))) by (apply Rmult_lt_0_compat; lra).
    lra.
  Qed.
End Max.

(** ** The grid *)
Lemma resolution_R : resolution (N := Rnum) = / 10 ^ 15.
Proof. change (1 / IZR 1000000000000000 = / 10 ^ 15). lra. Qed.
Lemma neqb_zero (m : R) : neqb (n := Rnum) m (nzero (N := Rnum)) = if Req_EM_T m 0 then true else false.
Proof. reflexivity. Qed.

Lemma entry_rev (l : list R) i : (i < length l)%nat -> entry (rev l) i = entry l (length l - S i).
Proof. intro H. unfold entry. now apply rev_nth. Qed.

Lemma alpha_grid_zero has p X (y : list R) (eps : R) num : alpha_grid (N := Rnum) has p X y 0 eps num = Raise ValueError.
Proof. unfold alpha_grid. rewrite neqb_zero. destruct (Req_EM_T 0 0); [reflexivity|congruence]. Qed.

Lemma alpha_grid_flat has p X (y : list R) (mix eps : R) num : mix <> 0 ->
  alpha_max (N := Rnum) has p X y mix <= / 10 ^ 15 ->
  alpha_grid (N := Rnum) has p X y mix eps num = Ok (repeat (/ 10 ^ 15) num).
Proof.
  intros H1 H2. unfold alpha_grid. rewrite neqb_zero. destruct (Req_EM_T mix 0); [congruence|].
  rewrite resolution_R. rn. unfold Rleb. destruct (Rle_dec _ _); [reflexivity|contradiction].
Qed.

Lemma reversed_value (m eps : R) num : 0 < m -> 0 < eps ->
  let g := rev (logspace (N := Rnum) (log10 (N := Rnum) (m * eps)) (log10 (N := Rnum) m) num) in
  @length R g = num /\ (num = 1%nat -> g = [m * eps]) /\
  ((1 < num)%nat -> forall i, (i < num)%nat -> entry g i = m * Rpower eps (INR i / INR (num - 1))).
Proof.
  intros Hm He. cbv zeta.
  assert (Hl : 0 < m * eps) by now apply Rmult_lt_0_compat.
  assert (Hi : 0 < / eps) by now apply Rinv_0_lt_compat.
  set (g := logspace (N := Rnum) (log10 (N := Rnum) (m * eps)) (log10 (N := Rnum) m) num).
  assert (Lg : @length R g = num) by (unfold g, logspace, linspace; now rewrite !map_length, seq_length).
  assert (Eg : forall i, (i < num)%nat -> entry g i = m * eps * Rpower (/ eps) (INR i / INR (num - 1))).
  { intros i Hn. rewrite <- (logspace_value (m * eps) (/ eps) num i Hl Hi Hn). unfold g.
    replace (/ eps * (m * eps)) with m by (field; lra). reflexivity. }
  split; [rewrite rev_length; exact Lg|]. split.
  - intros ->. apply (list_eq_entries _ _ 1); [rewrite rev_length; exact Lg|reflexivity|].
    intros i Hi'. assert (i = 0%nat) by lia. subst i. rewrite entry_rev by (rr; rewrite Lg; lia). rr. rewrite Lg, Eg by lia.
    cbn [Nat.sub]. change (INR 0) with 0. replace (0 / 0) with 0 by (unfold Rdiv; ring). rewrite Rpower_O by assumption.
    change (entry [m * eps] 0) with (m * eps). apply Rmult_1_r.
  - intros Hn i Hi'. rewrite entry_rev by (rr; rewrite Lg; lia). rr. rewrite Lg, Eg by lia.
    assert (HM : INR (num - 1) <> 0) by (apply not_0_INR; lia).
    replace (num - S i)%nat with (num - 1 - i)%nat by lia. rewrite minus_INR by lia.
    replace ((INR (num - 1) - INR i) / INR (num - 1)) with (1 + - (INR i / INR (num - 1))) by (field; assumption).
    rewrite Rpower_plus, Rpower_1 by assumption. rewrite Rpower_Ropp.
    replace (Rpower (/ eps) (INR i / INR (num - 1))) with (/ Rpower eps (INR i / INR (num - 1))).
    + rewrite Rinv_inv. field. lra.
    + rewrite <- Rpower_Ropp. unfold Rpower. f_equal. rewrite ln_Rinv by assumption. ring.
Qed.

Lemma alpha_grid_value has p X (y : list R) (mix eps : R) num : mix <> 0 -> 0 < eps ->
  / 10 ^ 15 < alpha_max (N := Rnum) has p X y mix ->
  exists g : list R, alpha_grid (N := Rnum) has p X y mix eps num = Ok g /\ length g = num /\
  (num = 1%nat -> g = [alpha_max (N := Rnum) has p X y mix * eps]) /\
  ((1 < num)%nat -> forall i, (i < num)%nat ->
    entry g i = alpha_max (N := Rnum) has p X y mix * Rpower eps (INR i / INR (num - 1))).
Proof.
  intros H1 He H2.
  assert (Hm : 0 < alpha_max (N := Rnum) has p X y mix).
  { apply Rlt_trans with (/ 10 ^ 15); [|assumption]. apply Rinv_0_lt_compat, pow_lt. lra. }
  eexists. split; [|exact (reversed_value _ eps num Hm He)].
  unfold alpha_grid. rewrite neqb_zero. destruct (Req_EM_T mix 0); [congruence|].
  rewrite resolution_R. rn. unfold Rleb. destruct (Rle_dec _ _) as [G|_]; [exfalso|reflexivity].
  exact (Rlt_irrefl _ (Rlt_le_trans _ _ _ H2 G)).
Qed.

Lemma mapM_Ok {A B} (f : A -> result B) g l : (forall a, In a l -> f a = Ok (g a)) -> mapM f l = Ok (map g l).
Proof.
  induction l as [|a l IH]; intro H; [reflexivity|]. cbn [mapM map]. rewrite (H a (or_introl eq_refl)). cbn [bind].
  now rewrite IH by (intros; apply H; now right).
Qed.

(** The penalties of UoI_ElasticNet, mixing weight by mixing weight. *)
Lemma elastic_value has p X (y : list R) (eps : R) num (alphas : list R) : 0 < eps -> (1 < num)%nat ->
  (forall a, In a alphas -> a <> 0) ->
  (forall a, In a alphas -> / 10 ^ 15 < alpha_max (N := Rnum) has p X y a) ->
  exists g : list (reg_param R R), elastic_reg_params (N := Rnum) has p X y eps num alphas = Ok g /\
  length g = (length alphas * num)%nat /\
  forall k i, (k < length alphas)%nat -> (i < num)%nat ->
    nth_error g (k * num + i)
    = Some (RegPair (alpha_max (N := Rnum) has p X y (entry alphas k) * Rpower eps (INR i / INR (num - 1))) (entry alphas k)).
Proof.
  intros He Hn H0 Hm.
  set (g := fun a : R => match alpha_grid (N := Rnum) has p X y a eps num with Ok l => l | Raise _ => [] end).
  assert (Hg : forall a, In a alphas -> alpha_grid (N := Rnum) has p X y a eps num = Ok (g a) /\ length (g a) = num /\
    forall i, (i < num)%nat -> nth i (g a) 0 = alpha_max (N := Rnum) has p X y a * Rpower eps (INR i / INR (num - 1))).
  { intros a Ha. destruct (alpha_grid_value has p X y a eps num (H0 a Ha) He (Hm a Ha)) as (l & E & L & _ & V).
    unfold g. rewrite E. split; [reflexivity|]. split; [exact L|]. intros i Hi. exact (V Hn i Hi). }
  unfold elastic_reg_params. rewrite (mapM_Ok _ g) by (intros a Ha; apply (Hg a Ha)). cbn [rmap].
  exists (pairs alphas (map g alphas)). split; [reflexivity|]. split; [apply pairs_length; intros a Ha; apply (Hg a Ha)|].
  intros k i Hk Hi. refine (eq_trans (pairs_nth g num alphas k i 0 0 (fun a Ha => proj1 (proj2 (Hg a Ha))) Hk Hi) _).
  assert (Ha : In (nth k alphas 0) alphas) by now apply nth_In.
  do 2 f_equal. exact (proj2 (proj2 (Hg _ Ha)) i Hi).
Qed.
Lemma elastic_zero has p X (y : list R) (eps : R) num (alphas : list R) : In 0 alphas ->
  elastic_reg_params (N := Rnum) has p X y eps num alphas = Raise ValueError.
Proof.
  intro H. unfold elastic_reg_params.
  assert (E : mapM (fun a => alpha_grid (N := Rnum) has p X y a eps num) alphas = Raise ValueError); [|now rewrite E].
  induction alphas as [|a l IH]; [destruct H|]. cbn [mapM]. destruct (Req_dec a 0) as [->|Ne].
  - now rewrite alpha_grid_zero.
  - destruct H as [->|H]; [congruence|].
    destruct (alpha_grid (N := Rnum) has p X y a eps num) as [g|e] eqn:G; cbn [bind].
    + now rewrite (IH H).
    + unfold alpha_grid in G. rewrite neqb_zero in G. destruct (Req_EM_T a 0); [congruence|].
      destruct (nleb _ _); discriminate.
Qed.
