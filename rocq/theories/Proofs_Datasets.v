(** Proofs about the synthetic data sets (C69, C95). *)
From Coq Require Import ZArith List Bool Arith Reals Lia Lra Sorting.Permutation.
From Verif Require Import Prelude Num Spec_Rescale Spec_Poisson Model_Datasets Spec_Datasets
  Proofs_Rescale Proofs_Multinomial Proofs_Poisson Proofs_Nmf.
Import ListNotations.

(** ** Counting *)
Lemma filter_positions {A} (f : A -> bool) (l : list A) d :
  length (filter (fun j => f (nth j l d)) (seq 0 (length l))) = length (filter f l).
Proof.
  assert (G : forall (l : list A) s pre, length pre = s ->
    length (filter (fun j => f (nth j (pre ++ l) d)) (seq s (length l))) = length (filter f l)).
  { induction l0 as [|x l0 IH]; intros s pre Hp; [reflexivity|]. cbn [length seq filter].
    replace (nth s (pre ++ x :: l0) d) with x
      by (rewrite app_nth2 by lia; now replace (s - length pre) with 0 by lia).
    specialize (IH (S s) (pre ++ [x])). rewrite <- app_assoc in IH. cbn [app] in IH.
    rewrite app_length in IH. cbn [length] in IH.
    destruct (f x); cbn [length]; rewrite IH; lia. }
  exact (G l 0 [] eq_refl).
Qed.

Lemma filter_perm_length {A} (f : A -> bool) (l l' : list A) : Permutation l l' ->
  length (filter f l) = length (filter f l').
Proof.
  induction 1 as [|x l l' _ IH|x y l|l1 l2 l3 _ IH1 _ IH2]; cbn [filter].
  - reflexivity.
  - destruct (f x); cbn; now rewrite IH.
  - destruct (f x), (f y); reflexivity.
  - now rewrite IH1.
Qed.

Lemma below_seq s p : length (filter (fun i => i <? s) (seq 0 p)) = Nat.min s p.
Proof.
  induction p as [|p IH]; [now rewrite Nat.min_0_r|].
  rewrite seq_S, filter_app, app_length, IH. cbn [plus filter].
  destruct (Nat.ltb_spec p s); cbn [length]; lia.
Qed.

Lemma stop_le p k : slice_stop p k <= p.
Proof. unfold slice_stop. destruct (Z.ltb_spec k 0); lia. Qed.
Lemma stop_informative p k : slice_stop p k = informative p k.
Proof. unfold slice_stop, informative. destruct (Z.ltb_spec k 0); lia. Qed.

(** ** The mask *)
Section Mask.
  Context {N : NumOps}.
  Lemma mask_nth p k i : nth i (prefix_mask (N := N) p k) nzero
    = if i <? slice_stop p k then none else nzero.
  Proof.
    unfold prefix_mask. destruct (Nat.ltb_spec i (slice_stop p k)) as [L|L].
    - rewrite app_nth1 by (now rewrite repeat_length). rewrite nth_indep with (d' := none) by now rewrite repeat_length.
      apply nth_repeat.
    - rewrite app_nth2 by (rewrite repeat_length; lia). rewrite repeat_length.
      apply nth_repeat.
  Qed.
  Lemma shuffled_nth perm (l : list N) j : j < length perm ->
    nth j (shuffled perm l) nzero = nth (nth j perm 0) l nzero.
  Proof. intro H. unfold shuffled. now rewrite (nth_mapd _ perm j 0 nzero). Qed.
End Mask.

(** Positions of the informative features after the shuffle. *)
Definition chosen (p : nat) (k : Z) (perm : list nat) : list nat :=
  filter (fun j => nth j perm 0 <? slice_stop p k) (seq 0 p).

Lemma chosen_features p k perm : Permutation perm (seq 0 p) -> features p (informative p k) (chosen p k perm).
Proof.
  intro P. pose proof (Permutation_length P) as L. rewrite seq_length in L.
  split; [apply NoDup_filter, seq_NoDup|]. split.
  - unfold chosen. replace (seq 0 p) with (seq 0 (length perm)) by now rewrite L.
    rewrite (filter_positions (fun i => i <? slice_stop p k) perm 0).
    rewrite (filter_perm_length _ _ _ P), below_seq, <- stop_informative.
    pose proof (stop_le p k). lia.
  - intros j H. apply filter_In in H. destruct H as [H _]. apply in_seq in H. lia.
Qed.

Lemma chosen_In p k perm j : j < p -> (In j (chosen p k perm) <-> nth j perm 0 < slice_stop p k).
Proof.
  intro H. unfold chosen. rewrite filter_In, in_seq, Nat.ltb_lt. split; [tauto|]. intro L. split; [lia|exact L].
Qed.

Lemma sparse_supported p k perm (values : list R) : Permutation perm (seq 0 p) -> length values = p ->
  supported_on p (chosen p k perm) (entry values) (sparse_beta (N := Rnum) p k perm values).
Proof.
  intros P Lv. pose proof (Permutation_length P) as L. rewrite seq_length in L.
  assert (Ls : length (shuffled (N := Rnum) perm (prefix_mask p k)) = p)
    by (unfold shuffled; now rewrite map_length).
  assert (E : forall j, j < p -> entry (sparse_beta (N := Rnum) p k perm values) j
    = (entry values j * if (nth j perm 0 <? slice_stop p k)%nat then 1 else 0)%R).
  { intros j Hj. unfold sparse_beta, entry at 1.
    refine (eq_trans (map2_nth (@nmul Rnum) values (shuffled (N := Rnum) perm (prefix_mask p k)) j 0%R 0%R 0%R _ _) _).
    - exact (eq_ind_r (fun q => j < q) Hj Lv).
    - exact (eq_ind_r (fun q => j < q) Hj Ls).
    - apply (f_equal (fun a => (entry values j * a)%R)).
      refine (eq_trans (shuffled_nth (N := Rnum) perm (prefix_mask p k) j _) _); [now rewrite L|].
      refine (eq_trans (mask_nth (N := Rnum) p k (nth j perm 0)) _).
      destruct (nth j perm 0 <? slice_stop p k); reflexivity. }
  split; [|split].
  - unfold sparse_beta. refine (eq_trans (map2_length _ _ _) _).
    refine (eq_trans (f_equal2 Nat.min Lv Ls) _). apply Nat.min_id.
  - intros j Hj. assert (Lj : j < p) by (destruct (chosen_features p k perm P) as (_ & _ & H); now apply H).
    apply (chosen_In p k perm j Lj) in Hj. rewrite (E j Lj).
    destruct (Nat.ltb_spec (nth j perm 0) (slice_stop p k)); [ring|lia].
  - intros j Lj Hj. rewrite (E j Lj).
    destruct (Nat.ltb_spec (nth j perm 0) (slice_stop p k)) as [H|H]; [|ring].
    exfalso. apply Hj. now apply chosen_In.
Qed.

(** Number of non-zero coefficients. *)
Lemma nonzero_count p n S value c : features p n S -> supported_on p S value c ->
  (forall j, j < p -> value j <> 0%R) ->
  length (filter (fun j => negb (Reqb (entry c j) 0)) (seq 0 p)) = n.
Proof.
  intros (ND & LS & HS) (_ & H1 & H2) HV.
  assert (P : Permutation (filter (fun j => negb (Reqb (entry c j) 0)) (seq 0 p)) S).
  { apply NoDup_Permutation; [apply NoDup_filter, seq_NoDup|exact ND|]. intro j.
    rewrite filter_In, in_seq. split.
    - intros [Hj Hn]. destruct (in_dec Nat.eq_dec j S) as [I|I]; [exact I|].
      rewrite (H2 j) in Hn by (lia || exact I). unfold Reqb in Hn. destruct (Req_EM_T 0 0); [discriminate|lra].
    - intro I. split; [specialize (HS j I); lia|]. rewrite (H1 j I). unfold Reqb.
      destruct (Req_EM_T (value j) 0) as [E|E]; [|reflexivity]. exfalso. exact (HV j (HS j I) E). }
  now rewrite (Permutation_length P).
Qed.

(** ** Linear predictors and responses *)
Lemma entry_mapf {A} (f : A -> R) l i d : i < length l -> entry (map f l) i = f (nth i l d).
Proof. intro H. unfold entry. now apply nth_mapd. Qed.

Lemma matrix_map n p (f : R -> R) X : matrix n p X -> matrix n p (map (map f) X).
Proof.
  intros [L F]. split; [now rewrite map_length|]. apply Forall_map.
  apply Forall_impl with (2 := F). intros r H. now rewrite map_length.
Qed.
Lemma mat_map n p (f : R -> R) X i j : matrix n p X -> i < n -> j < p -> mat (map (map f) X) i j = f (mat X i j).
Proof.
  intros [L F] Hi Hj. unfold mat. rewrite (nth_mapd (map f) X i [] []) by lia.
  apply (entry_mapf f). rewrite Forall_forall in F. rewrite (F (nth i X [])); [exact Hj|apply nth_In; lia].
Qed.

Lemma predictor_entry n p X (beta : list R) b i : matrix n p X -> length beta = p -> i < n ->
  entry (linear_predictor (N := Rnum) X beta b) i = eta p X beta b i.
Proof.
  intros [L F] Lb Hi. unfold linear_predictor.
  refine (eq_trans (entry_mapf (fun x => nadd (n := Rnum) b (ndot (N := Rnum) x beta)) X i [] _) _);
    [exact (eq_ind_r (fun q => i < q) Hi L)|].
  assert (Lr : length (nth i X []) = p) by (rewrite Forall_forall in F; apply F, nth_In; lia).
  unfold eta. apply (f_equal (fun a => (b + a)%R)).
  refine (eq_trans (ndot_Sum (nth i X []) beta (eq_trans Lr (eq_sym Lb))) _).
  exact (f_equal (fun q => Sum q (fun j => (entry (nth i X []) j * entry beta j)%R)) Lr).
Qed.

Lemma nmean_R (l : list R) : nmean (N := Rnum) l = average (length l) (entry l).
Proof.
  unfold nmean, average. refine (f_equal2 Rdiv (nsum_Sum l) _). unfold nofnat. cbn. now rewrite INR_IZR_INZ.
Qed.

Lemma nvar_R (l : list R) n : length l = n -> nvar (N := Rnum) l = variance n (entry l).
Proof.
  intro L. subst n. unfold nvar. refine (eq_trans (nmean_R _) _). unfold variance.
  rewrite map_length. unfold average at 1 2. apply (f_equal (fun a => (a / INR (length l))%R)).
  apply Sum_ext. intros i Hi.
  refine (eq_trans (entry_mapf _ l i 0%R Hi) _). unfold nsquare. rewrite (nmean_R l). reflexivity.
Qed.

Lemma average_ext n f g : (forall i, i < n -> f i = g i) -> average n f = average n g.
Proof. intro H. unfold average. now rewrite (Sum_ext n f g H). Qed.
Lemma variance_ext n f g : (forall i, i < n -> f i = g i) -> variance n f = variance n g.
Proof.
  intro H. unfold variance. rewrite (average_ext n f g H). apply average_ext. intros i Hi. now rewrite H.
Qed.
Lemma variance_nonneg n f : (0 <= variance n f)%R.
Proof.
  unfold variance, average. destruct n as [|n].
  - unfold Sum. cbn. unfold Rdiv. rewrite Rmult_0_l. lra.
  - apply Rmult_le_pos; [apply Sum_nonneg; intros; apply Rle_0_sqr|].
    left. apply Rinv_0_lt_compat, lt_0_INR. lia.
Qed.

Lemma linear_data n p k (X_loc X_scale snr low high : R) beta include (d : reg_draws Rnum) :
  reg_draws_ok n p d -> (0 <= X_scale)%R -> (0 < snr)%R ->
  (forall b : list R, beta = Some b -> length b = p) ->
  exists (r : regression Rnum) (sigma : R),
    make_linear_regression (N := Rnum) p k X_loc X_scale snr beta low high include d = Ok r /\
    matrix n p (r_X r) /\ length (r_y r) = n /\ length (r_beta r) = p /\
    (forall i j, i < n -> j < p -> mat (r_X r) i j = (X_loc + X_scale * mat (d_X d) i j)%R) /\
    r_intercept r = (if include then low + (high - low) * d_int d else 0)%R /\
    (forall b, beta = Some b -> r_beta r = b) /\
    (beta = None ->
     features p (informative p k) (chosen p k (d_perm d)) /\
     supported_on p (chosen p k (d_perm d)) (fun j => (low + (high - low) * entry (d_beta d) j)%R) (r_beta r)) /\
    (0 <= sigma)%R /\
    (sigma * sigma * snr = variance n (eta p (r_X r) (r_beta r) (r_intercept r)))%R /\
    (forall i, i < n -> entry (r_y r) i
       = (eta p (r_X r) (r_beta r) (r_intercept r) i + sigma * entry (d_noise d) i)%R).
Proof.
  intros (MX & Lb & P & Ln) HX Hsnr Hb.
  set (X := map (map (normal (N := Rnum) X_loc X_scale)) (d_X d) : list (list R)).
  set (be := match beta with Some b => b | None =>
     sparse_beta (N := Rnum) p k (d_perm d) (map (uniform (N := Rnum) low high) (d_beta d)) end : list R).
  set (ic := (if include then uniform (N := Rnum) low high (d_int d) else @nzero Rnum) : R).
  set (et := linear_predictor (N := Rnum) X be ic : list R).
  set (sigma := sqrt (nvar (N := Rnum) et / snr)).
  assert (Lbe : length be = p).
  { unfold be. destruct beta as [b|]; [now apply Hb|].
    apply (sparse_supported p k (d_perm d)); [exact P|]. now rewrite map_length. }
  assert (MX' : matrix n p X) by (apply matrix_map; exact MX).
  assert (Let : length et = n) by (unfold et, linear_predictor; rewrite map_length; apply MX').
  assert (Ee : forall i, i < n -> entry et i = eta p X be ic i)
    by (intros i Hi; now apply (predictor_entry n)).
  exists (mkRegression X (map2 (@nadd Rnum) et (map (normal (N := Rnum) (@nzero Rnum) sigma) (d_noise d))) be ic), sigma.
  split; [|cbn [r_X r_y r_beta r_intercept]; split; [exact MX'|]; split;
    [|split; [exact Lbe|]; split; [|split; [|split; [|split; [|split; [|split]]]]]]].
  - unfold make_linear_regression.
    assert (E1 : nltb (n := Rnum) X_scale (@nzero Rnum) = false).
    { cbn. unfold Rltb. destruct (Rlt_dec X_scale 0); [lra|reflexivity]. }
    rewrite E1. cbv zeta. fold X. fold ic.
    change (match beta with Some b => b | None => sparse_beta p k (d_perm d) (map (uniform low high) (d_beta d)) end)
      with be.
    assert (E2 : Nat.eqb (length be) p = true) by now apply Nat.eqb_eq.
    refine (eq_trans (f_equal (fun b : bool => if negb b then _ else _) E2) _). reflexivity.
  - refine (eq_trans (map2_length _ _ _) _). rewrite map_length, Ln.
    refine (eq_trans (f_equal (fun a => Nat.min a n) Let) _). apply Nat.min_id.
  - intros i j Hi Hj. exact (mat_map n p (normal (N := Rnum) X_loc X_scale) (d_X d) i j MX Hi Hj).
  - unfold ic. destruct include; reflexivity.
  - intros b E. unfold be. now rewrite E.
  - intro E. split; [now apply chosen_features|]. unfold be. rewrite E.
    destruct (sparse_supported p k (d_perm d) (map (uniform (N := Rnum) low high) (d_beta d)) P) as (A & B & C);
      [now rewrite map_length|].
    split; [exact A|]. split; [|exact C]. intros j Hj.
    refine (eq_trans (B j Hj) _).
    assert (Lj : j < p) by (destruct (chosen_features p k (d_perm d) P) as (_ & _ & H); now apply H).
    refine (eq_trans (entry_mapf (uniform (N := Rnum) low high) (d_beta d) j 0%R _) _);
      [exact (eq_ind_r (fun q => j < q) Lj Lb)|]. reflexivity.
  - apply sqrt_pos.
  - unfold sigma. rewrite sqrt_sqrt.
    + rewrite (nvar_R et n Let), (variance_ext n (entry et) (eta p X be ic) Ee). field. lra.
    + rewrite (nvar_R et n Let). apply Rmult_le_pos; [apply variance_nonneg|]. left. now apply Rinv_0_lt_compat.
  - intros i Hi. unfold entry at 1.
    refine (eq_trans (map2_nth (@nadd Rnum) et (map (normal (N := Rnum) (@nzero Rnum) sigma) (d_noise d)) i 0%R 0%R 0%R _ _) _).
    + exact (eq_ind_r (fun q => i < q) Hi Let).
    + rewrite map_length. exact (eq_ind_r (fun q => i < q) Hi Ln).
    + refine (f_equal2 Rplus (Ee i Hi) _).
      refine (eq_trans (nth_mapd (normal (N := Rnum) (@nzero Rnum) sigma) (d_noise d) i 0%R 0%R _) _);
        [exact (eq_ind_r (fun q => i < q) Hi Ln)|].
      unfold normal. cbn. unfold entry. ring.
Qed.
