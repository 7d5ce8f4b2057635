(** Proofs about what the penalized problems determine (C133). *)
From Coq Require Import ZArith String List Bool Arith Lia Reals Lra Psatz.
From Verif Require Import Prelude F64 Num Model_Intersection Model_Fit Model_Scores Model_Refit Model_Rescale Model_Poisson Model_Linear Model_Estimation Model_Selection Model_CountFit
  Proofs_Intersection Spec_Rescale Proofs_Rescale Spec_Poisson Proofs_Poisson Spec_Linear Proofs_Linear
  Spec_Estimation Proofs_Estimation Spec_Units Spec_CountFit Proofs_Flat Proofs_FlatCount Proofs_Copies Proofs_Copies2 Proofs_Copies3.
Import ListNotations.
Local Open Scope R_scope.

(** ** The model half way between two models *)
Definition between (p : nat) (c c' : list R) : list R := map (fun q => (entry c q + entry c' q) / 2) (seq 0 p).
Lemma length_between p c c' : length (between p c c') = p.
Proof. unfold between. now rewrite map_length, seq_length. Qed.
Lemma entry_between p c c' q : (q < p)%nat -> entry (between p c c') q = (entry c q + entry c' q) / 2.
Proof. intro Hq. unfold between. exact (entry_mapseq (fun q => (entry c q + entry c' q) / 2) p q Hq). Qed.
Lemma eta_between p X c c' b b' i : eta p X (between p c c') ((b + b') / 2) i = (eta p X c b i + eta p X c' b' i) / 2.
Proof.
  unfold eta. rewrite (Sum_ext p (fun q => mat X i q * entry (between p c c') q) (fun q => 1 / 2 * (mat X i q * entry c q + mat X i q * entry c' q))).
  - rewrite Sum_scal, (Sum_plus p (fun q => mat X i q * entry c q) (fun q => mat X i q * entry c' q)). field.
  - intros q Hq. rewrite entry_between by exact Hq. field.
Qed.

(** The penalty of scaled coefficients is convex, strictly so in its ridge part. *)
Definition scaled_penalty (d : nat -> R) (p : nat) (lam mix : R) (c : list R) : R :=
  lam * (mix * Sum p (fun q => Rabs (d q * entry c q)) + (1 - mix) / 2 * Sum p (fun q => (d q * entry c q) * (d q * entry c q))).
Definition gap (d : nat -> R) (c c' : list R) (q : nat) : R := (d q * (entry c q - entry c' q)) * (d q * (entry c q - entry c' q)).
Lemma gap_pos d c c' q : 0 <= gap d c c' q.
Proof. unfold gap. apply Rle_0_sqr. Qed.
Lemma penalty_between d p lam mix c c' : 0 <= lam -> 0 <= mix <= 1 ->
  scaled_penalty d p lam mix (between p c c') <= (scaled_penalty d p lam mix c + scaled_penalty d p lam mix c') / 2 - lam * ((1 - mix) / 8 * Sum p (gap d c c')).
Proof.
  intros Hl Hm. unfold scaled_penalty.
  assert (A : Sum p (fun q => Rabs (d q * entry (between p c c') q)) <= 1 / 2 * (Sum p (fun q => Rabs (d q * entry c q)) + Sum p (fun q => Rabs (d q * entry c' q)))).
  { rewrite <- (Sum_plus p (fun q => Rabs (d q * entry c q)) (fun q => Rabs (d q * entry c' q))), <- (Sum_scal p (fun q => Rabs (d q * entry c q) + Rabs (d q * entry c' q))).
    apply Sum_le. intros q Hq. rewrite entry_between by exact Hq. replace (d q * ((entry c q + entry c' q) / 2)) with (1 / 2 * (d q * entry c q + d q * entry c' q)) by field.
    rewrite Rabs_mult, (Rabs_pos_eq (1 / 2)) by lra. pose proof (Rabs_triang (d q * entry c q) (d q * entry c' q)). lra. }
  assert (B : Sum p (fun q => (d q * entry (between p c c') q) * (d q * entry (between p c c') q))
    = 1 / 2 * (Sum p (fun q => (d q * entry c q) * (d q * entry c q)) + Sum p (fun q => (d q * entry c' q) * (d q * entry c' q))) - 1 / 4 * Sum p (gap d c c')).
  { rewrite <- (Sum_plus p (fun q => (d q * entry c q) * (d q * entry c q)) (fun q => (d q * entry c' q) * (d q * entry c' q))),
      <- (Sum_scal p (fun q => (d q * entry c q) * (d q * entry c q) + (d q * entry c' q) * (d q * entry c' q))), <- (Sum_scal p (gap d c c')).
    rewrite <- (Sum_minus p (fun q => 1 / 2 * ((d q * entry c q) * (d q * entry c q) + (d q * entry c' q) * (d q * entry c' q))) (fun q => 1 / 4 * gap d c c' q)).
    apply Sum_ext. intros q Hq. rewrite entry_between by exact Hq. unfold gap. field. }
  rewrite B. apply (Rmult_le_compat_l (lam * mix)) in A; [|apply Rmult_le_pos; lra]. lra.
Qed.
Lemma scaled_one p lam mix c : scaled_penalty (fun _ => 1) p lam mix c = penalty p lam mix c.
Proof.
  unfold scaled_penalty, penalty. rewrite (Sum_ext p (fun q => Rabs (1 * entry c q)) (fun q => Rabs (entry c q))) by (intros q _; now rewrite Rmult_1_l).
  rewrite (Sum_ext p (fun q => (1 * entry c q) * (1 * entry c q)) (fun q => entry c q * entry c q)) by (intros q _; ring). reflexivity.
Qed.
Lemma gap_zero d p c c' : (forall q, (q < p)%nat -> d q <> 0) -> Sum p (gap d c c') <= 0 -> forall q, (q < p)%nat -> entry c q = entry c' q.
Proof.
  intros Hd H q Hq. pose proof (Proofs_LinearUnits.Sum_term p (gap d c c') q (fun q _ => gap_pos d c c' q) Hq) as T. pose proof (gap_pos d c c' q) as P.
  assert (Z : gap d c c' q = 0) by lra. unfold gap in Z. apply Rmult_integral in Z. assert (Z' : d q * (entry c q - entry c' q) = 0) by (destruct Z; assumption).
  apply Rmult_integral in Z' as [Z'|Z']; [now elim (Hd q Hq)|lra].
Qed.

(** ** Least squares *)
Definition miss (p : nat) X (c c' : list R) (b b' : R) (i : nat) : R := (eta p X c b i - eta p X c' b' i) * (eta p X c b i - eta p X c' b' i).
Lemma net_gap has n p X y lam mix c c' b b' : 0 <= lam -> 0 <= mix <= 1 ->
  net_minimizer has n p X y lam mix c b -> net_minimizer has n p X y lam mix c' b' ->
  net n p X y lam mix c b = net n p X y lam mix c' b' /\
  / (2 * INR n) * (1 / 4 * Sum n (miss p X c c' b b')) + lam * ((1 - mix) / 8 * Sum p (gap (fun _ => 1) c c')) <= 0.
Proof.
  intros Hl Hm (Lc & Hb & H) (Lc' & Hb' & H'). pose proof (H c' b' Lc' Hb') as H1. pose proof (H' c b Lc Hb) as H2. split; [lra|].
  assert (Hbb : has = false -> (b + b') / 2 = 0) by (intro E; rewrite (Hb E), (Hb' E); field).
  pose proof (H (between p c c') ((b + b') / 2) (length_between p c c') Hbb) as H3.
  pose proof (penalty_between (fun _ => 1) p lam mix c c' Hl Hm) as P. rewrite !scaled_one in P. unfold net in H1, H2, H3.
  assert (B : Sum n (fun i => (entry y i - eta p X (between p c c') ((b + b') / 2) i) * (entry y i - eta p X (between p c c') ((b + b') / 2) i))
    = 1 / 2 * (Sum n (fun i => (entry y i - eta p X c b i) * (entry y i - eta p X c b i)) + Sum n (fun i => (entry y i - eta p X c' b' i) * (entry y i - eta p X c' b' i)))
      - 1 / 4 * Sum n (miss p X c c' b b')).
  { rewrite <- (Sum_plus n (fun i => (entry y i - eta p X c b i) * (entry y i - eta p X c b i)) (fun i => (entry y i - eta p X c' b' i) * (entry y i - eta p X c' b' i))),
      <- (Sum_scal n (fun i => (entry y i - eta p X c b i) * (entry y i - eta p X c b i) + (entry y i - eta p X c' b' i) * (entry y i - eta p X c' b' i))), <- (Sum_scal n (miss p X c c' b b')).
    rewrite <- (Sum_minus n (fun i => 1 / 2 * ((entry y i - eta p X c b i) * (entry y i - eta p X c b i) + (entry y i - eta p X c' b' i) * (entry y i - eta p X c' b' i))) (fun i => 1 / 4 * miss p X c c' b b' i)).
    apply Sum_ext. intros i Hi. rewrite eta_between. unfold miss. field. }
  rewrite B in H3. lra.
Qed.
Lemma miss_pos p X c c' b b' n : 0 <= Sum n (miss p X c c' b b').
Proof. apply Sum_nonneg. intros i _. unfold miss. apply Rle_0_sqr. Qed.
Lemma inv_twice_pos n : (0 < n)%nat -> 0 < / (2 * INR n).
Proof. intro H. apply lt_INR in H. cbn [INR] in H. apply Rinv_0_lt_compat. lra. Qed.
Lemma inv_twice_nonneg n : 0 <= / (2 * INR n).
Proof. destruct n as [|n]; [cbn [INR]; rewrite Rmult_0_r, Rinv_0; lra|]. left. apply inv_twice_pos. lia. Qed.

Lemma net_values has n p X y lam mix c c' b b' : (0 < n)%nat -> 0 <= lam -> 0 <= mix <= 1 ->
  net_minimizer has n p X y lam mix c b -> net_minimizer has n p X y lam mix c' b' ->
  (forall i, (i < n)%nat -> eta p X c b i = eta p X c' b' i) /\ penalty p lam mix c = penalty p lam mix c'.
Proof.
  intros Hn Hl Hm M M'. destruct (net_gap has n p X y lam mix c c' b b' Hl Hm M M') as [E G].
  assert (P2 : 0 <= lam * ((1 - mix) / 8 * Sum p (gap (fun _ => 1) c c'))).
  { apply Rmult_le_pos; [exact Hl|]. apply Rmult_le_pos; [lra|]. apply Sum_nonneg. intros q _. apply gap_pos. }
  pose proof (inv_twice_pos n Hn) as P1. pose proof (miss_pos p X c c' b b' n) as Pm.
  assert (Z : Sum n (miss p X c c' b b') <= 0).
  { destruct (Rle_dec (Sum n (miss p X c c' b b')) 0) as [|N]; [assumption|exfalso]. apply Rnot_le_gt in N.
    pose proof (Rmult_lt_0_compat (/ (2 * INR n)) (1 / 4 * Sum n (miss p X c c' b b')) P1 ltac:(lra)). lra. }
  assert (V : forall i, (i < n)%nat -> eta p X c b i = eta p X c' b' i).
  { intros i Hi. pose proof (Proofs_LinearUnits.Sum_term n (miss p X c c' b b') i (fun i _ => Rle_0_sqr _) Hi) as T. pose proof (Rle_0_sqr (eta p X c b i - eta p X c' b' i)) as Q. unfold Rsqr in Q.
    unfold miss in T at 1. assert (Z0 : (eta p X c b i - eta p X c' b' i) * (eta p X c b i - eta p X c' b' i) = 0) by lra. apply Rmult_integral in Z0. destruct Z0; lra. }
  split; [exact V|]. unfold net in E.
  rewrite (Sum_ext n (fun i => (entry y i - eta p X c b i) * (entry y i - eta p X c b i)) (fun i => (entry y i - eta p X c' b' i) * (entry y i - eta p X c' b' i))) in E by (intros i Hi; now rewrite (V i Hi)).
  lra.
Qed.
Lemma net_unique has n p X y lam mix c c' : 0 < lam -> 0 <= mix < 1 ->
  net_solution has n p X y lam mix c -> net_solution has n p X y lam mix c' -> c = c'.
Proof.
  intros Hl Hm (b & M) (b' & M'). destruct (net_gap has n p X y lam mix c c' b b' ltac:(lra) ltac:(lra) M M') as [_ G].
  pose proof (Rmult_le_pos _ (1 / 4 * Sum n (miss p X c c' b b')) (inv_twice_nonneg n) ltac:(pose proof (miss_pos p X c c' b b' n); lra)) as P1.
  assert (Z : Sum p (gap (fun _ => 1) c c') <= 0).
  { destruct (Rle_dec (Sum p (gap (fun _ => 1) c c')) 0) as [|N]; [assumption|exfalso]. apply Rnot_le_gt in N.
    pose proof (Rmult_lt_0_compat lam ((1 - mix) / 8 * Sum p (gap (fun _ => 1) c c')) Hl ltac:(apply Rmult_lt_0_compat; lra)). lra. }
  apply (Proofs_Logistic.list_entry p); [exact (proj1 M)|exact (proj1 M')|]. apply (gap_zero (fun _ => 1)); [intros; lra|exact Z].
Qed.

(** ** Counts *)
Definition miss_exp (p : nat) X (c c' : list R) (b b' : R) (i : nat) : R :=
  (exp (eta p X c b i / 2) - exp (eta p X c' b' i / 2)) * (exp (eta p X c b i / 2) - exp (eta p X c' b' i / 2)).
Lemma exp_half (u v : R) : exp ((u + v) / 2) = 1 / 2 * (exp u + exp v) - 1 / 2 * ((exp (u / 2) - exp (v / 2)) * (exp (u / 2) - exp (v / 2))).
Proof.
  replace ((u + v) / 2) with (u / 2 + v / 2) by field. replace (exp u) with (exp (u / 2 + u / 2)) by (f_equal; field). replace (exp v) with (exp (v / 2 + v / 2)) by (f_equal; field).
  rewrite !exp_plus. field.
Qed.
Lemma count_gap d n p X y lam mix m m' : 0 <= lam -> 0 <= mix <= 1 ->
  count_minimizer d n p X y lam mix m -> count_minimizer d n p X y lam mix m' ->
  count_objective d n p X y lam mix (fst m) (snd m) = count_objective d n p X y lam mix (fst m') (snd m') /\
  / INR n * (1 / 2 * Sum n (miss_exp p X (fst m) (fst m') (snd m) (snd m'))) + lam * ((1 - mix) / 8 * Sum p (gap d (fst m) (fst m'))) <= 0.
Proof.
  destruct m as [c b], m' as [c' b']. cbn [fst snd]. intros Hl Hm (Lc & H) (Lc' & H'). cbn [fst snd] in *.
  pose proof (H c' b' Lc') as H1. pose proof (H' c b Lc) as H2. split; [lra|].
  pose proof (H (between p c c') ((b + b') / 2) (length_between p c c')) as H3.
  pose proof (penalty_between d p lam mix c c' Hl Hm) as P. unfold count_objective in H1, H2, H3. rewrite !(penalty_scaled d p lam mix) in H1, H2, H3.
  fold (scaled_penalty d p lam mix c) in H1, H2, H3. fold (scaled_penalty d p lam mix c') in H1, H2, H3. fold (scaled_penalty d p lam mix (between p c c')) in H3.
  assert (B : Sum n (fun i => exp (eta p X (between p c c') ((b + b') / 2) i) - entry y i * eta p X (between p c c') ((b + b') / 2) i)
    = 1 / 2 * (Sum n (fun i => exp (eta p X c b i) - entry y i * eta p X c b i) + Sum n (fun i => exp (eta p X c' b' i) - entry y i * eta p X c' b' i))
      - 1 / 2 * Sum n (miss_exp p X c c' b b')).
  { rewrite <- (Sum_plus n (fun i => exp (eta p X c b i) - entry y i * eta p X c b i) (fun i => exp (eta p X c' b' i) - entry y i * eta p X c' b' i)),
      <- (Sum_scal n (fun i => exp (eta p X c b i) - entry y i * eta p X c b i + (exp (eta p X c' b' i) - entry y i * eta p X c' b' i))), <- (Sum_scal n (miss_exp p X c c' b b')).
    rewrite <- (Sum_minus n (fun i => 1 / 2 * (exp (eta p X c b i) - entry y i * eta p X c b i + (exp (eta p X c' b' i) - entry y i * eta p X c' b' i))) (fun i => 1 / 2 * miss_exp p X c c' b b' i)).
    apply Sum_ext. intros i Hi. rewrite eta_between, exp_half. unfold miss_exp. field. }
  rewrite B in H3. lra.
Qed.
Lemma inv_nonneg n : 0 <= / INR n.
Proof. destruct n as [|n]; [cbn [INR]; rewrite Rinv_0; lra|]. left. apply Rinv_0_lt_compat, lt_0_INR. lia. Qed.
Lemma miss_exp_pos p X c c' b b' n : 0 <= Sum n (miss_exp p X c c' b b').
Proof. apply Sum_nonneg. intros i _. unfold miss_exp. apply Rle_0_sqr. Qed.
Lemma count_values d n p X y lam mix m m' : (0 < n)%nat -> 0 <= lam -> 0 <= mix <= 1 ->
  count_minimizer d n p X y lam mix m -> count_minimizer d n p X y lam mix m' ->
  (forall i, (i < n)%nat -> eta p X (fst m) (snd m) i = eta p X (fst m') (snd m') i) /\
  penalty p lam mix (map (fun j => d j * entry (fst m) j) (seq 0 p)) = penalty p lam mix (map (fun j => d j * entry (fst m') j) (seq 0 p)).
Proof.
  intros Hn Hl Hm M M'. destruct (count_gap d n p X y lam mix m m' Hl Hm M M') as [E G]. destruct m as [c b], m' as [c' b']. cbn [fst snd] in *.
  assert (P2 : 0 <= lam * ((1 - mix) / 8 * Sum p (gap d c c'))).
  { apply Rmult_le_pos; [exact Hl|]. apply Rmult_le_pos; [lra|]. apply Sum_nonneg. intros q _. apply gap_pos. }
  assert (P1 : 0 < / INR n) by (apply Rinv_0_lt_compat, lt_0_INR; exact Hn). pose proof (miss_exp_pos p X c c' b b' n) as Pm.
  assert (Z : Sum n (miss_exp p X c c' b b') <= 0).
  { destruct (Rle_dec (Sum n (miss_exp p X c c' b b')) 0) as [|N]; [assumption|exfalso]. apply Rnot_le_gt in N.
    pose proof (Rmult_lt_0_compat (/ INR n) (1 / 2 * Sum n (miss_exp p X c c' b b')) P1 ltac:(lra)). lra. }
  assert (V : forall i, (i < n)%nat -> eta p X c b i = eta p X c' b' i).
  { intros i Hi. pose proof (Proofs_LinearUnits.Sum_term n (miss_exp p X c c' b b') i (fun i _ => Rle_0_sqr _) Hi) as T.
    pose proof (Rle_0_sqr (exp (eta p X c b i / 2) - exp (eta p X c' b' i / 2))) as Q. unfold Rsqr in Q. unfold miss_exp in T at 1.
    assert (Z0 : (exp (eta p X c b i / 2) - exp (eta p X c' b' i / 2)) * (exp (eta p X c b i / 2) - exp (eta p X c' b' i / 2)) = 0) by lra.
    apply Rmult_integral in Z0. assert (Ee : exp (eta p X c b i / 2) = exp (eta p X c' b' i / 2)) by (destruct Z0; lra). apply exp_inv in Ee. lra. }
  split; [exact V|]. unfold count_objective in E.
  rewrite (Sum_ext n (fun i => exp (eta p X c b i) - entry y i * eta p X c b i) (fun i => exp (eta p X c' b' i) - entry y i * eta p X c' b' i)) in E by (intros i Hi; now rewrite (V i Hi)).
  lra.
Qed.
Lemma count_unique d n p X y lam mix m m' : 0 < lam -> 0 <= mix < 1 -> (forall q, (q < p)%nat -> d q <> 0) ->
  count_minimizer d n p X y lam mix m -> count_minimizer d n p X y lam mix m' -> fst m = fst m'.
Proof.
  intros Hl Hm Hd M M'. destruct (count_gap d n p X y lam mix m m' ltac:(lra) ltac:(lra) M M') as [_ G].
  pose proof (Rmult_le_pos _ (1 / 2 * Sum n (miss_exp p X (fst m) (fst m') (snd m) (snd m'))) (inv_nonneg n) ltac:(pose proof (miss_exp_pos p X (fst m) (fst m') (snd m) (snd m') n); lra)) as P1.
  assert (Z : Sum p (gap d (fst m) (fst m')) <= 0).
  { destruct (Rle_dec (Sum p (gap d (fst m) (fst m'))) 0) as [|N]; [assumption|exfalso]. apply Rnot_le_gt in N.
    pose proof (Rmult_lt_0_compat lam ((1 - mix) / 8 * Sum p (gap d (fst m) (fst m'))) Hl ltac:(apply Rmult_lt_0_compat; lra)). lra. }
  apply (Proofs_Logistic.list_entry p); [exact (proj1 M)|exact (proj1 M')|]. exact (gap_zero d p _ _ Hd Z).
Qed.

(** ** The estimators *)
Lemma selection_ext p ts qs sel X (y : list R) (net net' : solver_net (N := Rnum)) :
  (forall sp q, In sp sel -> In q qs ->
     apply_params (N := Rnum) net (samples X (fst sp)) (part_y y (fst sp)) q = apply_params (N := Rnum) net' (samples X (fst sp)) (part_y y (fst sp)) q) ->
  selection_module (N := Rnum) net p ts qs sel X y = selection_module (N := Rnum) net' p ts qs sel X y.
Proof.
  intro H. unfold selection_module. assert (E : map (selection_sweep (N := Rnum) net X y qs) sel = map (selection_sweep (N := Rnum) net' X y qs) sel); [|rr; now rewrite E].
  apply map_ext_in. intros sp Hsp. unfold selection_sweep. apply map_ext_in. intros q Hq. exact (H sp q Hsp Hq).
Qed.
Lemma elastic_unique standardize has metric target p X (y : list R) eps num alphas ts (net net' : solver_net (N := Rnum)) (ols : solver_ls (N := Rnum)) sel est :
  (forall a, In a alphas -> 0 < a < 1) ->
  let D := linear_pre (N := Rnum) standardize has p X y in
  let solves (s : solver_net (N := Rnum)) := forall sp (lam mix : R) g, In sp sel -> elastic_reg_params (N := Rnum) has p (fst D) (snd D) eps num alphas = Ok g -> In (RegPair lam mix) g ->
     let Xr := samples (fst D) (fst sp) in let yr := part_y (snd D) (fst sp) in
     net_solution has (length (fst sp)) p Xr yr lam mix (s Xr yr lam mix) in
  solves net -> solves net' ->
  elastic_select (N := Rnum) has p eps num alphas net ts sel (fst D) (snd D) = elastic_select (N := Rnum) has p eps num alphas net' ts sel (fst D) (snd D) /\
  elastic_fit (N := Rnum) standardize has eps num alphas ts metric target p net ols sel est X y = elastic_fit (N := Rnum) standardize has eps num alphas ts metric target p net' ols sel est X y.
Proof.
  intros Ha D solves H H'.
  assert (ES : elastic_select (N := Rnum) has p eps num alphas net ts sel (fst D) (snd D) = elastic_select (N := Rnum) has p eps num alphas net' ts sel (fst D) (snd D)).
  { unfold elastic_select. destruct (elastic_reg_params (N := Rnum) has p (fst D) (snd D) eps num alphas) as [g|] eqn:Eg; cbn [select_with]; [|reflexivity].
    apply selection_ext. intros sp q Hsp Hq. pose proof Eg as Eg2. unfold elastic_reg_params in Eg2.
    destruct (mapM (fun a : Rnum => alpha_grid (N := Rnum) has p (fst D) (snd D) a eps num) alphas) as [gs|] eqn:Em; cbn [rmap] in Eg2; [|discriminate]. injection Eg2 as <-.
    pose proof Hq as Hq2. destruct (pairs_in alphas gs q Hq) as (a & gr & lam & -> & Hag & Hl). destruct (mapM_combine _ _ _ Em a gr Hag) as [Hina Ea]. cbn [apply_params].
    pose proof (Ha a Hina). exact (net_unique has _ p _ _ lam a _ _ (grid_pos has p _ _ a eps num gr Ea lam Hl) ltac:(lra) (H sp lam a _ Hsp eq_refl Hq2) (H' sp lam a _ Hsp eq_refl Hq2)). }
  split; [exact ES|]. unfold elastic_fit, regressor_fit. fold D. rr. now rewrite ES.
Qed.
Lemma poisson_unique standardize has metric target p X (y : list R) eps num alphas ts (sel_lm sel_lm' est_lm : solver_glm (N := Rnum)) sel est (d : list (list R) -> nat -> R) :
  (forall a, In a alphas -> 0 < a < 1) ->
  let Xs := map (centering_transform (N := Rnum) standardize (fit_scaler (columns p X))) X in
  let solves (s : solver_glm (N := Rnum)) := forall sp (lam mix : R), In sp sel -> In (RegPair lam mix) (poisson_reg_params (N := Rnum) p Xs y eps num alphas) ->
     let Xr := samples Xs (fst sp) in let yr := part_y y (fst sp) in
     (forall q, (q < p)%nat -> d Xr q <> 0) /\ count_minimizer (d Xr) (length (fst sp)) p Xr yr lam mix (s Xr yr lam mix) in
  solves sel_lm -> solves sel_lm' ->
  count_select (N := Rnum) p eps num alphas sel_lm ts sel Xs y = count_select (N := Rnum) p eps num alphas sel_lm' ts sel Xs y /\
  count_fit (N := Rnum) standardize has eps num alphas ts metric target p sel_lm est_lm sel est X y = count_fit (N := Rnum) standardize has eps num alphas ts metric target p sel_lm' est_lm sel est X y.
Proof.
  intros Ha Xs solves H H'.
  assert (ES : count_select (N := Rnum) p eps num alphas sel_lm ts sel Xs y = count_select (N := Rnum) p eps num alphas sel_lm' ts sel Xs y).
  { unfold count_select. apply selection_ext. intros sp q Hsp Hq. pose proof Hq as Hq2. destruct (pairs_in _ _ _ Hq) as (a & g & lam & -> & Hag & Hlam). cbn [apply_params].
    assert (Hl : 0 < lam).
    { pose proof (in_combine_r _ _ _ _ Hag) as Hg. apply in_map_iff in Hg as (a' & <- & _). unfold poisson_grid, logspace in Hlam. apply in_map_iff in Hlam as (x & <- & _). apply pow10_pos. }
    pose proof (Ha a (in_combine_l _ _ _ _ Hag)). destruct (H sp lam a Hsp Hq2) as [Hd M]. destruct (H' sp lam a Hsp Hq2) as [_ M'].
    exact (count_unique _ _ p _ _ lam a _ _ Hl ltac:(lra) Hd M M'). }
  split; [exact ES|]. unfold count_fit. fold Xs. rr. now rewrite ES.
Qed.

(** ** Examples *)
Lemma swap_minimizer : net_minimizer true 2 2 [[1; 1]; [-1; -1]] [1; -1] (1 / 2) 1 [1 / 2; 0] 0 /\ net_minimizer true 2 2 [[1; 1]; [-1; -1]] [1; -1] (1 / 2) 1 [0; 1 / 2] 0.
Proof.
  assert (E : forall c b, length c = 2%nat -> 3 / 8 <= net 2 2 [[1; 1]; [-1; -1]] [1; -1] (1 / 2) 1 c b).
  { intros [|c [|e [|]]] b L; try discriminate. unfold net, penalty, eta, Sum, mat, entry. cbn.
    pose proof (Rle_abs c). pose proof (Rle_abs e). pose proof (Rle_0_sqr b) as Q. pose proof (Rle_0_sqr (c + e - 1 / 2)) as S. unfold Rsqr in Q, S.
    match goal with |- _ <= ?r => replace r with (1 / 2 * ((1 - (c + e)) * (1 - (c + e))) + 1 / 2 * (Rabs c + Rabs e) + 1 / 2 * (b * b)) by field end. lra. }
  assert (V : forall a b, a = 0 /\ b = 1 / 2 \/ a = 1 / 2 /\ b = 0 -> net 2 2 [[1; 1]; [-1; -1]] [1; -1] (1 / 2) 1 [a; b] 0 = 3 / 8).
  { intros a b [[-> ->]|[-> ->]]; unfold net, penalty, eta, Sum, mat, entry; cbn; rewrite Rabs_R0, (Rabs_pos_eq (1 / 2)) by lra; field. }
  split; (split; [reflexivity|]; split; [reflexivity|]; intros c' b' L _; rewrite V by lra; exact (E c' b' L)).
Qed.
Lemma shared_solves : forall sp (lam mix : R) g, In sp copy_splits -> elastic_reg_params (N := Rnum) true 2 copy_X copy_y (1 / 2) 2 [1 / 2] = Ok g -> In (RegPair lam mix) g ->
  net_solution true (length (fst sp)) 2 (samples copy_X (fst sp)) (part_y copy_y (fst sp)) lam mix (shared_net (samples copy_X (fst sp)) (part_y copy_y (fst sp)) lam mix).
Proof.
  intros sp lam mix g Hsp Eg Hl. unfold elastic_reg_params in Eg. cbn [mapM] in Eg.
  destruct (alpha_grid (N := Rnum) true 2 copy_X copy_y (1 / 2) (1 / 2) 2) as [gr|] eqn:E; cbn [bind rmap] in Eg; [|discriminate]. injection Eg as <-.
  destruct (pairs_in [1 / 2] [gr] _ Hl) as (a & g' & lam' & Eq & [Ha|[]] & Hlam). injection Ha as <- <-. injection Eq as -> ->.
  pose proof (grid_pos true 2 copy_X copy_y (1 / 2) (1 / 2) 2 gr E lam' Hlam) as Pl.
  destruct Hsp as [<-|[<-|[]]]; [exact (copy_ridge 1 lam' ltac:(lra) Pl)|exact (copy_ridge 2 lam' ltac:(lra) Pl)].
Qed.
Lemma twin_solves : forall sp (lam mix : R), In sp [twin_split; twin_split] -> In (RegPair lam mix) (poisson_reg_params (N := Rnum) 2 twin_X twin_y (1 / 2) 2 [1 / 2]) ->
  (forall q, (q < 2)%nat -> 1 <> 0) /\ count_minimizer (fun _ => 1) (length (fst sp)) 2 (samples twin_X (fst sp)) (part_y twin_y (fst sp)) lam mix (twin_lm (samples twin_X (fst sp)) (part_y twin_y (fst sp)) lam mix).
Proof.
  rr. rewrite twin_params. intros sp lam mix Hsp Hq. assert (Es : sp = twin_split) by (destruct Hsp as [<-|[<-|[]]]; reflexivity). subst sp.
  split; [intros; lra|]. pose proof twin_rate_pos as Pr. pose proof twin_step as Ts.
  destruct Hq as [Hq|[Hq|[]]]; injection Hq as <- <-; unfold twin_lm.
  - destruct (Rlt_dec 2 (3 / 2)); [lra|]. pose proof (twin_minimizer (twin_rate + 3 / 4) (twin_rate + 3 / 4) 0 2 ltac:(lra) ltac:(lra) ltac:(lra) ltac:(lra) ltac:(ring)) as M.
    replace [twin_rate + 3 / 4 - 2 * (1 + 0); twin_rate + 3 / 4 + 2 * (1 + 0)] with (part_y twin_y (fst twin_split)) in M; [exact M|].
    unfold part_y, twin_y, twin_split, entry. cbn. rewrite Ts. f_equal; [lra|]. f_equal. lra.
  - destruct (Rlt_dec 1 (3 / 2)); [|lra]. assert (Pe : 0 < twin_rate * exp (1 / 2)) by (apply Rmult_lt_0_compat; [exact Pr|apply exp_pos]).
    pose proof (twin_minimizer twin_rate (twin_rate * exp (1 / 2)) (1 / 4) 1 Pr Pe ltac:(lra) ltac:(lra) ltac:(rewrite ln_mult, ln_exp by (exact Pr || apply exp_pos); lra)) as M.
    replace [twin_rate - 1 * (1 + 1 / 4); twin_rate * exp (1 / 2) + 1 * (1 + 1 / 4)] with (part_y twin_y (fst twin_split)) in M; [exact M|].
    unfold part_y, twin_y, twin_split, entry. cbn. f_equal; [lra|]. f_equal. lra.
Qed.
