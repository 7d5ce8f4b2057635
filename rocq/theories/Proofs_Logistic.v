(** Proofs about softmax, sigmoid and the intercept-only classifiers. *)
From Coq Require Import ZArith List Bool Arith Reals Lra Lia.
From Verif Require Import Prelude Num Model_Mpi Model_Rescale Spec_Rescale Model_Poisson Spec_Poisson
  Model_Logistic Spec_Logistic Proofs_Intersection Proofs_Rescale Proofs_Poisson Proofs_PoissonOpt Proofs_PoissonMore.
Import ListNotations.
Local Open Scope R_scope.

(** ** softmax and sigmoid *)
Lemma exp_sum_pos n (f : nat -> R) : (0 < n)%nat -> 0 < Sum n (fun i => exp (f i)).
Proof.
  intro H. destruct n; [lia|]. rewrite Sum_S. pose proof (exp_pos (f n)).
  assert (0 <= Sum n (fun i => exp (f i))) by (apply Sum_nonneg; intros; left; apply exp_pos). lra.
Qed.

Lemma Sum_term n f k : (forall j, (j < n)%nat -> 0 <= f j) -> (k < n)%nat -> f k <= Sum n f.
Proof.
  intros H Hk. pose proof (Sum_at n k f 0 Hk) as E.
  assert (0 <= Sum n (fun j => if Nat.eqb j k then 0 else f j)); [|lra].
  apply Sum_nonneg. intros j Hj. destruct (Nat.eqb j k); [lra|auto].
Qed.
Lemma list_entry n (a b : list R) : length a = n -> length b = n -> (forall i, (i < n)%nat -> entry a i = entry b i) -> a = b.
Proof. intros La Lb H. apply (nth_ext a b 0 0); [congruence|]. intros i Hi. apply H. lia. Qed.

Lemma softmax_length (y : list R) : length (softmax (N := Rnum) y) = length y.
Proof. unfold softmax. now rewrite !map_length. Qed.

Lemma softmax_entry (y : list R) i : (i < length y)%nat ->
  entry (softmax (N := Rnum) y) i = exp (entry y i) / Sum (length y) (fun j => exp (entry y j)).
Proof.
  intro Hi. set (n := length y). unfold softmax. set (m := nmaxl (N := Rnum) y).
  set (e := map (fun v : R => exp (v - m)) y).
  assert (Le : length e = n) by apply map_length.
  assert (Ee : forall j, (j < n)%nat -> entry e j = exp (entry y j) * exp (- m)).
  { intros j Hj. unfold e. rewrite (entry_map (fun v => exp (v - m))) by exact Hj. unfold Rminus. apply exp_plus. }
  change (entry (map (fun v : R => v / nsum (N := Rnum) e) e) i = exp (entry y i) / Sum n (fun j => exp (entry y j))).
  rewrite (entry_map (fun v => v / nsum (N := Rnum) e)) by (rewrite Le; exact Hi).
  rewrite (sum_n n e Le), Ee by exact Hi.
  rewrite (Sum_ext n (fun i => entry e i) (fun j => exp (entry y j) * exp (- m))) by exact Ee. rewrite Sum_scal_r.
  field. split; [apply Rgt_not_eq, exp_sum_pos; unfold n; lia|apply Rgt_not_eq, exp_pos].
Qed.

Lemma softmax_facts (y : list R) : y <> [] ->
  let s := softmax (N := Rnum) y in
  length s = length y /\
  (forall i, (i < length y)%nat -> entry s i = exp (entry y i) / Sum (length y) (fun j => exp (entry y j))) /\
  (forall i, (i < length y)%nat -> 0 < entry s i <= 1) /\
  Sum (length y) (fun i => entry s i) = 1 /\
  (forall i j, (i < length y)%nat -> (j < length y)%nat -> (entry s i < entry s j <-> entry y i < entry y j)) /\
  (forall t, softmax (N := Rnum) (map (fun v => v + t) y) = s).
Proof.
  intros Hy s. set (n := length y). assert (Hn : (0 < n)%nat) by (unfold n; destruct y; [now destruct Hy|cbn; lia]).
  assert (E : forall i, (i < n)%nat -> entry s i = exp (entry y i) / Sum n (fun j => exp (entry y j))) by (intros i Hi; now apply softmax_entry).
  pose proof (exp_sum_pos n (fun j => entry y j) Hn) as HS. set (T := Sum n (fun j => exp (entry y j))) in *.
  split; [apply softmax_length|]. split; [exact E|].
  assert (P : forall i, (i < n)%nat -> 0 < entry s i).
  { intros i Hi. rewrite E by assumption. apply Rdiv_lt_0_compat; [apply exp_pos|exact HS]. }
  assert (S1 : Sum n (fun i => entry s i) = 1).
  { rewrite (Sum_ext n _ (fun i => exp (entry y i) * / T)) by exact E. rewrite Sum_scal_r. fold T. field. lra. }
  split; [|split; [exact S1|split]].
  - intros i Hi. split; [now apply P|]. rewrite <- S1.
    apply (Sum_term n (fun i => entry s i)); [|exact Hi]. intros j Hj. left. now apply P.
  - intros i j Hi Hj. rewrite !E by assumption. unfold Rdiv. assert (0 < / T) by now apply Rinv_0_lt_compat. split; intro L.
    + apply Rmult_lt_reg_r in L; [|assumption]. now apply exp_lt_inv.
    + apply Rmult_lt_compat_r; [assumption|]. now apply exp_increasing.
  - intro t. assert (Lt : length (map (fun v => v + t) y) = n) by apply map_length.
    apply (list_entry n); [rewrite softmax_length; exact Lt|apply softmax_length|].
    intros i Hi. rewrite softmax_entry by (rewrite Lt; exact Hi). rewrite Lt, E by exact Hi.
    rewrite (entry_map (fun v => v + t)) by exact Hi.
    rewrite (Sum_ext n _ (fun j => exp (entry y j) * exp t)).
    + rewrite Sum_scal_r, exp_plus. fold T. field. split; [lra|apply Rgt_not_eq, exp_pos].
    + intros j Hj. rewrite (entry_map (fun v => v + t)) by exact Hj. apply exp_plus.
Qed.

Lemma logaddexp_R (a b : R) : logaddexp (N := Rnum) a b = ln (exp a + exp b).
Proof.
  unfold logaddexp, log1p, none, nzero. rn. unfold Reqb, Rltb, Rleb.
  destruct (Req_EM_T a b) as [->|Hne].
  - replace (exp b + exp b) with (exp b * 2) by ring. rewrite ln_mult; [|apply exp_pos|lra]. now rewrite ln_exp.
  - assert (K : forall u v, u + ln (1 + exp (v - u)) = ln (exp u + exp v)).
    { intros u v. replace (exp u + exp v) with (exp u * (1 + exp (v - u))).
      - rewrite ln_mult; [now rewrite ln_exp|apply exp_pos|]. pose proof (exp_pos (v - u)). lra.
      - rewrite Rmult_plus_distr_l, <- exp_plus. replace (u + (v - u)) with v by ring. ring. }
    destruct (Rlt_dec 0 (a - b)) as [H|H].
    + replace (- (a - b)) with (b - a) by ring. apply K.
    + destruct (Rle_dec (a - b) 0) as [H'|H']; [|lra]. rewrite Rplus_comm with (r1 := exp a). apply K.
Qed.
Lemma sigmoid_R (x : R) : sigmoid (N := Rnum) x = / (1 + exp (- x)).
Proof.
  unfold sigmoid. rewrite logaddexp_R. unfold nzero. rn. pose proof (exp_pos (- x)). rewrite exp_Ropp, exp_0, exp_ln by lra. reflexivity.
Qed.
Lemma sigmoid_facts (x y : R) :
  sigmoid (N := Rnum) x = / (1 + exp (- x)) /\ 0 < sigmoid (N := Rnum) x < 1 /\
  sigmoid (N := Rnum) (- x) = 1 - sigmoid (N := Rnum) x /\
  (sigmoid (N := Rnum) x < sigmoid (N := Rnum) y <-> x < y).
Proof.
  rewrite !sigmoid_R. pose proof (exp_pos (- x)) as H. pose proof (exp_pos (- y)) as Hy. split; [reflexivity|]. split; [|split].
  - split; [apply Rinv_0_lt_compat; lra|]. rewrite <- Rinv_1. apply Rinv_lt_contravar; lra.
  - rewrite Ropp_involutive. assert (E : exp x = / exp (- x)) by (rewrite exp_Ropp, Rinv_inv; reflexivity). rewrite E. req. field. lra.
  - split; intro L.
    + apply Ropp_lt_cancel. apply exp_lt_inv. apply Rnot_le_lt. intro G.
      assert (/ (1 + exp (- y)) <= / (1 + exp (- x))) by (apply Rinv_le_contravar; lra). lra.
    + apply Rinv_lt_contravar; [apply Rmult_lt_0_compat; lra|]. assert (exp (- y) < exp (- x)) by (apply exp_increasing; lra). lra.
Qed.
Lemma expit_R (x : R) : expit (N := Rnum) x = / (1 + exp (- x)).
Proof. unfold expit, none. rn. unfold Rdiv. req. ring. Qed.
Lemma log_logistic_R (x : R) : log_logistic (N := Rnum) x = - ln (1 + exp (- x)).
Proof.
  unfold log_logistic, none, nzero. rn. unfold Rltb. destruct (Rlt_dec 0 x); [reflexivity|].
  pose proof (exp_pos x). replace (1 + exp (- x)) with ((1 + exp x) * exp (- x)).
  - rewrite ln_mult by (try apply exp_pos; lra). rewrite ln_exp. ring.
  - rewrite Rmult_plus_distr_r, <- exp_plus. replace (x + - x) with 0 by ring. rewrite exp_0. ring.
Qed.
Lemma logsumexp_R n (l : list R) : length l = n -> (0 < n)%nat -> logsumexp (N := Rnum) l = ln (Sum n (fun j => exp (entry l j))).
Proof.
  intros Hl Hn. unfold logsumexp. set (m := nmaxl (N := Rnum) l).
  set (e := map (fun v : R => exp (v - m)) l). assert (Le : length e = n) by (unfold e; now rewrite map_length).
  change (ln (nsum (N := Rnum) e) + m = ln (Sum n (fun j => exp (entry l j)))). rewrite (sum_n n e Le).
  rewrite (Sum_ext n (fun i => entry e i) (fun j => exp (entry l j) * exp (- m))).
  - rewrite Sum_scal_r, ln_mult; [rewrite ln_exp; ring|now apply exp_sum_pos|apply exp_pos].
  - intros j Hj. unfold e. rewrite (entry_map (fun v => exp (v - m))) by (rewrite Hl; exact Hj). unfold Rminus. apply exp_plus.
Qed.

(** ** Intercept-only classifiers *)
Lemma count_cons c a y : count c (a :: y) = ((if Nat.eqb c a then 1 else 0) + count c y)%nat.
Proof. unfold count. cbn. now destruct (Nat.eqb c a). Qed.
Lemma nmean_R (l : list R) : nmean (N := Rnum) l = rsum l / INR (length l).
Proof. unfold nmean. rewrite INR_IZR_INZ. reflexivity. Qed.
Lemma sum_bits (y : list nat) : Forall (fun v => (v < 2)%nat) y ->
  rsum (map (fun v => nofnat (N := Rnum) v) y) = INR (count 1 y).
Proof.
  induction 1 as [|a y Ha H IH]; [reflexivity|]. rewrite count_cons, plus_INR. unfold rsum in *. cbn [map fold_right].
  rewrite IH. f_equal. destruct a as [|[|a]]; [reflexivity|reflexivity|lia].
Qed.
Lemma sum_indicator c (y : list nat) :
  rsum (map (fun v => if Nat.eqb v c then none (N := Rnum) else nzero (N := Rnum)) y) = INR (count c y).
Proof.
  induction y as [|a y IH]; [reflexivity|]. rewrite count_cons, plus_INR. unfold rsum in *. cbn [map fold_right].
  rewrite IH. f_equal. rewrite Nat.eqb_sym. now destruct (Nat.eqb c a).
Qed.
Lemma nmin2_R (a b : R) : nmin2 (N := Rnum) a b = Rmin a b.
Proof.
  unfold nmin2. rn. unfold Rltb, Reqb, Rmin. destruct (Rlt_dec b a); destruct (Rle_dec a b); try lra.
  destruct (Req_EM_T b b); [reflexivity|lra].
Qed.
Lemma small_R : small (N := Rnum) = tiny.
Proof. unfold small, none, tiny. change (1 / 10000000000 = / 10000000000). lra. Qed.
Lemma tiny_pos : 0 < tiny < / 2.
Proof. unfold tiny. split; [apply Rinv_0_lt_compat; lra|apply Rinv_lt_contravar; lra]. Qed.

Lemma binary_rate_R (y : list nat) : Forall (fun v => (v < 2)%nat) y ->
  binary_rate (N := Rnum) y = Rmin (Rmax (INR (count 1 y) / INR (length y)) tiny) (1 - tiny).
Proof.
  intro H. unfold binary_rate. rewrite nmin2_R, small_R. f_equal.
  refine (eq_trans (nmax2_R _ _) _). f_equal. refine (eq_trans (nmean_R _) _). rewrite map_length. f_equal. now apply sum_bits.
Qed.

Lemma sigmoid_logit (q : R) : 0 < q < 1 -> sigmoid (N := Rnum) (ln (q / (1 - q))) = q.
Proof.
  intro H. rewrite sigmoid_R, exp_Ropp, exp_ln by (apply Rdiv_lt_0_compat; lra). req. field. lra.
Qed.
Lemma logit_sign (q : R) : 0 < q < 1 -> (0 <= ln (q / (1 - q)) <-> / 2 <= q).
Proof.
  intro H. assert (P : 0 < q / (1 - q)) by (apply Rdiv_lt_0_compat; lra). split; intro L.
  - apply Rnot_lt_le. intro G. assert (q / (1 - q) < 1).
    { apply Rmult_lt_reg_r with (1 - q); [lra|]. unfold Rdiv. rewrite Rmult_assoc, Rinv_l by lra. lra. }
    assert (ln (q / (1 - q)) < ln 1) by (now apply ln_increasing). rewrite ln_1 in *. lra.
  - rewrite <- ln_1. destruct (Req_dec q (/ 2)) as [->|Hne].
    + right. f_equal. field.
    + left. apply ln_increasing; [lra|]. apply Rmult_lt_reg_r with (1 - q); [lra|]. unfold Rdiv. rewrite Rmult_assoc, Rinv_l by lra. lra.
Qed.

Lemma count_01 (y : list nat) : Forall (fun v => (v < 2)%nat) y -> (count 0 y + count 1 y = length y)%nat.
Proof. induction 1 as [|a y Ha H IH]; [reflexivity|]. rewrite !count_cons. cbn [length]. destruct a as [|[|a]]; cbn [Nat.eqb]; lia. Qed.

Lemma binary_only (y : list nat) : y <> [] -> Forall (fun v => (v < 2)%nat) y ->
  let f := INR (count 1 y) / INR (length y) in
  let b := binary_intercept (N := Rnum) y in
  binary_proba (N := Rnum) b = Rmin (Rmax f tiny) (1 - tiny) /\ 0 < binary_proba (N := Rnum) b < 1 /\
  (binary_predict (N := Rnum) b = 1%nat <-> (count 0 y <= count 1 y)%nat) /\
  (binary_predict (N := Rnum) b = 0%nat <-> (count 1 y < count 0 y)%nat).
Proof.
  intros Hy H f b. pose proof tiny_pos as Ht.
  assert (Hn : 0 < INR (length y)) by (apply lt_0_INR; destruct y; [now destruct Hy|cbn; lia]).
  set (q := Rmin (Rmax f tiny) (1 - tiny)).
  assert (Hq : 0 < q < 1).
  { unfold q, Rmin, Rmax. destruct (Rle_dec f tiny); destruct (Rle_dec _ (1 - tiny)); lra. }
  assert (Eb : b = ln (q / (1 - q))).
  { unfold b, binary_intercept. rewrite (binary_rate_R y H). reflexivity. }
  assert (Ep : binary_proba (N := Rnum) b = q) by (unfold binary_proba; rewrite Eb; now apply sigmoid_logit).
  assert (Hs : / 2 <= q <-> (count 0 y <= count 1 y)%nat).
  { transitivity (/ 2 <= f).
    - unfold q, Rmin, Rmax. destruct (Rle_dec f tiny); destruct (Rle_dec _ (1 - tiny)); lra.
    - unfold f. pose proof (count_01 y H) as E. rewrite <- E, plus_INR in *. split; intro L.
      + apply INR_le. apply Rmult_le_compat_r with (r := INR (count 0 y) + INR (count 1 y)) in L; [|lra].
        unfold Rdiv in L. rewrite Rmult_assoc, Rinv_l in L by lra. lra.
      + apply le_INR in L. apply Rmult_le_reg_r with (INR (count 0 y) + INR (count 1 y)); [lra|].
        unfold Rdiv. rewrite Rmult_assoc, Rinv_l by lra. lra. }
  assert (Hd : 0 <= b <-> (count 0 y <= count 1 y)%nat) by (rewrite Eb, (logit_sign q Hq); exact Hs).
  rewrite Ep. split; [reflexivity|]. split; [exact Hq|].
  unfold binary_predict, nzero. rn. unfold Rleb. destruct (Rle_dec 0 b) as [L|L].
  - apply Hd in L. split; split; intro; try reflexivity; try lia; try discriminate.
  - assert (~ (count 0 y <= count 1 y)%nat) by (intro; apply L; now apply Hd). split; split; intro; try reflexivity; try lia; try discriminate.
Qed.

Lemma filter_length_le' {A} (f : A -> bool) l : (length (filter f l) <= length l)%nat.
Proof. induction l; cbn; [lia|]. destruct (f a); cbn; lia. Qed.

(** Several classes. *)
Section Rates.
  Variables (k : nat) (y : list nat).
  Hypothesis Hy : y <> [].
  Hypothesis Hk : Forall (fun v => (v < k)%nat) y.
  Notation n := (length y).
  Definition freq (c : nat) : R := INR (count c y) / INR n.

  Lemma n_pos : 0 < INR n.
  Proof. apply lt_0_INR. destruct y; [now destruct Hy|cbn; lia]. Qed.
  Lemma k_pos : (0 < k)%nat.
  Proof. destruct Hk; [now destruct Hy|lia]. Qed.
  Lemma frequencies_R : frequencies (N := Rnum) k y = map freq (seq 0 k).
  Proof.
    unfold frequencies. apply map_ext. intro c. refine (eq_trans (nmean_R _) _). rewrite map_length. unfold freq. f_equal. apply sum_indicator.
  Qed.
  Lemma freq_zero c : freq c = 0 <-> count c y = 0%nat.
  Proof.
    pose proof n_pos. unfold freq. split; intro H0.
    - apply INR_eq. apply Rmult_integral in H0. destruct H0 as [H0|H0]; [exact H0|]. pose proof (Rinv_0_lt_compat _ H). lra.
    - rewrite H0. change (INR 0) with 0. lra.
  Qed.
  Lemma sum_counts : Sum k (fun c => INR (count c y)) = INR n.
  Proof.
    clear Hy. induction Hk as [|a l Ha H IH].
    - rewrite (Sum_ext k _ (fun _ => 0)) by reflexivity. rewrite Sum_const. cbn. ring.
    - rewrite (Sum_ext k _ (fun c => (if Nat.eqb c a then 1 else 0) + INR (count c l))).
      + rewrite Sum_plus, (IH H). rewrite (Sum_at k a (fun _ => 0) 1 Ha), Sum_const. cbn [length]. rewrite S_INR. lra.
      + intros c Hc. rewrite count_cons, plus_INR. now destruct (Nat.eqb c a).
  Qed.
  Lemma sum_freq : Sum k freq = 1.
  Proof.
    unfold freq, Rdiv. rewrite Sum_scal_r, sum_counts. pose proof n_pos. field. lra.
  Qed.
  Lemma included_R : length (filter (nnonzero (N := Rnum)) (map freq (seq 0 k))) = (k - absent k y)%nat.
  Proof.
    unfold absent. rewrite <- (seq_length k 0) at 2.
    assert (G : forall l, (length (filter (nnonzero (N := Rnum)) (map freq l))
              + length (filter (fun c => Nat.eqb (count c y) 0) l) = length l)%nat).
    { induction l as [|c l IH]; [reflexivity|]. cbn [map filter length].
      assert (E : nnonzero (N := Rnum) (freq c) = negb (Nat.eqb (count c y) 0)).
      { unfold nnonzero, nzero. rn. f_equal. unfold Reqb. destruct (Req_EM_T (freq c) 0) as [Ez|Ez]; destruct (Nat.eqb_spec (count c y) 0) as [Ec|Ec]; auto.
        - apply freq_zero in Ez. contradiction.
        - exfalso. apply Ez. now apply freq_zero. }
      rewrite E. destruct (Nat.eqb (count c y) 0); cbn [negb length]; lia. }
    specialize (G (seq 0 k)). lia.
  Qed.
  Lemma absent_le : (absent k y <= k)%nat.
  Proof. unfold absent. rewrite <- (seq_length k 0) at 2. apply filter_length_le'. Qed.

  Definition rate (c : nat) : R :=
    if Nat.eqb (count c y) 0 then tiny else freq c * (1 - tiny * INR (absent k y)).

  Hypothesis Ht : tiny * INR (absent k y) < 1.
  Lemma class_rates_R : class_rates (N := Rnum) k y = map rate (seq 0 k).
  Proof.
    unfold class_rates. rewrite frequencies_R, included_R. pose proof absent_le as La.
    destruct (Nat.ltb_spec (k - absent k y) k) as [H|H].
    - replace (k - (k - absent k y))%nat with (absent k y) by lia. rewrite !map_map. apply map_ext. intro c.
      unfold rate. rewrite small_R. unfold none, nzero, nofnat. rn. rewrite <- INR_IZR_INZ. unfold Reqb.
      destruct (Nat.eqb_spec (count c y) 0) as [Ec|Ec].
      + apply freq_zero in Ec. rewrite Ec, Rmult_0_l. destruct (Req_EM_T 0 0); [reflexivity|lra].
      + destruct (Req_EM_T _ 0) as [E|E]; [|reflexivity]. exfalso. apply Rmult_integral in E. destruct E as [E|E].
        * now apply freq_zero in E.
        * change (@eq R (1 - tiny * INR (absent k y)) 0) in E. lra.
    - apply map_ext_in. intros c Hc. apply in_seq in Hc. unfold rate.
      assert (A0 : absent k y = 0%nat) by (pose proof k_pos; lia).
      destruct (Nat.eqb_spec (count c y) 0) as [Ec|Ec].
      + exfalso. unfold absent in A0. apply length_zero_iff_nil in A0.
        assert (In c (filter (fun c => Nat.eqb (count c y) 0) (seq 0 k))) by (apply filter_In; split; [apply in_seq; lia|now apply Nat.eqb_eq]).
        rewrite A0 in H0. destruct H0.
      + rewrite A0. cbn. ring.
  Qed.
  Lemma rate_bounds c : (c < k)%nat -> 0 < rate c <= 1.
  Proof.
    intro Hc. pose proof n_pos as Hn. pose proof tiny_pos as Hp. unfold rate.
    assert (La : 0 <= tiny * INR (absent k y)) by (apply Rmult_le_pos; [lra|apply pos_INR]).
    destruct (Nat.eqb_spec (count c y) 0) as [E|E]; [lra|].
    assert (0 < freq c).
    { unfold freq. apply Rdiv_lt_0_compat; [apply lt_0_INR; lia|exact Hn]. }
    assert (freq c <= 1).
    { rewrite <- sum_freq. apply Sum_term; [|exact Hc]. intros j _. unfold freq.
      apply Rmult_le_pos; [apply pos_INR|left; now apply Rinv_0_lt_compat]. }
    split; [apply Rmult_lt_0_compat; lra|]. replace 1 with (1 * 1) by ring. apply Rmult_le_compat; lra.
  Qed.
  Lemma sum_rate : Sum k rate = 1.
  Proof.
    rewrite (Sum_ext k rate (fun c => (if Nat.eqb (count c y) 0 then tiny else 0) + freq c * (1 - tiny * INR (absent k y)))).
    - rewrite Sum_plus, Sum_scal_r, sum_freq.
      assert (E : Sum k (fun c => if Nat.eqb (count c y) 0 then tiny else 0) = tiny * INR (absent k y)); [|rewrite E; ring].
      unfold absent, Sum. generalize (seq 0 k). induction l as [|c l IH]; [cbn; ring|]. cbn [map fold_right filter].
      destruct (Nat.eqb (count c y) 0); [cbn [length]; rewrite S_INR|]; rewrite IH; ring.
    - intros c _. unfold rate. destruct (Nat.eqb_spec (count c y) 0) as [E|E]; [|ring].
      apply freq_zero in E. rewrite E. ring.
  Qed.
  Lemma multi_proba_R : multi_proba (N := Rnum) (multi_intercept (N := Rnum) k y) = map rate (seq 0 k).
  Proof.
    unfold multi_proba, multi_intercept. rewrite class_rates_R. set (m := nmaxl _).
    assert (Le : forall f : nat -> R, length (map f (seq 0 k)) = k) by (intro; now rewrite map_length, seq_length).
    rewrite !map_map. apply list_entry with k; [now rewrite softmax_length, Le|apply Le|]. intros c Hc.
    rewrite softmax_entry by (now rewrite Le). rewrite Le.
    assert (E : forall d, (d < k)%nat -> exp (entry (map (fun x => nsub (n := Rnum) (nln (n := Rnum) (rate x)) m) (seq 0 k)) d) = rate d * exp (- m)).
    { intros d Hd. unfold entry. rewrite nth_map_seq by exact Hd. rn. unfold Rminus. rewrite exp_plus, exp_ln; [reflexivity|]. now apply rate_bounds. }
    rewrite (E c Hc), (Sum_ext k _ (fun d => rate d * exp (- m)) E), Sum_scal_r, sum_rate.
    unfold entry. rewrite nth_map_seq by exact Hc. pose proof (exp_pos (- m)). req. field. lra.
  Qed.
End Rates.

(** [nargmax] finds the first largest entry. *)
Definition first_max (l : list R) (i : nat) : Prop :=
  (i < length l)%nat /\ (forall j, (j < length l)%nat -> entry l j <= entry l i) /\
  (forall j, (j < i)%nat -> entry l j < entry l i).

Lemma argmax_from_R (l : list R) : forall (pre : list R) (best : R) (b : nat),
  first_max pre b -> entry pre b = best ->
  first_max (pre ++ l) (argmax_from (N := Rnum) (length pre) best b l).
Proof.
  induction l as [|v l IH]; intros pre best b F E.
  - cbn [argmax_from]. now rewrite app_nil_r.
  - cbn [argmax_from]. rn. unfold Rleb, Reqb.
    replace (pre ++ v :: l) with ((pre ++ [v]) ++ l) by (now rewrite <- app_assoc).
    replace (S (length pre)) with (length (pre ++ [v])) by (rewrite app_length; cbn; lia).
    destruct F as (F1 & F2 & F3).
    assert (Eb : forall j, (j < length pre)%nat -> entry (pre ++ [v]) j = entry pre j) by (intros; apply app_nth1; assumption).
    assert (Ev : entry (pre ++ [v]) (length pre) = v) by (unfold entry; rewrite app_nth2, Nat.sub_diag by lia; reflexivity).
    assert (Len : length (pre ++ [v]) = S (length pre)) by (rewrite app_length; cbn; lia).
    destruct (Rle_dec v best) as [L|L].
    + apply IH; [|rewrite Eb by exact F1; exact E]. repeat split.
      * rewrite Len. lia.
      * intros j Hj. rewrite Len in Hj. rewrite (Eb b F1). destruct (Nat.eq_dec j (length pre)) as [->|Hne].
        -- rewrite Ev, E. exact L.
        -- rewrite Eb by lia. apply F2. lia.
      * intros j Hj. rewrite !Eb by lia. now apply F3.
    + destruct (Req_EM_T v v) as [_|Hx]; [|now destruct Hx].
      apply IH; [|exact Ev]. repeat split.
      * rewrite Len. lia.
      * intros j Hj. rewrite Len in Hj. rewrite Ev. destruct (Nat.eq_dec j (length pre)) as [->|Hne].
        -- rewrite Ev. lra.
        -- rewrite Eb by lia. specialize (F2 j ltac:(lia)). lra.
      * intros j Hj. rewrite Ev, Eb by lia. specialize (F2 j ltac:(lia)). lra.
Qed.
Lemma nargmax_R (l : list R) : l <> [] -> first_max l (nargmax (N := Rnum) l).
Proof.
  destruct l as [|v l]; [now intros []|]. intros _. unfold nargmax. rn. unfold Reqb.
  destruct (Req_EM_T v v) as [_|Hx]; [|now destruct Hx].
  refine (argmax_from_R l [v] v 0%nat _ eq_refl). split; [cbn; lia|]. split.
  - intros j Hj. cbn in Hj. replace j with 0%nat by lia. lra.
  - intros j Hj. lia.
Qed.

Lemma multi_only (k : nat) (y : list nat) : y <> [] -> Forall (fun v => (v < k)%nat) y -> 2 * (tiny * INR k) < 1 ->
  let b := multi_intercept (N := Rnum) k y in
  let P := multi_proba (N := Rnum) b in
  length P = k /\
  (forall c, (c < k)%nat -> 0 < entry P c <= 1) /\ Sum k (entry P) = 1 /\
  (forall c, (c < k)%nat -> count c y = 0%nat -> entry P c = tiny) /\
  (forall c, (c < k)%nat -> count c y <> 0%nat ->
     entry P c = INR (count c y) / INR (length y) * (1 - tiny * INR (absent k y))) /\
  (let m := multi_predict (N := Rnum) b in
   (m < k)%nat /\ (forall c, (c < k)%nat -> (count c y <= count m y)%nat) /\
   (forall c, (c < m)%nat -> (count c y < count m y)%nat)).
Proof.
  intros Hy Hk Hs b P. pose proof tiny_pos as Hp.
  assert (La : tiny * INR (absent k y) <= tiny * INR k) by (apply Rmult_le_compat_l; [lra|apply le_INR, absent_le]).
  assert (La0 : 0 <= tiny * INR (absent k y)) by (apply Rmult_le_pos; [lra|apply pos_INR]).
  assert (Ht : tiny * INR (absent k y) < 1) by lra.
  pose proof (multi_proba_R k y Hy Hk Ht) as EP. fold b in EP. fold P in EP.
  assert (LP : length P = k) by (rewrite EP, map_length, seq_length; reflexivity).
  assert (EC : forall c, (c < k)%nat -> entry P c = rate k y c) by (intros c Hc; rewrite EP; unfold entry; now rewrite nth_map_seq).
  split; [exact LP|]. split; [intros c Hc; rewrite EC by exact Hc; now apply rate_bounds|].
  split; [rewrite (Sum_ext k _ (rate k y) EC); now apply sum_rate|].
  split; [intros c Hc E; rewrite EC by exact Hc; unfold rate; now rewrite E|].
  split; [intros c Hc E; rewrite EC by exact Hc; unfold rate; destruct (Nat.eqb_spec (count c y) 0); [contradiction|reflexivity]|].
  intro m. pose proof (k_pos k y Hy Hk) as Kp. pose proof (n_pos k y Hy Hk) as Np.
  assert (Lb : length (b : list R) = k).
  { unfold b, multi_intercept. rewrite (class_rates_R k y Hy Hk Ht). now rewrite !map_length, seq_length. }
  assert (Nb : (b : list R) <> []) by (intro E; rewrite E in Lb; cbn in Lb; lia).
  destruct (nargmax_R b Nb) as (F1 & F2 & F3). fold (multi_predict (N := Rnum) b) in F1, F2, F3. fold m in F1, F2, F3.
  rewrite Lb in F1, F2.
  set (M := nmaxl (N := Rnum) (map nln (class_rates k y))).
  assert (Eb : forall c, (c < k)%nat -> entry b c = ln (rate k y c) - M).
  { intros c Hc. unfold b, multi_intercept. fold M. rewrite (class_rates_R k y Hy Hk Ht). unfold entry. rewrite !map_map, nth_map_seq by exact Hc. reflexivity. }
  assert (Rp : forall c, (c < k)%nat -> 0 < rate k y c) by (intros c Hc; now apply rate_bounds).
  assert (R2 : forall c, (c < k)%nat -> rate k y c <= rate k y m).
  { intros c Hc. specialize (F2 c Hc). rewrite !Eb in F2 by assumption. apply Rnot_lt_le. intro G.
    apply ln_increasing in G; [lra|now apply Rp]. }
  assert (R3 : forall c, (c < m)%nat -> rate k y c < rate k y m).
  { intros c Hc. specialize (F3 c Hc). rewrite !Eb in F3 by lia. apply Rnot_le_lt. intro G.
    destruct G as [G|G]; [apply ln_increasing in G; [lra|now apply Rp]|rewrite G in F3; lra]. }
  assert (Cm : count m y <> 0%nat).
  { intro E. assert (Sum k (rate k y) <= Sum k (fun _ => tiny)).
    { apply Sum_le. intros c Hc. specialize (R2 c Hc). unfold rate at 2 in R2. rewrite E in R2. exact R2. }
    rewrite (sum_rate k y Hy Hk), Sum_const in H. rewrite Rmult_comm in H. lra. }
  assert (Em : rate k y m = freq y m * (1 - tiny * INR (absent k y))).
  { unfold rate. destruct (Nat.eqb_spec (count m y) 0); [contradiction|reflexivity]. }
  assert (Inv : 0 < / INR (length y)) by (now apply Rinv_0_lt_compat).
  split; [exact F1|]. split.
  - intros c Hc. destruct (Nat.eq_dec (count c y) 0) as [E|E]; [lia|]. specialize (R2 c Hc). rewrite Em in R2.
    unfold rate in R2. destruct (Nat.eqb_spec (count c y) 0); [contradiction|].
    apply Rmult_le_reg_r in R2; [|lra]. unfold freq, Rdiv in R2. apply Rmult_le_reg_r in R2; [|exact Inv]. now apply INR_le.
  - intros c Hc. destruct (Nat.eq_dec (count c y) 0) as [E|E]; [lia|]. specialize (R3 c Hc). rewrite Em in R3.
    unfold rate in R3. destruct (Nat.eqb_spec (count c y) 0); [contradiction|].
    apply Rmult_lt_reg_r in R3; [|lra]. unfold freq, Rdiv in R3. apply Rmult_lt_reg_r in R3; [|exact Inv]. now apply INR_lt.
Qed.
