(** Refitted intercepts for fixed coefficients. *)
From Coq Require Import ZArith List Bool Arith Reals Lra Lia.
From Verif Require Import Prelude Num Model_Mpi Model_Rescale Spec_Rescale Model_Poisson Spec_Poisson Deriv
  Model_Logistic Spec_Logistic Proofs_Intersection Proofs_Rescale Proofs_Poisson Proofs_PoissonOpt Proofs_PoissonMore
  Proofs_Logistic Proofs_LogisticGrad Proofs_LogisticGrid Proofs_Multinomial Proofs_MultiGrid.
Import ListNotations.
Local Open Scope R_scope.

Section BinaryIntercept.
  Variables (n : nat) (u : list R) (y : list nat).
  Hypothesis Hn : (0 < n)%nat.
  Hypothesis Hu : length u = n.
  Hypothesis Hy : length y = n.
  Hypothesis Hb : Forall (fun v => (v < 2)%nat) y.
  Notation yi i := (INR (nth i y 0%nat)).
  Notation ui i := (entry u i).
  Definition fb (b : R) : R * R := fixed_binary (N := Rnum) u y b.
  Definition nll (b : R) : R := / INR n * Sum n (fun i => ln (1 + exp (ui i + b)) - yi i * (ui i + b)).

  Lemma lab i : (i < n)%nat -> nth i y 0%nat = 0%nat \/ nth i y 0%nat = 1%nat.
  Proof. intro Hi. rewrite Forall_forall in Hb. assert (In (nth i y 0%nat) y) by (apply nth_In; lia). specialize (Hb _ H). lia. Qed.
  Definition rsig : R -> R := sigmoid (N := Rnum).
  Lemma fb_R b : fb b =
    (- rmean (map2 (fun v q => if Nat.eqb v 1 then ln q else ln (1 - q)) y (map (fun v => rsig (v + b)) u)),
     rmean (map (fun v => rsig (v + b)) u) - rmean (floats y)).
  Proof. reflexivity. Qed.
  Lemma sig_value x : rsig x = exp x / (1 + exp x).
  Proof. unfold rsig. rewrite sigmoid_R. pose proof (exp_pos x). rewrite exp_Ropp. field. lra. Qed.
  Lemma fb_loss b : fst (fb b) = nll b.
  Proof.
    rewrite fb_R. cbn [fst]. assert (L1 : length (map (fun v => rsig (v + b)) u) = n) by (now rewrite map_length).
    rewrite (rmean_Sum n) by (now apply length_map2n). unfold nll.
    rewrite (Sum_ext n _ (fun i => (-1) * (ln (1 + exp (ui i + b)) - yi i * (ui i + b)))).
    - rewrite Sum_scal. unfold Rdiv. ring.
    - intros i Hi. unfold entry at 1. rewrite (map2_nth _ _ _ i 0%nat 0 0) by lia.
      fold (entry (map (fun v => rsig (v + b)) u) i). rewrite (entry_mapn (fun v => rsig (v + b)) n) by assumption. rewrite sig_value.
      set (e := ui i + b). pose proof (exp_pos e) as P. destruct (lab i Hi) as [E|E]; rewrite E; cbn [Nat.eqb INR].
      + replace (1 - exp e / (1 + exp e)) with (/ (1 + exp e)) by (field; lra). rewrite ln_Rinv by lra. ring.
      + unfold Rdiv. rewrite ln_mult, ln_Rinv, ln_exp by (try apply Rinv_0_lt_compat; lra). ring.
  Qed.
  Lemma fb_grad b : snd (fb b) = / INR n * Sum n (fun i => rsig (ui i + b) - yi i).
  Proof.
    rewrite fb_R. cbn [snd]. rewrite !(rmean_Sum n) by (unfold floats; now rewrite map_length).
    rewrite Sum_minus. rewrite (Sum_ext n (fun i => entry (map _ u) i) (fun i => rsig (ui i + b))).
    - rewrite (Sum_ext n (fun i => entry (floats y) i) (fun i => yi i)) by (intros; apply entry_floats). unfold Rdiv. ring.
    - intros i Hi. now rewrite (entry_mapn (fun v => rsig (v + b)) n).
  Qed.
  Lemma binary_refit b :
    derivable_pt_lim (fun t => fst (fb t)) b (snd (fb b)) /\
    (snd (fb b) = 0 -> Sum n (fun i => sigmoid (N := Rnum) (ui i + b)) = INR (count 1 y) /\
       forall b', fst (fb b) <= fst (fb b')).
  Proof.
    split.
    - apply (der_ext nll); [intro; symmetry; apply fb_loss|]. rewrite fb_grad. unfold nll. apply der_scal.
      apply der_Sum. intros i Hi. rewrite sig_value. pose proof (exp_pos (ui i + b)) as P.
      assert (De : derivable_pt_lim (fun t => ui i + t) b 1) by (apply (der_val _ _ (0 + 1)); [ring|]; apply der_plus; [apply der_const|apply der_id]).
      apply der_minus.
      + apply (der_val _ _ (/ (1 + exp (ui i + b)) * (0 + exp (ui i + b) * 1))); [field; lra|].
        apply (der_ln (fun t => 1 + exp (ui i + t))); [lra|]. apply der_plus; [apply der_const|]. now apply (der_exp (fun t => ui i + t)).
      + apply (der_val _ _ (yi i * 1)); [ring|]. now apply der_scal.
    - intro Z. rewrite fb_grad in Z. assert (Hn' : 0 < INR n) by (apply lt_0_INR; lia). pose proof (Rinv_0_lt_compat _ Hn') as Hi'.
      apply Rmult_integral in Z. destruct Z as [Z|Z]; [lra|].
      assert (Z' : Sum n (fun i => rsig (ui i + b)) = INR (count 1 y)).
      { rewrite Sum_minus in Z. rewrite (sum_labels n y Hy Hb) in Z. lra. }
      split; [exact Z'|]. intro b'. rewrite !fb_loss. unfold nll. apply Rmult_le_compat_l; [lra|].
      assert (T : Sum n (fun i => ln (1 + exp (ui i + b)) - yi i * (ui i + b)) + Sum n (fun i => (rsig (ui i + b) - yi i) * (b' - b))
                  <= Sum n (fun i => ln (1 + exp (ui i + b')) - yi i * (ui i + b'))).
      { rewrite <- Sum_plus. apply Sum_le. intros i Hi. rewrite sig_value. pose proof (softplus_tangent (ui i + b) (ui i + b')) as T.
        replace (ui i + b' - (ui i + b)) with (b' - b) in T by ring. lra. }
      rewrite Sum_scal_r, Z in T. lra.
  Qed.
End BinaryIntercept.

(** Tangent of the log-sum-exp. *)
Lemma lse_tangent k (u v : nat -> R) : (0 < k)%nat ->
  ln (Sum k (fun c => exp (u c))) + Sum k (fun c => exp (u c) / Sum k (fun d => exp (u d)) * (v c - u c)) <= ln (Sum k (fun c => exp (v c))).
Proof.
  intro Hk. set (T := Sum k (fun d => exp (u d))). assert (HT : 0 < T) by (now apply exp_sum_pos).
  set (q := fun c => exp (u c) / T). assert (Q1 : Sum k q = 1) by (unfold q, Rdiv; rewrite Sum_scal_r; fold T; field; lra).
  set (D := Sum k (fun c => exp (u c) / T * (v c - u c))).
  assert (H : T * exp D <= Sum k (fun c => exp (v c))).
  { replace (Sum k (fun c => exp (v c))) with (T * exp D * Sum k (fun c => q c * exp (v c - u c - D))).
    - rewrite <- (Rmult_1_r (T * exp D)) at 1. pose proof (exp_pos D). apply Rmult_le_compat_l; [left; apply Rmult_lt_0_compat; lra|].
      assert (S1 : Sum k (fun c => q c * (1 + (v c - u c - D))) = 1).
      { rewrite (Sum_ext k _ (fun c => q c + (q c * (v c - u c) - q c * D))) by (intros; ring).
        rewrite Sum_plus, Sum_minus, Sum_scal_r, Q1. fold D. change (Sum k (fun c => q c * (v c - u c))) with D. ring. }
      rewrite <- S1. apply Sum_le. intros c Hc. apply Rmult_le_compat_l; [left; apply Rdiv_lt_0_compat; [apply exp_pos|exact HT]|apply exp_ineq1_le].
    - rewrite <- Sum_scal. apply Sum_ext. intros c Hc. unfold q, Rminus. rewrite !exp_plus, !exp_Ropp.
      pose proof (exp_pos D). pose proof (exp_pos (u c)). field. lra. }
  rewrite <- (ln_exp D), <- ln_mult by (try apply exp_pos; exact HT).
  destruct H as [H|H]; [left; apply ln_increasing; [apply Rmult_lt_0_compat; [exact HT|apply exp_pos]|exact H]|rewrite H; now right].
Qed.

Section MultiIntercept.
  Variables (n k : nat) (U : list (list R)) (y : list nat).
  Hypothesis Hn : (0 < n)%nat.
  Hypothesis Hk : (0 < k)%nat.
  Hypothesis HU : matrix n k U.
  Hypothesis Hy : length y = n.
  Hypothesis Hl : Forall (fun v => (v < k)%nat) y.
  Notation lb i := (nth i y 0%nat).
  Definition rsm : list R -> list R := softmax (N := Rnum).
  Definition fm (s : list R) : R * list R := fixed_multi (N := Rnum) k U y s.
  Definition rpy (s : list R) : list (list R) := map (fun r => rsm (map2 Rplus r (1 :: s))) U.
  Definition rd (v : nat) (q : list R) : list R :=
    match v with
    | O => map Ropp (tl q)
    | S v' => map2 Rminus (map (fun c => if Nat.eqb c v' then 1 else 0) (seq 0 (k - 1))) (tl q)
    end.
  Lemma fm_R s : fm s =
    (- rmean (map2 (fun v q => ln (nth v q 0)) y (rpy s)),
     fold_left (fun acc vq => map2 Rminus acc (map (fun u => u / IZR (Z.of_nat (length y))) (rd (fst vq) (snd vq)))) (combine y (rpy s)) (repeat 0 (k - 1))).
  Proof. reflexivity. Qed.

  (** Score of class [c] for sample [i] with intercepts [1 :: s]. *)
  Definition us (s : list R) (i c : nat) : R := mat U i c + entry (1 :: s) c.
  Definition pr (s : list R) (i c : nat) : R := exp (us s i c) / Sum k (fun d => exp (us s i d)).
  Definition mnll (s : list R) : R := / INR n * Sum n (fun i => ln (Sum k (fun d => exp (us s i d))) - us s i (lb i)).

  Lemma lb_lt i : (i < n)%nat -> (lb i < k)%nat.
  Proof. intro Hi. rewrite Forall_forall in Hl. apply Hl, nth_In. lia. Qed.
  Lemma py_len s : length (rpy s) = n.
  Proof. unfold rpy. rewrite map_length. apply HU. Qed.
  Lemma softmax_row (b : list R) i : length b = k -> (i < n)%nat -> length (rsm (map2 Rplus (nth i U []) b)) = k /\
    forall c, (c < k)%nat -> entry (rsm (map2 Rplus (nth i U []) b)) c
       = exp (mat U i c + entry b c) / Sum k (fun d => exp (mat U i d + entry b d)).
  Proof.
    intros Lb Hi. assert (Lr : length (nth i U []) = k) by (apply nth_len; [apply HU|]; replace (length U) with n; [exact Hi|symmetry; apply HU]).
    assert (L : length (map2 Rplus (nth i U []) b) = k) by (now apply length_map2n).
    unfold rsm. split; [now rewrite softmax_length|]. intros c Hc. rewrite softmax_entry by (now rewrite L). rewrite L.
    assert (E : forall d, (d < k)%nat -> entry (map2 Rplus (nth i U []) b) d = mat U i d + entry b d) by (intros; now apply (entry_map2n Rplus k)).
    rewrite E by exact Hc. f_equal. apply Sum_ext. intros d Hd. now rewrite E.
  Qed.
  Lemma py_row s i : length s = (k - 1)%nat -> (i < n)%nat -> length (nth i (rpy s) []) = k /\
    forall c, (c < k)%nat -> entry (nth i (rpy s) []) c = pr s i c.
  Proof.
    intros Ls Hi. unfold rpy. rewrite (nth_mapd _ U i []) by (replace (length U) with n; [exact Hi|symmetry; apply HU]).
    apply softmax_row; [cbn; lia|exact Hi].
  Qed.
  Lemma us_pos s i : 0 < Sum k (fun d => exp (us s i d)).
  Proof. now apply exp_sum_pos. Qed.

  Lemma fm_loss s : length s = (k - 1)%nat -> fst (fm s) = mnll s.
  Proof.
    intro Ls. rewrite fm_R. cbn [fst]. pose proof (py_len s) as Lp. rewrite (rmean_Sum n) by (now apply length_map2n). unfold mnll.
    rewrite (Sum_ext n _ (fun i => (-1) * (ln (Sum k (fun d => exp (us s i d))) - us s i (lb i)))).
    - rewrite Sum_scal. unfold Rdiv. ring.
    - intros i Hi. unfold entry at 1. rewrite (map2_nth _ _ _ i 0%nat [] 0) by lia. destruct (py_row s i Ls Hi) as [L E].
      fold (entry (nth i (rpy s) []) (lb i)). rewrite E by (now apply lb_lt). unfold pr, Rdiv.
      pose proof (us_pos s i). rewrite ln_mult, ln_Rinv, ln_exp by (try apply Rinv_0_lt_compat; try apply exp_pos; assumption). ring.
  Qed.

  Lemma rd_entry v q j : (v < k)%nat -> length q = k -> (j < k - 1)%nat -> length (rd v q) = (k - 1)%nat /\ entry (rd v q) j = ind v (S j) - entry q (S j).
  Proof.
    intros Hv Lq Hj. assert (Lt : length (tl q) = (k - 1)%nat) by (destruct q; cbn in *; lia).
    assert (Et : entry (tl q) j = entry q (S j)) by (destruct q; [cbn in Lq; lia|reflexivity]).
    unfold rd. destruct v as [|v].
    - split; [now rewrite map_length|]. rewrite (entry_mapn Ropp (k - 1)) by assumption. rewrite Et. unfold ind. cbn. ring.
    - assert (Lm : length (map (fun c => if Nat.eqb c v then 1 else 0) (seq 0 (k - 1))) = (k - 1)%nat) by (now rewrite map_length, seq_length).
      split; [now apply length_map2n|]. rewrite (entry_map2n Rminus (k - 1)) by assumption. rewrite Et. f_equal.
      unfold entry. rewrite nth_map_seq by exact Hj. unfold ind. cbn [Nat.eqb]. now rewrite Nat.eqb_sym.
  Qed.
  Lemma fold_entry (L : list (nat * list R)) (h : R) j : (j < k - 1)%nat -> Forall (fun vq => (fst vq < k)%nat /\ length (snd vq) = k) L ->
    forall acc, length acc = (k - 1)%nat ->
    length (fold_left (fun acc vq => map2 Rminus acc (map (fun u => u / h) (rd (fst vq) (snd vq)))) L acc) = (k - 1)%nat /\
    entry (fold_left (fun acc vq => map2 Rminus acc (map (fun u => u / h) (rd (fst vq) (snd vq)))) L acc) j
    = entry acc j + Sum (length L) (fun i => (entry (snd (nth i L (0%nat, []))) (S j) - ind (fst (nth i L (0%nat, []))) (S j)) / h).
  Proof.
    intros Hj F. induction F as [|vq L [Hv Hq] F IH]; intros acc La.
    - cbn [fold_left length]. rewrite Sum_0. split; [exact La|ring].
    - cbn [fold_left length]. destruct (rd_entry (fst vq) (snd vq) j Hv Hq Hj) as [Lr Er].
      destruct (IH (map2 Rminus acc (map (fun u => u / h) (rd (fst vq) (snd vq))))) as [I1 I2].
      { apply length_map2n; [exact La|now rewrite map_length]. }
      split; [exact I1|]. rewrite I2. rewrite Sum_shift. cbn [nth].
      rewrite (entry_map2n Rminus (k - 1)) by (rewrite ?map_length; assumption).
      rewrite (entry_mapn (fun u => u / h) (k - 1)) by assumption. rewrite Er. unfold Rdiv. ring.
  Qed.
  Lemma fm_grad s j : length s = (k - 1)%nat -> (j < k - 1)%nat -> length (snd (fm s)) = (k - 1)%nat /\
    entry (snd (fm s)) j = / INR n * Sum n (fun i => pr s i (S j) - ind (lb i) (S j)).
  Proof.
    intros Ls Hj. rewrite fm_R. cbn [snd]. rewrite Hy, <- INR_IZR_INZ. pose proof (py_len s) as Lp.
    assert (Lc : length (combine y (rpy s)) = n) by (rewrite combine_length; lia).
    assert (Nc : forall i, (i < n)%nat -> nth i (combine y (rpy s)) (0%nat, []) = (lb i, nth i (rpy s) [])) by (intros; apply combine_nth; lia).
    assert (F : Forall (fun vq => (fst vq < k)%nat /\ length (snd vq) = k) (combine y (rpy s))).
    { apply Forall_forall. intros vq Hv. apply (In_nth _ _ (0%nat, [])) in Hv. destruct Hv as (i & Hi & <-). rewrite Lc in Hi. rewrite Nc by exact Hi.
      cbn [fst snd]. split; [now apply lb_lt|]. now apply py_row. }
    destruct (fold_entry (combine y (rpy s)) (INR n) j Hj F (repeat 0 (k - 1)) (repeat_length _ _)) as [F1 F2].
    split; [exact F1|]. rewrite F2, Lc, entry_zeros, Rplus_0_l. rewrite <- Sum_scal. apply Sum_ext. intros i Hi. rewrite Nc by exact Hi. cbn [fst snd].
    destruct (py_row s i Ls Hi) as [_ E]. rewrite E by lia. unfold Rdiv. ring.
  Qed.

  Lemma multi_refit_derivative s j : length s = (k - 1)%nat -> (j < k - 1)%nat ->
    derivable_pt_lim (fun t => fst (fm (upd s j t))) (entry s j) (entry (snd (fm s)) j).
  Proof.
    intros Ls Hj. destruct (fm_grad s j Ls Hj) as [_ ->].
    assert (Lu : forall t, length (upd s j t) = (k - 1)%nat) by (intro; rewrite length_upd; lia).
    assert (Eu : forall t c, entry (1 :: upd s j t) c = if Nat.eqb c (S j) then t else entry (1 :: s) c).
    { intros t [|c]; [reflexivity|]. change (entry (upd s j t) c = if Nat.eqb c j then t else entry s c). apply entry_upd. lia. }
    apply (der_ext (fun t => / INR n * Sum n (fun i => ln (Sum k (fun d => exp (mat U i d + (if Nat.eqb d (S j) then t else entry (1 :: s) d))))
                       - (mat U i (lb i) + (if Nat.eqb (lb i) (S j) then t else entry (1 :: s) (lb i)))))).
    { intro t. rewrite fm_loss by apply Lu. unfold mnll, us. f_equal. apply Sum_ext. intros i Hi. rewrite Eu. f_equal. f_equal. apply Sum_ext. intros d Hd. now rewrite Eu. }
    apply der_scal. apply der_Sum. intros i Hi.
    assert (E0 : forall d, mat U i d + (if Nat.eqb d (S j) then entry s j else entry (1 :: s) d) = us s i d).
    { intro d. unfold us. f_equal. destruct (Nat.eqb_spec d (S j)); [now subst|reflexivity]. }
    assert (De : forall d, derivable_pt_lim (fun t => mat U i d + (if Nat.eqb d (S j) then t else entry (1 :: s) d)) (entry s j) (ind d (S j))).
    { intro d. unfold ind. apply (der_val _ _ (0 + (if Nat.eqb d (S j) then 1 else 0))); [ring|]. apply der_plus; [apply der_const|].
      destruct (Nat.eqb d (S j)); [apply der_id|apply der_const]. }
    apply der_minus; [|apply De].
    eapply der_val; [|apply (der_ln (fun t => Sum k (fun d => exp (mat U i d + (if Nat.eqb d (S j) then t else entry (1 :: s) d)))));
      [|apply (der_Sum k (fun d t => exp (mat U i d + (if Nat.eqb d (S j) then t else entry (1 :: s) d)))); intros d Hd;
        apply (der_exp (fun t => mat U i d + (if Nat.eqb d (S j) then t else entry (1 :: s) d))), De]].
    - cbv beta. rewrite (Sum_ext k (fun d => exp _) (fun d => exp (us s i d))) by (intros; now rewrite E0).
      unfold pr, Rdiv. rewrite (Rmult_comm (exp _)). f_equal.
      rewrite (Sum_ext k _ (fun d => if Nat.eqb d (S j) then exp (us s i (S j)) else (fun _ => 0) d)).
      + rewrite Sum_at by lia. rewrite Sum_const. ring.
      + intros d Hd. rewrite E0. unfold ind. destruct (Nat.eqb_spec d (S j)); [subst; ring|ring].
    - cbv beta. rewrite (Sum_ext k _ (fun d => exp (us s i d))) by (intros; now rewrite E0). apply us_pos.
  Qed.

  Lemma multi_refit_stationary s : length s = (k - 1)%nat -> (forall j, (j < k - 1)%nat -> entry (snd (fm s)) j = 0) ->
    (forall c, (c < k)%nat -> Sum n (fun i => entry (softmax (N := Rnum) (map2 Rplus (nth i U []) (fixed_multi_result (N := Rnum) s))) c) = INR (count c y)) /\
    (forall s', length s' = (k - 1)%nat -> fst (fm s) <= fst (fm s')).
  Proof.
    intros Ls Z. assert (Hn' : 0 < INR n) by (apply lt_0_INR; lia). pose proof (Rinv_0_lt_compat _ Hn') as Hi'.
    assert (Z1 : forall c, (0 < c < k)%nat -> Sum n (fun i => pr s i c) = INR (count c y)).
    { intros [|j] Hj; [lia|]. specialize (Z j ltac:(lia)). destruct (fm_grad s j Ls ltac:(lia)) as [_ E]. rewrite E in Z.
      apply Rmult_integral in Z. destruct Z as [Z|Z]; [lra|]. rewrite Sum_minus, (sum_ind y n (S j) Hy) in Z. lra. }
    assert (P1 : forall i, Sum k (fun c => pr s i c) = 1).
    { intro i. unfold pr, Rdiv. rewrite Sum_scal_r. pose proof (us_pos s i). field. lra. }
    assert (Z0 : forall c, (c < k)%nat -> Sum n (fun i => pr s i c) = INR (count c y)).
    { intros c Hc. destruct (Nat.eq_dec c 0) as [->|Hne]; [|apply Z1; lia].
      assert (T1 : Sum k (fun c => Sum n (fun i => pr s i c)) = INR n).
      { rewrite <- Sum_swap. rewrite (Sum_ext n _ (fun _ => 1)) by (intros; apply P1). rewrite Sum_const. ring. }
      assert (T2 : Sum k (fun c => INR (count c y)) = INR n) by (rewrite <- Hy; now apply sum_counts).
      assert (D : Sum k (fun c => Sum n (fun i => pr s i c) - INR (count c y)) = 0) by (rewrite Sum_minus; lra).
      rewrite (Sum_ext k _ (fun c => if Nat.eqb c 0 then Sum n (fun i => pr s i 0%nat) - INR (count 0 y) else (fun _ => 0) c)) in D.
      - rewrite Sum_at in D by exact Hk. rewrite Sum_const in D. lra.
      - intros d Hd. destruct (Nat.eqb_spec d 0) as [->|Hd0]; [reflexivity|]. rewrite Z1 by lia. ring. }
    split.
    - intros c Hc. rewrite <- (Z0 c Hc). apply Sum_ext. intros i Hi. set (m := nmaxl (N := Rnum) (1 :: s)).
      assert (Lm : length (fixed_multi_result (N := Rnum) s) = k) by (unfold fixed_multi_result; rewrite map_length; cbn; rr; lia).
      assert (Em : forall d, (d < k)%nat -> entry (fixed_multi_result (N := Rnum) s) d = entry (1 :: s) d - m).
      { intros d Hd. exact (entry_mapn (fun v => v - m) k (1 :: s) d ltac:(cbn; lia) Hd). }
      destruct (softmax_row (fixed_multi_result (N := Rnum) s) i Lm Hi) as [_ E]. unfold rsm in E. rewrite E by exact Hc. clear E.
      assert (Es : forall d, (d < k)%nat -> exp (mat U i d + entry (fixed_multi_result (N := Rnum) s) d) = exp (us s i d) * exp (- m)).
      { intros d Hd. rewrite Em by exact Hd. rewrite <- exp_plus. f_equal. unfold us. ring. }
      rewrite Es by exact Hc. rewrite (Sum_ext k _ (fun d => exp (us s i d) * exp (- m)) Es), Sum_scal_r. unfold pr.
      pose proof (us_pos s i). pose proof (exp_pos (- m)). field. lra.
    - intros s' Ls'. rewrite !fm_loss by assumption. unfold mnll. apply Rmult_le_compat_l; [lra|].
      assert (T : Sum n (fun i => ln (Sum k (fun d => exp (us s i d))) - us s i (lb i))
                  + Sum n (fun i => Sum k (fun c => (pr s i c - ind (lb i) c) * (entry (1 :: s') c - entry (1 :: s) c)))
                  <= Sum n (fun i => ln (Sum k (fun d => exp (us s' i d))) - us s' i (lb i))).
      { rewrite <- Sum_plus. apply Sum_le. intros i Hi. pose proof (lse_tangent k (us s i) (us s' i) Hk) as T.
        rewrite (Sum_ext k (fun c => (pr s i c - ind (lb i) c) * _)
          (fun c => pr s i c * (us s' i c - us s i c) - (if Nat.eqb c (lb i) then us s' i (lb i) - us s i (lb i) else (fun _ => 0) c))).
        - rewrite Sum_minus, Sum_at by (now apply lb_lt). rewrite Sum_const. unfold pr. lra.
        - intros c Hc. unfold ind, us. rewrite (Nat.eqb_sym (lb i) c). destruct (Nat.eqb_spec c (lb i)) as [->|]; ring. }
      rewrite Sum_swap in T. rewrite (Sum_zero k) in T; [lra|]. intros c Hc. rewrite Sum_scal_r, Sum_minus, (Z0 c Hc), (sum_ind y n c Hy). ring.
  Qed.
End MultiIntercept.
