(** Proofs about swapping the two classes (C128): the penalties, and two groups of samples
    for which the minimizers have a closed form. *)
From Coq Require Import ZArith String List Bool Arith Lia Reals Lra Psatz.
From Verif Require Import Prelude F64 Num Model_Intersection Model_Fit Model_Scores Model_Refit Model_Rescale Model_Poisson Model_Linear Model_Estimation Model_Selection Model_ClassFit
  Proofs_Intersection Spec_Rescale Proofs_Rescale Spec_Poisson Proofs_Poisson Spec_Linear Proofs_Linear
  Spec_Estimation Proofs_Estimation Spec_Choice Spec_Units Proofs_Units3 Spec_ClassFit Proofs_ClassFit Proofs_ClassFit2.
From Verif Require Model_Logistic Model_Labels Spec_Logistic Proofs_Logistic Proofs_LogisticGrid Proofs_LogisticIntercept.
Import ListNotations.
Local Open Scope R_scope.

(** ** Penalties *)
Lemma share_clipped y : Spec_Logistic.tiny <= Spec_Logistic.share y <= 1 - Spec_Logistic.tiny -> Proofs_LogisticGrid.clipped y = Spec_Logistic.share y.
Proof. intro H. unfold Proofs_LogisticGrid.clipped. rewrite Rmax_left by lra. apply Rmin_left. lra. Qed.
Lemma is_max_unique m f A B : Spec_Logistic.is_max m f A -> Spec_Logistic.is_max m f B -> A = B.
Proof. intros (U & j & Hj & EA) (U' & j' & Hj' & EB). pose proof (U j' Hj'). pose proof (U' j Hj). lra. Qed.
Lemma is_max_scale m f k A : 0 <= k -> Spec_Logistic.is_max m f A -> Spec_Logistic.is_max m (fun j => k * f j) (k * A).
Proof. intros Hk (U & j & Hj & ->). split; [intros i Hi; apply Rmult_le_compat_l; [exact Hk|now apply U]|]. now exists j. Qed.

Lemma penalties_swapped n p X (y : list nat) : matrix n p X -> (0 < n)%nat -> (0 < p)%nat -> length y = n -> Forall (fun v => (v < 2)%nat) y ->
  Spec_Logistic.tiny <= Spec_Logistic.share y <= 1 - Spec_Logistic.tiny ->
  (forall j, (j < p)%nat -> Sum n (fun i => mat X i j) = 0) ->
  exists A B, Model_Logistic.alpha_max (N := Rnum) 1 p true X y = Ok A /\ Model_Logistic.alpha_max (N := Rnum) 1 p true X (map other y) = Ok B /\
    (1 - Spec_Logistic.share y) * B = Spec_Logistic.share y * A.
Proof.
  intros HX Hn Hp Ly Hb Hs Hc. pose proof Proofs_Logistic.tiny_pos as T.
  destruct (Proofs_LogisticGrid.alpha_max_binary n p X y HX Hn Ly Hb Hp) as (A & EA & MA).
  destruct (Proofs_LogisticGrid.alpha_max_binary n p X (map other y) HX Hn (eq_trans (map_length _ _) Ly) (codes_swapped y) Hp) as (B & EB & MB).
  exists A, B. split; [exact EA|]. split; [exact EB|].
  assert (Hne : y <> []) by (intros ->; cbn in Ly; lia).
  rewrite (rate_swapped y Hb Hne) in MB. rewrite (share_clipped y Hs) in *. set (s := Spec_Logistic.share y) in *.
  set (g := fun j => Rabs (/ INR n * Sum n (fun i => INR (nth i y 0%nat) * mat X i j))) in *.
  assert (MB' : Spec_Logistic.is_max p (fun j => s * g j) B).
  { destruct MB as (U & j & Hj & E).
    assert (Q : forall i, (i < p)%nat -> (1 - (1 - s)) * Rabs (/ INR n * Sum n (fun i0 => INR (nth i0 (map other y) 0%nat) * mat X i0 i)) = s * g i).
    { intros i Hi. replace (1 - (1 - s)) with s by ring. f_equal. unfold g. rewrite <- Rabs_Ropp. f_equal.
      rewrite (Sum_ext n (fun i0 => INR (nth i0 (map other y) 0%nat) * mat X i0 i) (fun i0 => mat X i0 i - INR (nth i0 y 0%nat) * mat X i0 i)).
      - rewrite Sum_minus, (Hc i Hi). ring.
      - intros r Hr. rewrite (other_at y n r Ly Hr). pose proof (code_lt y Hb r) as L. destruct (nth r y 0%nat) as [|[|?]]; [| |lia]; unfold other; cbn; ring. }
    split; [intros i Hi; rewrite <- (Q i Hi); now apply U|]. exists j. split; [exact Hj|]. rewrite <- (Q j Hj). exact E. }
  apply (is_max_unique p (fun j => s * ((1 - s) * g j))); [|apply is_max_scale; [lra|exact MA]].
  destruct (is_max_scale p (fun j => s * g j) (1 - s) B ltac:(lra) MB') as (U & j & Hj & E).
  split; [intros i Hi; specialize (U i Hi); cbn beta in U; lra|]. exists j. split; [exact Hj|]. cbn beta in E. lra.
Qed.
Lemma grid_swapped n p X (y : list nat) eps num : matrix n p X -> (0 < n)%nat -> (0 < p)%nat -> length y = n -> Forall (fun v => (v < 2)%nat) y ->
  Spec_Logistic.share y = 1 / 2 -> (forall j, (j < p)%nat -> Sum n (fun i => mat X i j) = 0) ->
  class_Cs (N := Rnum) true p eps num X (map other y) = class_Cs (N := Rnum) true p eps num X y.
Proof.
  intros HX Hn Hp Ly Hb Hs Hc. pose proof Proofs_Logistic.tiny_pos as T.
  destruct (penalties_swapped n p X y HX Hn Hp Ly Hb ltac:(lra) Hc) as (A & B & EA & EB & E). rewrite Hs in E.
  unfold class_Cs. rewrite EA, EB. cbn [rmap]. do 2 f_equal. lra.
Qed.

(** ** The logistic loss lies above its tangents *)
Lemma ln_below x : 0 < x -> ln x <= x - 1 /\ (ln x = x - 1 -> x = 1).
Proof.
  intro H. destruct (Req_dec (ln x) 0) as [E|E].
  - assert (x = 1) by (rewrite <- (exp_ln x H), E; apply exp_0). subst x. rewrite ln_1. split; [lra|reflexivity].
  - pose proof (exp_ineq1 (ln x) E) as Q. rewrite exp_ln in Q by exact H. split; [lra|intro; lra].
Qed.
Definition softplus (t : R) : R := ln (1 + exp t).
Lemma softplus_tangent s t : softplus s + sg s * (t - s) <= softplus t /\ (softplus t <= softplus s + sg s * (t - s) -> t = s).
Proof.
  pose proof (sg_pos s) as P. set (q := sg s) in *. set (e := exp (t - s)). assert (He : 0 < e) by apply exp_pos.
  set (w := 1 - q + q * e). assert (Hw : 0 < w) by (unfold w; nra).
  assert (E : softplus t = softplus s + ln w).
  { unfold softplus. pose proof (exp_pos s). rewrite <- ln_mult by lra. f_equal. unfold w, e, q, sg. unfold Rminus at 2. rewrite exp_plus, !exp_Ropp. field. lra. }
  assert (De : ln e = t - s) by apply ln_exp.
  destruct (ln_below (e / w) ltac:(apply Rdiv_lt_0_compat; lra)) as [U1 V1]. destruct (ln_below (/ w) ltac:(apply Rinv_0_lt_compat; lra)) as [U2 V2].
  unfold Rdiv in *. rewrite ln_mult, !ln_Rinv, De in * by (try apply Rinv_0_lt_compat; lra).
  assert (Z : q * (e * / w - 1) + (1 - q) * (/ w - 1) = 0) by (unfold w; field; fold w; lra).
  pose proof (Rmult_le_compat_l q _ _ ltac:(lra) U1) as W1. pose proof (Rmult_le_compat_l (1 - q) _ _ ltac:(lra) U2) as W2.
  rewrite E. split; [lra|]. intro G.
  assert (G2 : - ln w = / w - 1) by (apply (Rmult_eq_reg_l (1 - q)); lra).
  assert (G1 : t - s + - ln w = e * / w - 1) by (apply (Rmult_eq_reg_l q); lra).
  specialize (V2 G2). specialize (V1 G1). rewrite V2 in V1. assert (e = 1) by lra. rewrite H, ln_1 in De. lra.
Qed.

Definition slope n p X (y : list R) (m m' : list R * R) : R :=
  / INR n * Sum n (fun i => (sg (eta p X (fst m) (snd m) i) - entry y i) * (eta p X (fst m') (snd m') i - eta p X (fst m) (snd m) i)).
Definition size p (c : list R) : R := Sum p (fun j => Rabs (entry c j)).
Lemma objective_tangent n p X y lam m m' : (0 < n)%nat ->
  class_objective n p X y lam (fst m) (snd m) + slope n p X y m m' + lam * (size p (fst m') - size p (fst m)) <= class_objective n p X y lam (fst m') (snd m') /\
  (class_objective n p X y lam (fst m') (snd m') <= class_objective n p X y lam (fst m) (snd m) + slope n p X y m m' + lam * (size p (fst m') - size p (fst m)) ->
   forall i, (i < n)%nat -> eta p X (fst m') (snd m') i = eta p X (fst m) (snd m) i).
Proof.
  intro Hn. assert (In0 : 0 < / INR n) by (apply Rinv_0_lt_compat, lt_0_INR; exact Hn).
  set (e := eta p X (fst m) (snd m)). set (e' := eta p X (fst m') (snd m')).
  set (d := fun i => softplus (e' i) - softplus (e i) - sg (e i) * (e' i - e i)).
  assert (D : forall i, 0 <= d i) by (intro i; unfold d; pose proof (proj1 (softplus_tangent (e i) (e' i))); lra).
  assert (Q : class_objective n p X y lam (fst m') (snd m') = class_objective n p X y lam (fst m) (snd m) + slope n p X y m m' + lam * (size p (fst m') - size p (fst m)) + / INR n * Sum n d).
  { unfold class_objective, slope, size. fold e. fold e'.
    rewrite (Sum_ext n (fun i => ln (1 + exp (e' i)) - entry y i * e' i) (fun i => (ln (1 + exp (e i)) - entry y i * e i) - (-1 * ((sg (e i) - entry y i) * (e' i - e i))) - (-1 * d i))).
    - rewrite !Sum_minus, !Sum_scal. ring.
    - intros i _. unfold d, softplus. ring. }
  assert (S0 : 0 <= Sum n d) by (apply Sum_nonneg; intros; apply D).
  pose proof (Rmult_le_pos _ _ (Rlt_le _ _ In0) S0) as S1. rewrite Q. split; [lra|]. intros H i Hi.
  assert (S2 : Sum n d <= 0) by (apply (Rmult_le_reg_l (/ INR n)); [exact In0|lra]).
  pose proof (Sum_one n d i (fun j _ => D j) Hi) as S3. apply (proj2 (softplus_tangent (e i) (e' i))). specialize (D i). unfold d in *. lra.
Qed.
Lemma tangent_minimizer n p X y lam m : (0 < n)%nat -> length (fst m) = p ->
  (forall m', length (fst m') = p -> 0 <= slope n p X y m m' + lam * (size p (fst m') - size p (fst m))) ->
  class_minimizer n p X y lam m /\
  forall m', class_minimizer n p X y lam m' -> slope n p X y m m' + lam * (size p (fst m') - size p (fst m)) = 0 /\
    forall i, (i < n)%nat -> eta p X (fst m') (snd m') i = eta p X (fst m) (snd m) i.
Proof.
  intros Hn L H. split.
  - split; [exact L|]. intros c' b' L'. pose proof (proj1 (objective_tangent n p X y lam m (c', b') Hn)) as T. specialize (H (c', b') L'). cbn [fst snd] in *. lra.
  - intros m' [L' M']. specialize (M' (fst m) (snd m) L). specialize (H m' L'). destruct (objective_tangent n p X y lam m m' Hn) as [T1 T2].
    split; [lra|]. apply T2. lra.
Qed.

(** ** Two groups of samples *)
Section Groups.
  Variables (n p : nat) (X : list (list R)) (y : list R) (w00 w01 w10 w11 lam t u v : R).
  Hypothesis Hn : (0 < n)%nat.
  Hypothesis Hp : (0 < p)%nat.
  Hypothesis HS : forall F : R -> R -> R, Sum n (fun i => F (mat X i 0) (entry y i)) = w00 * F (-1) 0 + w01 * F (-1) 1 + w10 * F 1 0 + w11 * F 1 1.
  Hypothesis Heta : forall c b i, (i < n)%nat -> eta p X c b i = b + mat X i 0 * entry c 0.
  Hypothesis Hsides : exists i i', (i < n)%nat /\ (i' < n)%nat /\ mat X i 0 = -1 /\ mat X i' 0 = 1.
  Hypothesis Hlam : 0 <= lam.
  Hypothesis Ht : -1 <= t <= 1.
  Hypothesis Htc : t * ((v - u) / 2) = Rabs ((v - u) / 2).
  Hypothesis Hu : (w00 + w01) * sg u - w01 = INR n * lam * t / 2.
  Hypothesis Hv : (w10 + w11) * sg v - w11 = - (INR n * lam * t / 2).
  Let c0 := (v - u) / 2.
  Definition group_model : list R * R := (c0 :: repeat 0 (p - 1), (u + v) / 2).
  Lemma group_size : size p (fst group_model) = Rabs c0.
  Proof.
    unfold size, group_model. cbn [fst]. replace p with (S (p - 1)) at 1 by lia. rewrite Sum_shift. cbn [entry nth].
    rewrite (Sum_ext (p - 1) _ (fun _ => 0)); [rewrite Sum_const; unfold entry; cbn; ring|]. intros j _. change (Rabs (entry (repeat 0 (p - 1)) j) = 0). rewrite entry_zeros. apply Rabs_R0.
  Qed.
  Lemma group_length : length (fst group_model) = p.
  Proof. unfold group_model. cbn [fst length]. rewrite repeat_length. lia. Qed.
  Lemma size_first c : Rabs (entry c 0) <= size p c.
  Proof. apply (Sum_one p (fun j => Rabs (entry c j))); [intros; apply Rabs_pos|exact Hp]. Qed.
  Lemma group_slope m' : slope n p X y group_model m' = - lam * t * (entry (fst m') 0 - c0).
  Proof.
    unfold slope. set (c' := entry (fst m') 0). set (b' := snd m').
    pose (F := fun x z => (sg ((u + v) / 2 + x * c0) - z) * (b' + x * c' - ((u + v) / 2 + x * c0))).
    rewrite (Sum_ext n _ (fun i => F (mat X i 0) (entry y i))).
    - rewrite (HS F). unfold F. replace ((u + v) / 2 + -1 * c0) with u by (unfold c0; field). replace ((u + v) / 2 + 1 * c0) with v by (unfold c0; field).
      replace (w00 * ((sg u - 0) * (b' + -1 * c' - u)) + w01 * ((sg u - 1) * (b' + -1 * c' - u)) + w10 * ((sg v - 0) * (b' + 1 * c' - v)) + w11 * ((sg v - 1) * (b' + 1 * c' - v)))
        with (((w00 + w01) * sg u - w01) * (b' - c' - u) + ((w10 + w11) * sg v - w11) * (b' + c' - v)) by ring.
      rewrite Hu, Hv. unfold c0. field. apply not_0_INR. lia.
    - intros i Hi. rewrite !Heta by exact Hi. reflexivity.
  Qed.
  Lemma group_min : class_minimizer n p X y lam group_model /\
    forall m', class_minimizer n p X y lam m' -> entry (fst m') 0 = c0 /\ snd m' = (u + v) / 2 /\ lam * (size p (fst m') - Rabs c0) = 0.
  Proof.
    assert (A : forall c, t * c <= Rabs c) by (intro c; unfold Rabs; destruct (Rcase_abs c); nra).
    destruct (tangent_minimizer n p X y lam group_model Hn group_length) as [M U].
    - intros m' L. rewrite group_slope, group_size. pose proof (size_first (fst m')). pose proof (A (entry (fst m') 0)). unfold c0 in *. rewrite <- Htc.
      replace (- lam * t * (entry (fst m') 0 - (v - u) / 2) + lam * (size p (fst m') - t * ((v - u) / 2))) with (lam * (size p (fst m') - t * entry (fst m') 0)) by ring.
      apply Rmult_le_pos; lra.
    - split; [exact M|]. intros m' M'. destruct (U m' M') as [E H]. destruct Hsides as (i & i' & Hi & Hi' & X0 & X1).
      pose proof (H i Hi) as Q0. pose proof (H i' Hi') as Q1. rewrite !Heta, X0 in Q0 by exact Hi. rewrite !Heta, X1 in Q1 by exact Hi'.
      unfold group_model in Q0, Q1. cbn [fst snd entry nth] in Q0, Q1.
      assert (C : entry (fst m') 0 = c0) by (unfold entry in *; cbn [nth] in *; lra).
      split; [exact C|]. split; [unfold entry in *; cbn [nth] in *; lra|]. rewrite group_slope, group_size, C in E. lra.
  Qed.
  Lemma group_only : p = 1%nat -> only_class_minimizer n p X y lam group_model.
  Proof.
    intro E1. destruct group_min as [M U]. split; [exact M|]. intros [c' b'] M'. destruct (U _ M') as (C & B & _). cbn [fst snd] in *.
    destruct M' as [L _]. cbn [fst] in L. unfold group_model. rewrite E1 in *. destruct c' as [|a [|? ?]]; try discriminate. unfold entry in C. cbn in C. cbn [repeat]. now rewrite C, B.
  Qed.
  Lemma group_clear : 0 < lam -> clear_classes n p X y lam.
  Proof.
    intro Hl. destruct group_min as [M U].
    assert (K : forall m' j, class_minimizer n p X y lam m' -> (j < p)%nat -> entry (fst m') j = entry (fst group_model) j).
    { intros m' j M' Hj. destruct (U m' M') as (C & _ & E). destruct j as [|j]; [unfold group_model; cbn [fst]; exact C|].
      assert (E0 : size p (fst m') = Rabs c0) by (apply Rmult_integral in E; destruct E; lra).
      unfold size in E0. replace p with (S (p - 1)) in E0 by lia. rewrite Sum_shift, C in E0.
      pose proof (Sum_one (p - 1) (fun j => Rabs (entry (fst m') (S j))) j (fun i _ => Rabs_pos _) ltac:(lia)) as Q. cbn beta in Q.
      pose proof (Rabs_pos (entry (fst m') (S j))) as P. assert (Z : Rabs (entry (fst m') (S j)) = 0) by lra.
      change (entry (fst m') (S j) = entry (repeat 0 (p - 1)) j). rewrite (entry_zeros (p - 1) j). destruct (Req_dec (entry (fst m') (S j)) 0) as [G|G]; [exact G|]. now apply Rabs_no_R0 in G. }
    intros m m' Hm Hm' j Hj. rewrite (K m j Hm Hj), (K m' j Hm' Hj). reflexivity.
  Qed.
End Groups.
