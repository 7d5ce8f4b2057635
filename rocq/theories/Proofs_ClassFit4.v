(** Proofs about swapping the two classes (C128): two data sets with a binary feature. *)
From Coq Require Import ZArith String List Bool Arith Lia Reals Lra Psatz.
From Verif Require Import Prelude F64 Num Model_Intersection Model_Fit Model_Scores Model_Refit Model_Rescale Model_Poisson Model_Linear Model_Estimation Model_Selection Model_ClassFit
  Proofs_Intersection Spec_Rescale Proofs_Rescale Spec_Poisson Proofs_Poisson Spec_Linear Proofs_Linear
  Spec_Estimation Proofs_Estimation Spec_Choice Spec_Units Proofs_Units3 Proofs_CountFit4 Spec_ClassFit Proofs_ClassFit Proofs_ClassFit2 Proofs_ClassFit3.
From Verif Require Model_Logistic Model_Labels Spec_Logistic Proofs_Logistic Proofs_LogisticGrid Proofs_LogisticIntercept.
Import ListNotations.
Local Open Scope R_scope.

Definition logit (q : R) : R := ln (q / (1 - q)).
Lemma sg_logit q : 0 < q < 1 -> sg (logit q) = q.
Proof. intro H. unfold sg, logit. rewrite exp_Ropp, exp_ln by (apply Rdiv_lt_0_compat; lra). field. lra. Qed.
Lemma logit_lt a b : 0 < a -> a < b -> b < 1 -> logit a < logit b.
Proof.
  intros H0 H H1. unfold logit. apply ln_increasing; [apply Rdiv_lt_0_compat; lra|]. apply (Rmult_lt_reg_r ((1 - a) * (1 - b))); [nra|].
  replace (a / (1 - a) * ((1 - a) * (1 - b))) with (a * (1 - b)) by (field; lra). replace (b / (1 - b) * ((1 - a) * (1 - b))) with (b * (1 - a)) by (field; lra). nra.
Qed.
Lemma logit_half : logit (1 / 2) = 0.
Proof. unfold logit. replace (1 / 2 / (1 - 1 / 2)) with 1 by field. apply ln_1. Qed.

Definition minus : list R := [-1; 0].
Definition plus : list R := [1; 0].
Definition label (v : nat) : Model_Labels.label := Model_Labels.LInt (Z.of_nat v).

(** Ten training samples, four of them in class 1, and two test samples. *)
Definition ten_X : list (list R) := [minus; minus; minus; minus; minus; plus; plus; plus; plus; plus; plus; minus].
Definition ten_z : list nat := [1; 0; 0; 0; 0; 1; 1; 1; 0; 0; 1; 1]%nat.
Definition ten_split : list nat * list nat := ([0; 1; 2; 3; 4; 5; 6; 7; 8; 9]%nat, [10; 11]%nat).
Definition ten_four : list nat * list nat := ([0; 1; 5; 8]%nat, [10; 11]%nat).
(** Six training samples, three of them in class 1, two test samples and two others. *)
Definition six_X : list (list R) := [minus; minus; minus; plus; plus; plus; plus; minus; plus; minus].
Definition six_z : list nat := [1; 0; 0; 1; 1; 0; 1; 1; 0; 0]%nat.
Definition six_split : list nat * list nat := ([0; 1; 2; 3; 4; 5]%nat, [6; 7]%nat).
Definition six_four : list nat * list nat := ([0; 1; 3; 5]%nat, [6; 7]%nat).

(** The minimizers for such data. *)
Definition group_lm (X : list (list R)) (y : list R) (lam : R) : list R * R :=
  let p := length (nth 0 X []) in
  if (length y =? 4)%nat then group_model p 0 0
  else
    let m := if (length y =? 6)%nat then group_model p (logit (1 / 3 + lam)) (logit (2 / 3 - lam))
             else group_model p (logit (1 / 5 + lam)) (logit (3 / 5 - lam)) in
    if Req_EM_T (entry y 0) 1 then m else flip m.
Definition group_sel : solver_C (N := Rnum) := fun X y C => group_lm X y (/ C).
Definition group_est : solver_ml (N := Rnum) := fun X y => group_lm X y 0.
Definition exact_refit (p : nat) : refitter (N := Rnum) := fun X c z =>
  match lt_dec 0 (length z), Rle_dec 1 (Sum (length z) (entry (map INR z))), Rle_dec (Sum (length z) (entry (map INR z))) (INR (length z) - 1) with
  | left H, left H1, left H2 => proj1_sig (intercept_exists (length z) p X (map INR z) c H (conj H1 H2))
  | _, _, _ => 0
  end.
Lemma exact_matches n p X c z : length z = n -> (0 < n)%nat -> 1 <= Sum n (entry (map INR z)) <= INR n - 1 ->
  matching_intercept n p X (map INR z) c (exact_refit p X c z).
Proof.
  intros L Hn H. subst n. unfold exact_refit. destruct (lt_dec 0 (length z)); [|lia]. destruct Rle_dec; [|lra]. destruct Rle_dec; [|lra].
  exact (proj2_sig (intercept_exists _ _ _ _ _ _ _)).
Qed.

Ltac sums := unfold eta, Sum, mat, entry; cbn [seq map fold_right nth INR part_y samples part chosen filter length fst snd].
Ltac eta_two c := destruct c as [|? [|? ?]]; sums; ring.

Section Group.
  Variables (n p : nat) (X : list (list R)) (y : list R) (w00 w01 w10 w11 r0 r1 : R).
  Hypothesis Hn : (0 < n)%nat.
  Hypothesis Hp : (0 < p)%nat.
  Hypothesis Ly : length y = n.
  Hypothesis HS : forall F : R -> R -> R, Sum n (fun i => F (mat X i 0) (entry y i)) = w00 * F (-1) 0 + w01 * F (-1) 1 + w10 * F 1 0 + w11 * F 1 1.
  Hypothesis Heta : forall c b i, (i < n)%nat -> eta p X c b i = b + mat X i 0 * entry c 0.
  Hypothesis Hsides : exists i i', (i < n)%nat /\ (i' < n)%nat /\ mat X i 0 = -1 /\ mat X i' 0 = 1.
  Hypothesis H0 : w00 + w01 = INR n / 2.
  Hypothesis H1 : w10 + w11 = INR n / 2.
  Hypothesis R0 : w01 = INR n / 2 * r0.
  Hypothesis R1 : w11 = INR n / 2 * r1.
  Hypothesis Hr : 0 < r0 /\ r0 < r1 /\ r1 < 1.
  Variable lam : R.
  Hypothesis Hlam : 0 <= lam.
  Hypothesis Hsmall : r0 + lam < r1 - lam.
  Let m := group_model p (logit (r0 + lam)) (logit (r1 - lam)).
  Lemma data_facts : -1 <= 1 <= 1 /\ 1 * ((logit (r1 - lam) - logit (r0 + lam)) / 2) = Rabs ((logit (r1 - lam) - logit (r0 + lam)) / 2) /\
    (w00 + w01) * sg (logit (r0 + lam)) - w01 = INR n * lam * 1 / 2 /\ (w10 + w11) * sg (logit (r1 - lam)) - w11 = - (INR n * lam * 1 / 2).
  Proof.
    split; [lra|]. pose proof (logit_lt (r0 + lam) (r1 - lam) ltac:(lra) Hsmall ltac:(lra)). split; [rewrite Rabs_pos_eq; lra|].
    rewrite !sg_logit by lra. rewrite H0, H1, R0, R1. split; field.
  Qed.
  Lemma data_min : class_minimizer n p X y lam m /\ (p = 1%nat -> only_class_minimizer n p X y lam m) /\ (0 < lam -> clear_classes n p X y lam) /\
    class_minimizer n p X (swapped y) lam (flip m).
  Proof.
    destruct data_facts as (F1 & F2 & F3 & F4).
    destruct (group_min n p X y w00 w01 w10 w11 lam 1 _ _ Hn Hp HS Heta Hsides Hlam F1 F2 F3 F4) as [M _]. split; [exact M|].
    split; [exact (group_only n p X y w00 w01 w10 w11 lam 1 _ _ Hn Hp HS Heta Hsides Hlam F1 F2 F3 F4)|].
    split; [exact (group_clear n p X y w00 w01 w10 w11 lam 1 _ _ Hn Hp HS Heta Hsides Hlam F1 F2 F3 F4)|].
    apply minimizer_swapped; [unfold swapped; now rewrite map_length|]. rewrite swapped_twice, flip_twice || rewrite swapped_twice. exact M.
  Qed.
End Group.

(** ** The four samples *)
Definition four_X : list (list R) := [minus; minus; plus; plus].
Definition four_y : list R := [1; 0; 1; 0].
Lemma flip_none : flip (group_model 2 0 0) = group_model 2 0 0.
Proof. unfold flip, group_model, opposite. cbn [fst snd map repeat Nat.sub]. f_equal; [f_equal; [field|f_equal; ring]|field]. Qed.
Lemma four_min lam : 0 < lam -> clear_classes 4 2 four_X four_y lam /\ class_minimizer 4 2 four_X four_y lam (group_model 2 0 0) /\
  class_minimizer 4 2 four_X (swapped four_y) lam (group_model 2 0 0).
Proof.
  intro Hl. assert (HS : forall F : R -> R -> R, Sum 4 (fun i => F (mat four_X i 0) (entry four_y i)) = 1 * F (-1) 0 + 1 * F (-1) 1 + 1 * F 1 0 + 1 * F 1 1).
  { intro F. unfold four_X, four_y, minus, plus. sums. ring. }
  assert (He : forall c b i, (i < 4)%nat -> eta 2 four_X c b i = b + mat four_X i 0 * entry c 0).
  { intros c b i H. unfold four_X, minus, plus. destruct i as [|[|[|[|i]]]]; [| | | |lia]; eta_two c. }
  assert (Hs : exists i i', (i < 4)%nat /\ (i' < 4)%nat /\ mat four_X i 0 = -1 /\ mat four_X i' 0 = 1) by (exists 0%nat, 2%nat; repeat split; lia).
  assert (F2 : 0 * ((0 - 0) / 2) = Rabs ((0 - 0) / 2)) by (replace ((0 - 0) / 2) with 0 by field; rewrite Rabs_R0; ring).
  assert (S0 : sg 0 = 1 / 2) by (rewrite <- logit_half; apply sg_logit; lra).
  assert (F3 : (1 + 1) * sg 0 - 1 = INR 4 * lam * 0 / 2) by (rewrite S0; field).
  assert (F4 : (1 + 1) * sg 0 - 1 = - (INR 4 * lam * 0 / 2)) by (rewrite S0; field).
  pose proof (group_clear 4 2 four_X four_y 1 1 1 1 lam 0 0 0 ltac:(lia) ltac:(lia) HS He Hs ltac:(lra) ltac:(lra) F2 F3 F4 Hl) as C.
  destruct (group_min 4 2 four_X four_y 1 1 1 1 lam 0 0 0 ltac:(lia) ltac:(lia) HS He Hs ltac:(lra) ltac:(lra) F2 F3 F4) as [M _].
  split; [exact C|]. split; [exact M|]. rewrite <- flip_none. apply minimizer_swapped; [reflexivity|]. rewrite swapped_twice. exact M.
Qed.
Lemma four_lm y lam : length y = 4%nat -> group_lm four_X y lam = group_model 2 0 0.
Proof. intro L. unfold group_lm. rewrite L. reflexivity. Qed.

(** ** The training sets *)
Definition cols (p : nat) (X : list (list R)) : list (list R) := map (firstn p) X.
Definition ten_T : list (list R) := [minus; minus; minus; minus; minus; plus; plus; plus; plus; plus].
Definition ten_y : list R := [1; 0; 0; 0; 0; 1; 1; 1; 0; 0].
Definition six_T : list (list R) := [minus; minus; minus; plus; plus; plus].
Definition six_y : list R := [1; 0; 0; 1; 1; 0].
Lemma group_value X y lam m : (length y =? 4)%nat = false -> 
  (if (length y =? 6)%nat then group_model (length (nth 0 X [])) (logit (1 / 3 + lam)) (logit (2 / 3 - lam))
   else group_model (length (nth 0 X [])) (logit (1 / 5 + lam)) (logit (3 / 5 - lam))) = m ->
  (entry y 0 = 1 -> group_lm X y lam = m) /\ (entry y 0 = 0 -> group_lm X y lam = flip m).
Proof. intros E Em. unfold group_lm. rewrite E, Em. split; intro H; destruct (Req_EM_T (entry y 0) 1); try reflexivity; exfalso; lra. Qed.

Lemma ten_min p lam : p = 1%nat \/ p = 2%nat -> 0 <= lam < 1 / 5 ->
  class_minimizer 10 p (cols p ten_T) ten_y lam (group_lm (cols p ten_T) ten_y lam) /\
  (p = 1%nat -> only_class_minimizer 10 p (cols p ten_T) ten_y lam (group_lm (cols p ten_T) ten_y lam)) /\
  (0 < lam -> clear_classes 10 p (cols p ten_T) ten_y lam) /\
  class_minimizer 10 p (cols p ten_T) (swapped ten_y) lam (group_lm (cols p ten_T) (swapped ten_y) lam).
Proof.
  intros Hp Hl.
  assert (I10 : INR 10 = 10) by (cbn; ring).
  assert (D : class_minimizer 10 p (cols p ten_T) ten_y lam (group_model p (logit (1 / 5 + lam)) (logit (3 / 5 - lam))) /\
    (p = 1%nat -> only_class_minimizer 10 p (cols p ten_T) ten_y lam (group_model p (logit (1 / 5 + lam)) (logit (3 / 5 - lam)))) /\
    (0 < lam -> clear_classes 10 p (cols p ten_T) ten_y lam) /\
    class_minimizer 10 p (cols p ten_T) (swapped ten_y) lam (flip (group_model p (logit (1 / 5 + lam)) (logit (3 / 5 - lam))))).
  { apply (data_min 10 p (cols p ten_T) ten_y 4 1 2 3 (1 / 5) (3 / 5)); try (rewrite ?I10; lra); try lia; try reflexivity.
    - intro F. destruct Hp as [-> | ->]; unfold ten_T, ten_y, minus, plus, cols; cbn [map firstn]; sums; ring.
    - intros c b i H. do 10 (destruct i as [|i]; [destruct Hp as [-> | ->]; unfold ten_T, minus, plus, cols; cbn [map firstn]; eta_two c|]). lia.
    - exists 0%nat, 5%nat. destruct Hp as [-> | ->]; repeat split; lia. }
  destruct D as (D1 & D2 & D3 & D4).
  assert (Lp : length (nth 0 (cols p ten_T) []) = p) by (destruct Hp as [-> | ->]; reflexivity).
  destruct (group_value (cols p ten_T) ten_y lam _ eq_refl eq_refl) as [V _]. specialize (V eq_refl).
  destruct (group_value (cols p ten_T) (swapped ten_y) lam _ eq_refl eq_refl) as [_ W]. specialize (W ltac:(unfold swapped, ten_y, entry; cbn; ring)).
  change (length ten_y =? 6)%nat with false in V. change (length (swapped ten_y) =? 6)%nat with false in W. cbv iota in V, W. rewrite Lp in V, W. rewrite V, W.
  exact (conj D1 (conj D2 (conj D3 D4))).
Qed.
Lemma six_min p lam : p = 1%nat \/ p = 2%nat -> 0 <= lam < 1 / 6 ->
  class_minimizer 6 p (cols p six_T) six_y lam (group_lm (cols p six_T) six_y lam) /\
  (p = 1%nat -> only_class_minimizer 6 p (cols p six_T) six_y lam (group_lm (cols p six_T) six_y lam)) /\
  (0 < lam -> clear_classes 6 p (cols p six_T) six_y lam) /\
  class_minimizer 6 p (cols p six_T) (swapped six_y) lam (group_lm (cols p six_T) (swapped six_y) lam).
Proof.
  intros Hp Hl.
  assert (I6 : INR 6 = 6) by (cbn; ring).
  assert (D : class_minimizer 6 p (cols p six_T) six_y lam (group_model p (logit (1 / 3 + lam)) (logit (2 / 3 - lam))) /\
    (p = 1%nat -> only_class_minimizer 6 p (cols p six_T) six_y lam (group_model p (logit (1 / 3 + lam)) (logit (2 / 3 - lam)))) /\
    (0 < lam -> clear_classes 6 p (cols p six_T) six_y lam) /\
    class_minimizer 6 p (cols p six_T) (swapped six_y) lam (flip (group_model p (logit (1 / 3 + lam)) (logit (2 / 3 - lam))))).
  { apply (data_min 6 p (cols p six_T) six_y 2 1 1 2 (1 / 3) (2 / 3)); try (rewrite ?I6; lra); try lia; try reflexivity.
    - intro F. destruct Hp as [-> | ->]; unfold six_T, six_y, minus, plus, cols; cbn [map firstn]; sums; ring.
    - intros c b i H. do 6 (destruct i as [|i]; [destruct Hp as [-> | ->]; unfold six_T, minus, plus, cols; cbn [map firstn]; eta_two c|]). lia.
    - exists 0%nat, 3%nat. destruct Hp as [-> | ->]; repeat split; lia. }
  destruct D as (D1 & D2 & D3 & D4).
  assert (Lp : length (nth 0 (cols p six_T) []) = p) by (destruct Hp as [-> | ->]; reflexivity).
  destruct (group_value (cols p six_T) six_y lam _ eq_refl eq_refl) as [V _]. specialize (V eq_refl).
  destruct (group_value (cols p six_T) (swapped six_y) lam _ eq_refl eq_refl) as [_ W]. specialize (W ltac:(unfold swapped, six_y, entry; cbn; ring)).
  change (length six_y =? 6)%nat with true in V. change (length (swapped six_y) =? 6)%nat with true in W. cbv iota in V, W. rewrite Lp in V, W. rewrite V, W.
  exact (conj D1 (conj D2 (conj D3 D4))).
Qed.
