(** Concrete cases for the logistic properties. *)
From Coq Require Import ZArith List Bool Arith Reals Lra Lia.
From Verif Require Import Prelude Num Spec_Rescale Model_Poisson Spec_Poisson Model_Logistic Spec_Logistic
  Proofs_Rescale Proofs_Poisson Proofs_PoissonMore Proofs_Logistic Proofs_LogisticGrad Proofs_LogisticGrid Proofs_LogisticIntercept.
Import ListNotations.
Local Open Scope R_scope.

Lemma multi_only_ex : [2; 0; 2]%nat <> [] /\ Forall (fun v => (v < 4)%nat) [2; 0; 2]%nat /\ 2 * (tiny * INR 4) < 1 /\
  absent 4 [2; 0; 2]%nat = 2%nat /\ multi_predict (N := Rnum) (multi_intercept (N := Rnum) 4 [2; 0; 2]%nat) = 2%nat.
Proof.
  assert (H1 : [2; 0; 2]%nat <> []) by discriminate.
  assert (H2 : Forall (fun v => (v < 4)%nat) [2; 0; 2]%nat) by (repeat constructor; lia).
  assert (H3 : 2 * (tiny * INR 4) < 1) by (unfold tiny; cbn [INR]; lra).
  split; [exact H1|]. split; [exact H2|]. split; [exact H3|]. split; [reflexivity|].
  destruct (multi_only 4 [2; 0; 2]%nat H1 H2 H3) as (_ & _ & _ & _ & _ & (M1 & M2 & _)).
  set (m := multi_predict (N := Rnum) (multi_intercept (N := Rnum) 4 [2; 0; 2]%nat)) in *.
  specialize (M2 2%nat ltac:(lia)). destruct m as [|[|[|[|m]]]]; cbn in M2; try lia; reflexivity.
Qed.

Lemma sigmoid_zero : sigmoid (N := Rnum) 0 = / 2.
Proof. rewrite sigmoid_R. rewrite Ropp_0, exp_0. req. lra. Qed.

Lemma multi_ex : matrix 2 2 [[1; 2]; [3; -1]] /\ matrix 2 3 [[1; 0; 0]; [0; 0; 1]] /\
  matrix 3 2 [[1; 1]; [1; 0]; [1; 1]] /\ (forall i, (i < 2)%nat -> Sum 3 (mat [[1; 0; 0]; [0; 0; 1]] i) = 1) /\
  masks 2 3 3 [[1; 1]; [1; 0]; [1; 1]] [1; 2; 3; 4; 5; 6; 7; 8; 9] [1; 2; 3; 4; 0; 6; 7; 8; 9].
Proof.
  split; [split; [reflexivity|repeat constructor]|]. split; [split; [reflexivity|repeat constructor]|].
  split; [split; [reflexivity|repeat constructor]|]. split.
  - intros [|[|i]] Hi; [| |lia]; unfold Sum, mat, entry; cbn; ring.
  - split; [reflexivity|]. intros c j Hc Hj.
    destruct c as [|[|[|c]]]; [| | |lia]; destruct j as [|[|[|j]]]; try lia; unfold coefs, mat, entry; cbn; ring.
Qed.

Lemma alpha_max_ex : matrix 4 1 [[1]; [-1]; [0]; [0]] /\ share [1; 0; 1; 0]%nat = / 2 /\
  alpha_max (N := Rnum) 1 1 true [[1]; [-1]; [0]; [0]] [1; 0; 1; 0]%nat = Ok (/ 8) /\
  null_score 4 [[1]; [-1]; [0]; [0]] [1; 0; 1; 0]%nat 0 = / 4.
Proof.
  assert (HX : matrix 4 1 [[1]; [-1]; [0]; [0]]) by (split; [reflexivity|repeat constructor]).
  assert (Hs : share [1; 0; 1; 0]%nat = / 2) by (unfold share, count; cbn; lra).
  assert (Hb : Forall (fun v => (v < 2)%nat) [1; 0; 1; 0]%nat) by (repeat constructor; lia).
  split; [exact HX|]. split; [exact Hs|]. split.
  - destruct (alpha_max_binary 4 1 [[1]; [-1]; [0]; [0]] [1; 0; 1; 0]%nat HX ltac:(lia) eq_refl Hb ltac:(lia)) as (A & -> & _ & (j & Hj & E)).
    f_equal. rewrite E. assert (j = 0%nat) by lia. subst j. unfold clipped. rewrite Hs. pose proof tiny_pos.
    rewrite Rmax_left, Rmin_left by lra. unfold Sum, mat, entry. cbn [seq map fold_right nth INR].
    rewrite Rabs_right; lra.
  - unfold null_score. rewrite Hs. unfold Sum, mat, entry. cbn [seq map fold_right nth INR]. lra.
Qed.

Lemma refit_ex : snd (fixed_binary (N := Rnum) [0; 0] [0; 1]%nat 0) = 0.
Proof.
  change (snd (fb [0; 0] [0; 1]%nat 0) = 0). rewrite (fb_grad 2 [0; 0] [0; 1]%nat); try reflexivity; try lia.
  - unfold Sum, entry. cbn [seq map fold_right nth INR]. unfold rsig. rewrite !Rplus_0_r, sigmoid_zero. lra.
Qed.

Lemma logistic_ex : matrix 2 2 [[1; 2]; [3; -1]] /\
  fst (logistic_loss_and_grad (N := Rnum) 2 [[1; 2]; [3; -1]] [1; -1] 1 (Some [1; 0]) (Some [1; 2]) [5; 7; 9]) = [5; 0; 9].
Proof.
  split; [split; [reflexivity|repeat constructor]|].
  change ([5 * 1; 7 * 0; 9] = [5; 0; 9]). rewrite Rmult_1_r, Rmult_0_r. reflexivity.
Qed.
