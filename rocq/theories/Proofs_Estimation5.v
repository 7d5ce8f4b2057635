(** Concrete data for C119 and C120. *)
From Coq Require Import ZArith String List Bool Arith Lia Reals Lra Psatz.
From Verif Require Import Prelude F64 F64Order Num Model_Fit Model_Scores Model_Rescale Model_Poisson Model_Linear Model_Estimation
  Spec_Rescale Proofs_Rescale Spec_Poisson Proofs_Poisson Spec_Estimation Proofs_Estimation Proofs_Estimation2 Proofs_Estimation3 Proofs_Estimation4.
Import ListNotations.
Local Open Scope R_scope.

Ltac sq2 u v := let H := fresh in let K := fresh in pose proof (Rle_0_sqr u) as H; pose proof (Rle_0_sqr v) as K; unfold Rsqr in H, K; nra.

(** Eight samples of two balanced features; the first four are for training. *)
Definition corners : list (list R) := [[1; 1]; [1; -1]; [-1; 1]; [-1; -1]].
Definition two_by_two : list (list R) := corners ++ corners.
Definition half_split : list nat * list nat := ([0; 1; 2; 3], [4; 5; 6; 7])%nat.

Lemma matrix_two : matrix 8 2 two_by_two.
Proof. split; [reflexivity|]. repeat constructor. Qed.
Lemma half_train i : In i (fst half_split) -> (i < 8)%nat.
Proof. cbn. lia. Qed.
Lemma half_test i : In i (snd half_split) -> (i < 8)%nat.
Proof. cbn. lia. Qed.

Lemma corners_identified S rows k : rows = [k; k + 1; k + 2; k + 3]%nat -> (k = 0 \/ k = 4)%nat -> identified 2 true S two_by_two rows.
Proof.
  intros -> Hk c b Lc _ _ HZ j Hj. destruct c as [|c0 [|c1 [|]]]; try discriminate.
  assert (E : forall i, In i [k; k + 1; k + 2; k + 3]%nat -> mat two_by_two i 0 * c0 + (mat two_by_two i 1 * c1 + 0) = - b).
  { intros i Hi. specialize (HZ i Hi). unfold eta, Sum in HZ. cbn [seq map fold_right] in HZ. unfold entry in HZ. cbn [nth] in HZ. lra. }
  pose proof (E k ltac:(cbn; auto)) as E1. pose proof (E (k + 1)%nat ltac:(cbn; auto)) as E2.
  pose proof (E (k + 2)%nat ltac:(cbn; auto)) as E3. pose proof (E (k + 3)%nat ltac:(cbn; auto)) as E4.
  destruct Hk as [-> | ->]; unfold mat, entry in *; cbn in E1, E2, E3, E4; destruct j as [|[|]]; cbn; try lra; lia.
Qed.

(** ** y = 1 + 2 * (first feature) *)
Definition y_exact : list R := [3; 3; -1; -1; 3; 3; -1; -1].
(** Least squares for these training samples and a single feature. *)
Definition ols_exact (X : list (list R)) (y : list R) : list R * R :=
  if Reqb (nth 0 (nth 1 X []) 0) 1 then ([2], 1) else ([0], 1).

Lemma exact_noiseless : noiseless 8 2 two_by_two y_exact [2; 0] 1.
Proof.
  split; [reflexivity|]. split; [reflexivity|]. intros i Hi. unfold eta, Sum, mat, entry.
  do 8 (destruct i as [|i]; [cbn; ring|]). lia.
Qed.
Lemma exact_informative : informative true 8 2 two_by_two [2; 0] [[false; true]; [true; false]] half_split.
Proof.
  split; [discriminate|]. split; [cbn; lia|]. split; [exact half_train|]. split; [exact half_test|]. split.
  - intros mask _. apply (corners_identified _ _ 4); [reflexivity|now right].
  - exists [true; false]. split; [cbn; auto|]. split.
    + intros [|[|j]] Hj NZ; cbn in *; try reflexivity; try lia. now elim NZ.
    + apply (corners_identified _ _ 0); [reflexivity|now left].
Qed.
Lemma exact_ols mask : In mask [[false; true]; [true; false]] ->
  least_squares true (count (fun b => b) mask) (part two_by_two (fst half_split) mask) (part_y y_exact (fst half_split))
    (ols_exact (part two_by_two (fst half_split) mask) (part_y y_exact (fst half_split))).
Proof.
  intros [<-|[<-|[]]]; unfold ols_exact, part, part_y, mat, entry; cbn; unfold Reqb.
  - destruct (Req_EM_T (-1) 1); [lra|]. split; [reflexivity|]. split; [discriminate|].
    intros [|c [|]] b L _; try discriminate. unfold squared_error, eta, Sum, mat, entry. cbn. sq2 c (b - 1).
  - destruct (Req_EM_T 1 1); [|lra]. split; [reflexivity|]. split; [discriminate|].
    intros [|c [|]] b L _; try discriminate. unfold squared_error, eta, Sum, mat, entry. cbn. sq2 (c - 2) (b - 1).
Qed.

(** ** y = a + (first feature), without an intercept in the model *)
Definition y_shift (a : R) : list R := [a + 1; a + 1; a - 1; a - 1; a + 1; a + 1; a - 1; a - 1].
Definition three_supports : list (list bool) := [[false; false]; [true; false]; [true; true]].

Lemma shift_fit a (ols : solver_ls (N := Rnum)) : 1 < a ->
  (forall mask, In mask three_supports -> existsb (fun b => b) mask = true ->
     least_squares false (count (fun b => b) mask) (part two_by_two (fst half_split) mask) (part_y (y_shift a) (fst half_split))
       (ols (part two_by_two (fst half_split) mask) (part_y (y_shift a) (fst half_split)))) ->
  regressor_fit (N := Rnum) false false "r2"%string 1 2 ols (fun _ _ => three_supports) [half_split] two_by_two (y_shift a) = Ok ([0; 0], 0).
Proof.
  intros Ha Hls. apply (fit_zero false 8 2 two_by_two (y_shift a) ols (fun _ _ => three_supports) [half_split] matrix_two); [lia|reflexivity|discriminate| | |].
  - intros mask [<-|[<-|[<-|[]]]]; reflexivity.
  - now left.
  - intros sp [<-|[]]. split; [cbn; lia|]. split; [exact half_train|]. split; [exact half_test|]. split.
    + unfold distance2, average, Sum, entry. cbn. nra.
    + intros mask Hm Em.
      pose proof (Hls mask Hm Em) as (L & H0 & _). specialize (H0 eq_refl).
      change (fst (linear_pre (N := Rnum) false false 2 two_by_two (y_shift a))) with two_by_two.
      change (snd (linear_pre (N := Rnum) false false 2 two_by_two (y_shift a))) with (y_shift a).
      cbv zeta. set (m := ols _ _) in *. clearbody m. split; [exact L|]. destruct m as [c b]. cbn [fst snd] in *.
      destruct Hm as [<-|[<-|[<-|[]]]]; [discriminate| |].
      * destruct c as [|c0 [|]]; cbn in L; try discriminate. rewrite H0.
        unfold squared_error, distance2, average, eta, Sum, mat, entry. cbn. sq2 (c0 - 1) (a - 1).
      * destruct c as [|c0 [|c1 [|]]]; cbn in L; try discriminate. rewrite H0.
        unfold squared_error, distance2, average, eta, Sum, mat, entry. cbn. sq2 (c0 - 1) c1.
Qed.
Lemma shift_errors a : squared_error 2 two_by_two (y_shift a) [0; 0] 0 = 8 * (a * a) + 8 /\
  squared_error 2 two_by_two (y_shift a) [1; 0] 0 = 8 * (a * a).
Proof. split; unfold squared_error, eta, Sum, mat, entry; cbn; ring. Qed.

(** A least-squares solver for these training samples. *)
Definition ols_shift (X : list (list R)) (y : list R) : list R * R :=
  match X with [_; _] :: _ => ([1; 0], 0) | _ => ([1], 0) end.
Lemma shift_ols a mask : In mask three_supports -> existsb (fun b => b) mask = true ->
  least_squares false (count (fun b => b) mask) (part two_by_two (fst half_split) mask) (part_y (y_shift a) (fst half_split))
    (ols_shift (part two_by_two (fst half_split) mask) (part_y (y_shift a) (fst half_split))).
Proof.
  intros [<-|[<-|[<-|[]]]] E; [discriminate| |]; (split; [reflexivity|]; split; [reflexivity|]); intros c b L Hb; rewrite (Hb eq_refl).
  - destruct c as [|c0 [|]]; cbn in L; try discriminate.
    unfold squared_error, eta, Sum, mat, entry. cbn. sq2 (c0 - 1) 0.
  - destruct c as [|c0 [|c1 [|]]]; cbn in L; try discriminate.
    unfold squared_error, eta, Sum, mat, entry. cbn. sq2 (c0 - 1) c1.
Qed.
