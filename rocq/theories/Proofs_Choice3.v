(** Concrete data for C121 and C122. *)
From Coq Require Import ZArith String List Bool Arith Lia Reals Lra Psatz Permutation Sorted.
From Verif Require Import Prelude F64 Num Model_Fit Model_Scores Model_Rescale Model_Poisson Model_Linear Model_Estimation
  Spec_Rescale Proofs_Rescale Spec_Poisson Proofs_Poisson Spec_Estimation Proofs_Estimation Proofs_Estimation2 Proofs_Estimation3 Proofs_Estimation4
  Proofs_Estimation5 Spec_Choice Proofs_Choice Proofs_Choice2.
Import ListNotations.
Local Open Scope R_scope.

(** y = 2 * x_0 plus noise that has a small part along x_1 in the training samples. *)
Definition y_noisy : list R := [7/2; 1/2; -5/2; -3/2; 7/2; 1/2; -5/2; -3/2].
(** Least squares for balanced features. *)
Definition ols_balanced (X : list (list R)) (y : list R) : list R * R :=
  (map (fun j => (mat X 0 j * entry y 0 + mat X 1 j * entry y 1 + mat X 2 j * entry y 2 + mat X 3 j * entry y 3) / 4) (seq 0 (length (nth 0 X []))), 0).
Notation noisy_fit mask := (ols_balanced (part two_by_two (fst half_split) mask) (part_y y_noisy (fst half_split))).

Lemma noisy_first : noisy_fit [true; false] = ([2], 0).
Proof. unfold ols_balanced, part, part_y, mat, entry. cbn. f_equal. f_equal. field. Qed.
Lemma noisy_both : noisy_fit [true; true] = ([2; 1/2], 0).
Proof. unfold ols_balanced, part, part_y, mat, entry. cbn. f_equal. f_equal; [field|]. f_equal. field. Qed.
Lemma noisy_ols mask : In mask three_supports -> existsb (fun b => b) mask = true ->
  least_squares true (count (fun b => b) mask) (part two_by_two (fst half_split) mask) (part_y y_noisy (fst half_split)) (noisy_fit mask).
Proof.
  intros [<-|[<-|[<-|[]]]] E; [discriminate| |].
  - rewrite noisy_first. split; [reflexivity|]. split; [discriminate|]. intros [|c [|]] b L _; try discriminate.
    unfold squared_error, eta, Sum, part, part_y, mat, entry. cbn. sq2 (c - 2) b.
  - rewrite noisy_both. split; [reflexivity|]. split; [discriminate|]. intros [|c [|d [|]]] b L _; try discriminate.
    unfold squared_error, eta, Sum, part, part_y, mat, entry. cbn.
    pose proof (Rle_0_sqr (c - 2)) as H1. pose proof (Rle_0_sqr (d - 1/2)) as H2. pose proof (Rle_0_sqr b) as H3. unfold Rsqr in *. nra.
Qed.
Lemma error_none : model_error two_by_two y_noisy (fst half_split) (fst half_split) [false; false] (noisy_fit [false; false]) = 21.
Proof. unfold model_error, distance2, average, Sum, part_y, entry. cbn. field. Qed.
Lemma error_first : model_error two_by_two y_noisy (fst half_split) (fst half_split) [true; false] (noisy_fit [true; false]) = 5.
Proof. rewrite noisy_first. unfold model_error, squared_error, eta, Sum, part, part_y, mat, entry. cbn. field. Qed.
Lemma error_both : model_error two_by_two y_noisy (fst half_split) (fst half_split) [true; true] (noisy_fit [true; true]) = 4.
Proof. rewrite noisy_both. unfold model_error, squared_error, eta, Sum, part, part_y, mat, entry. cbn. field. Qed.

Lemma median_one v m : median_of [v] m -> m = v.
Proof. intros (s & P & _ & ->). apply Permutation_sym, Permutation_length_1_inv in P as ->. reflexivity. Qed.
Lemma ln4 : 0 < ln 4. Proof. rewrite <- ln_1. apply ln_increasing; lra. Qed.
Lemma logs : 4 * ln 5 + ln 4 < 4 * ln 4 + 2 * ln 4 /\ 4 * ln 5 + ln 4 < 4 * ln 21.
Proof.
  assert (P : forall x, 0 < x -> 4 * ln x = ln (x * x * x * x)) by (intros x Hx; rewrite !ln_mult by (repeat apply Rmult_lt_0_compat; assumption); ring).
  rewrite !P by lra. replace (2 * ln 4) with (ln 4 + ln 4) by ring. rewrite <- !ln_mult by lra. split; apply ln_increasing; lra.
Qed.

(** BIC keeps the relevant feature only. *)
Lemma noisy_bic : exists c b,
  regressor_fit (N := Rnum) false true "BIC" 0 2 ols_balanced (fun _ _ => three_supports) [half_split] two_by_two y_noisy = Ok (c, b) /\ c = [2; 0].
Proof.
  destruct (fit_choice true "BIC" 0 8 2 two_by_two y_noisy ols_balanced (fun _ _ => three_supports) [half_split]) as (best & c & b & E & F & Lc & Hm & _).
  - exact matrix_two.
  - reflexivity.
  - cbn. tauto.
  - exists 0%nat, 1%nat. repeat split; try lia. unfold entry. cbn. lra.
  - discriminate.
  - discriminate.
  - intros mask [<-|[<-|[<-|[]]]]; reflexivity.
  - intros sp [<-|[]]. change (scored 0 half_split) with (fst half_split). split; [exact half_train|]. split; [exact half_train|]. split; [discriminate|]. split; [discriminate|].
    intros mask Hmask. split; [intro Em; exact (proj1 (noisy_ols mask Hmask Em))|]. intros _. destruct Hmask as [<-|[<-|[<-|[]]]]; [rewrite error_none|rewrite error_first|rewrite error_both]; lra.
  - exists c, b. split; [exact E|]. inversion F as [|sp e l l' (mask & Hmask & (Le & Ze & Ve) & Hc) F' Esp Eb]. subst. inversion F'. subst.
    change (scored 0 half_split) with (fst half_split) in Hc.
    assert (K : mask = [true; false]).
    { pose proof (Hc [true; false] ltac:(cbn; tauto)) as C. rewrite error_first in C. pose proof logs. pose proof ln4.
      destruct Hmask as [<-|[<-|[<-|[]]]]; [|reflexivity|]; exfalso; [rewrite error_none in C|rewrite error_both in C]; unfold cost, price in C; cbn in C;
        replace (1 + 1 + 1 + 1) with 4 in C by ring; lra. }
    subst mask. rewrite noisy_first in Ve. specialize (Ve eq_refl).
    destruct c as [|c0 [|c1 [|]]]; try discriminate. pose proof (median_one _ _ (Hm 0%nat ltac:(lia))) as M0. pose proof (median_one _ _ (Hm 1%nat ltac:(lia))) as M1.
    rewrite (Ze 1%nat eq_refl) in M1. cbn in Ve. injection Ve as Ve. rewrite Ve in M0. unfold entry in M0, M1. cbn in M0, M1. now rewrite M0, M1.
Qed.
