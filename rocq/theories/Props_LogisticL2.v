(** L2 logistic fits and fits with every coefficient masked: C94. *)
From Coq Require Import ZArith List Bool Arith Reals Lra Lia.
From Verif Require Import Prelude Num Spec_Rescale Spec_Poisson Spec_Logistic Model_Poisson Model_Logistic Model_Lbfgs Model_LogisticFit
  Spec_LogisticFit Proofs_LogisticL2 Proofs_LogisticL2Ex.
Import ListNotations.
Local Open Scope R_scope.

(** If scipy's optimizer, started at the unmasked entries of the warm start and given the
    penalized loss of these entries with its gradient, is within [delta] of the minimum, so is
    the fit among all models that obey the mask. *)
Theorem C94_binary : forall n p (has : bool) (C tol : R) mi X y sw (mask coef : option (list R)) opt fuel lsfuel fr delta,
  matrix n p X -> (0 < n)%nat -> length y = n -> length sw = n -> some_one p mask ->
  let q := (p + if has then 1 else 0)%nat in
  match coef with Some c => length c = p \/ length c = q | None => True end ->
  free_entries has 1 p (fun _ j => exists m, mask = Some m /\ entry m j = 0) fr ->
  minimizes_from opt (kept fr (map (start_entry (N := Rnum) q coef 0) (seq 0 q)))
    (fun x => logistic_loss n p X (signs y) sw (1 / C) (firstn p (fill fr x)) (entry (fill fr x) p)) delta ->
  exists c b,
    fit_binary (N := Rnum) true has p C tol mi X y sw mask coef opt fuel lsfuel = Some (Fitted [c] [b] None) /\
    length c = p /\ obeys p mask c /\ (has = false -> b = 0) /\
    forall c' b', length c' = p -> obeys p mask c' -> (has = false -> b' = 0) ->
      logistic_loss n p X (signs y) sw (1 / C) c b <= logistic_loss n p X (signs y) sw (1 / C) c' b' + delta.
Proof. exact binary_l2. Qed.
Print Assumptions C94_binary.

(** Several classes.  The start of an intercept is the null model's; without intercepts the
    last feature starts there. *)
Theorem C94_multi : forall n k p (has : bool) (C tol : R) mi X y sw mask coef opt fuel lsfuel fr delta,
  matrix n p X -> (0 < n)%nat -> length y = n -> Forall (fun v => (v < k)%nat) y -> length sw = n -> (0 < p)%nat -> some_one_of k p mask ->
  let q := (p + if has then 1 else 0)%nat in
  warm_rows k p q coef ->
  free_entries has k p (fun c j => exists m, mask = Some m /\ mat m c j = 0) fr ->
  minimizes_from opt (kept fr (starts q k coef (multi_intercept (N := Rnum) k y)))
    (fun x => multi_loss n p q k X (indicators k y) sw (1 / C) (fill fr x)) delta ->
  exists cf b,
    fit_multi (N := Rnum) true has k p C tol mi X y sw mask coef opt fuel lsfuel = Some (Fitted cf b None) /\
    grid k p cf /\ length b = k /\ rows_obey k p mask cf /\ (has = false -> forall c, (c < k)%nat -> entry b c = 0) /\
    forall cf' b', grid k p cf' -> length b' = k -> rows_obey k p mask cf' -> (has = false -> forall c, (c < k)%nat -> entry b' c = 0) ->
      multi_loss n p (S p) k X (indicators k y) sw (1 / C) (packed cf b)
        <= multi_loss n p (S p) k X (indicators k y) sw (1 / C) (packed cf' b') + delta.
Proof. exact multi_l2. Qed.
Print Assumptions C94_multi.

(** With an optimizer that knows the optimum (zero) of two small problems, started at (5, 0)
    and at 7; masked: the second feature, and the feature of the second class. *)
Example C94_ex :
  (exists c b, fit_binary (N := Rnum) true true 2 1 1 100 l2_X [0; 1]%nat [1; 1] (Some [1; 0]) (Some [5; 9]) l2_opt 0 0 = Some (Fitted [c] [b] None) /\
    length c = 2%nat /\ forall c' b', length c' = 2%nat -> obeys 2 (Some [1; 0]) c' ->
    logistic_loss 2 2 l2_X (signs [0; 1]%nat) [1; 1] (1 / 1) c b <= logistic_loss 2 2 l2_X (signs [0; 1]%nat) [1; 1] (1 / 1) c' b' + 0) /\
  kept [true; false; true] (map (start_entry (N := Rnum) 3 (Some [5; 9]) 0) (seq 0 3)) = [5; 0] /\
  (exists cf b, fit_multi (N := Rnum) true false 2 1 1 1 100 [[1]; [1]] [0; 1]%nat [1; 1] (Some [[1]; [0]]) (Some [[7]; [8]]) l2_opt 0 0 = Some (Fitted cf b None) /\
    grid 2 1 cf /\ rows_obey 2 1 (Some [[1]; [0]]) cf).
Proof.
  split; [|split; [reflexivity|]].
  - destruct (C94_binary 2 2 true 1 1 100 l2_X [0; 1]%nat [1; 1] (Some [1; 0]) (Some [5; 9]) l2_opt 0 0 [true; false; true] 0)
      as (c & b & E & L & _ & _ & H); [split; [reflexivity|repeat constructor]|lia|reflexivity|reflexivity| |now left|exact l2_bin_free|exact l2_bin_opt|].
    + split; [split; [reflexivity|]|exists 0%nat; split; [lia|reflexivity]]. intros [|[|j]] Hj; try lia; unfold entry; cbn; auto.
    + exists c, b. split; [exact E|]. split; [exact L|]. intros c' b' L' O'. apply H; [exact L'|exact O'|discriminate].
  - destruct (C94_multi 2 2 1 false 1 1 100 [[1]; [1]] [0; 1]%nat [1; 1] (Some [[1]; [0]]) (Some [[7]; [8]]) l2_opt 0 0 [true; false] 0)
      as (cf & b & E & G & _ & O & _); [split; [reflexivity|repeat constructor]|lia|reflexivity|repeat constructor|reflexivity|lia| | |exact l2_mul_free|exact l2_mul_opt|].
    + split; [split; [split; [reflexivity|repeat constructor]|]|].
      * intros [|[|c]] [|j] Hc Hj; try lia; unfold mat, entry; cbn; auto.
      * intros m E. injection E as <-. exists 0%nat, 0%nat. split; [lia|]. split; [lia|reflexivity].
    + left. split; [reflexivity|repeat constructor].
    + exists cf, b. split; [exact E|]. split; [exact G|exact O].
Qed.

(** A mask without any 1: nothing is optimized, whatever the penalty.  The coefficients are
    zero.  The intercept is the warm start's; without warm start it is 0 for two classes and the
    null model's for several. *)
Theorem C94_binary_all_masked : forall p (l2 has : bool) (C tol : R) mi X y sw (m : list R) (coef : option (list R)) opt fuel lsfuel,
  length m = p -> (forall j, (j < p)%nat -> entry m j = 0) ->
  let q := (p + if has then 1 else 0)%nat in
  match coef with Some c => length c = p \/ length c = q | None => True end ->
  fit_binary (N := Rnum) l2 has p C tol mi X y sw (Some m) coef opt fuel lsfuel
    = Some (Fitted (N := Rnum) [repeat 0 p] [if has then start_entry (N := Rnum) q coef 0 p else 0] None).
Proof. exact binary_all_masked. Qed.
Print Assumptions C94_binary_all_masked.

Theorem C94_multi_all_masked : forall k p (l2 has : bool) (C tol : R) mi X y sw (m : list (list R)) coef opt fuel lsfuel,
  (0 < p)%nat -> grid k p m -> (forall c j, (c < k)%nat -> (j < p)%nat -> mat m c j = 0) ->
  let q := (p + if has then 1 else 0)%nat in
  warm_rows k p q coef ->
  fit_multi (N := Rnum) l2 has k p C tol mi X y sw (Some m) coef opt fuel lsfuel
    = Some (Fitted (N := Rnum) (repeat (repeat 0 p) k)
        (map (fun c => if has then start_entry (N := Rnum) q (option_map (fun r => nth c r []) coef) (entry (multi_intercept (N := Rnum) k y) c) p else 0)
             (seq 0 k)) None).
Proof. exact multi_all_masked. Qed.
Print Assumptions C94_multi_all_masked.

(** Three of four labels are 1, yet the intercept of the binary fit is 0 without a warm start
    and 8 with the warm start (5, 8). *)
Example C94_all_masked_ex : forall opt X,
  fit_binary (N := Rnum) false true 1 1 1 100 X [1; 1; 1; 0]%nat [1; 1; 1; 1] (Some [0]) None opt 0 0 = Some (Fitted (N := Rnum) [[0]] [0] None) /\
  fit_binary (N := Rnum) true true 1 1 1 100 X [1; 1; 1; 0]%nat [1; 1; 1; 1] (Some [0]) (Some [5; 8]) opt 0 0 = Some (Fitted (N := Rnum) [[0]] [8] None).
Proof.
  assert (Z : forall j, (j < 1)%nat -> entry [0] j = 0) by (intros [|j] Hj; [reflexivity|lia]).
  intros opt X. split.
  - exact (C94_binary_all_masked 1 false true 1 1 100 X [1; 1; 1; 0]%nat [1; 1; 1; 1] [0] None opt 0 0 eq_refl Z Logic.I).
  - exact (C94_binary_all_masked 1 true true 1 1 100 X [1; 1; 1; 0]%nat [1; 1; 1; 1] [0] (Some [5; 8]) opt 0 0 eq_refl Z (or_intror eq_refl)).
Qed.
