(** C126 for UoI_L1Logistic, and what C129 says about a single class and about
    fit_intercept=False. *)
From Coq Require Import ZArith String List Bool Arith Lia Reals Lra.
From Verif Require Import Prelude Num Model_Intersection Model_Fit Model_Refit Model_Rescale Model_Poisson Model_Linear Model_Estimation Model_Selection Model_ClassFit
  Spec_Rescale Spec_Poisson Proofs_Poisson Spec_Linear Spec_Estimation Spec_Choice Spec_Units Spec_ClassFit Spec_ClassChoice
  Proofs_ClassFit4 Proofs_ClassFit5 Proofs_ClassTotals.
From Verif Require Model_Logistic Model_Labels Spec_Logistic.
Import ListNotations.
Local Open Scope R_scope.

(** If the intercept is refitted exactly, the probabilities add up to the number of samples of
    the second class for the intercept lowered by [d]; so without standardization they do, and
    with it only if [d] happens to be zero. *)
Theorem C126_classes : forall n p X (y : list Model_Labels.label), matrix n p X -> (0 < n)%nat ->
  forall standardize eps num ts clip metric target (sel_lm : solver_C (N := Rnum)) (est_lm : solver_ml (N := Rnum)) (refit : refitter (N := Rnum)) sel est c b,
  let z := Model_Labels.codes y in
  let Xs := map (base_transform (N := Rnum) standardize true (fit_scaler (columns p X))) X in
  (forall c0, length c0 = p -> matching_intercept n p Xs (map INR z) c0 (refit Xs c0 z)) ->
  class_fit (N := Rnum) standardize true eps num ts clip metric target p sel_lm est_lm refit sel est X y = Ok (c, b) ->
  let d := if standardize then Sum p (fun j => average n (col n X j) * entry c j * (column_scale (N := Rnum) (col n X j) + 1)) else 0 in
  length c = p /\ matching_intercept n p X (map INR z) c (b - d) /\ (matching_intercept n p X (map INR z) c b <-> d = 0).
Proof. exact class_total. Qed.
Print Assumptions C126_classes.

(** Twelve samples, no standardization, a coefficient that is not zero. *)
Example C126_classes_ex clip : exists b,
  class_fit (N := Rnum) false true (1 / 2) 1 [1%Z; 2%Z] clip "acc" 1 2 group_sel group_est (exact_refit 2) [ten_split; ten_four] [ten_split] ten_X (map label ten_z) = Ok ([ln 6 / 2; 0], b) /\
  matching_intercept 12 2 ten_X (map INR ten_z) [ln 6 / 2; 0] b.
Proof.
  destruct (ten_fit clip) as (b & E & _). exists b. split; [exact E|].
  destruct ten_codes as [K _].
  destruct (C126_classes 12 2 ten_X (map label ten_z) ten_matrix ltac:(lia) false (1 / 2) 1%nat [1%Z; 2%Z] clip "acc" 1 group_sel group_est (exact_refit 2) [ten_split; ten_four] [ten_split] [ln 6 / 2; 0] b) as (_ & _ & H).
  - rewrite K. intros c0 _. apply exact_matches; [reflexivity|lia|apply ten_sums; now left].
  - exact E.
  - rewrite K in H. now apply H.
Qed.

(** With standardize=True there is a data set on which they do not add up. *)
Theorem C126_standardized : forall clip, exists c b,
  class_fit (N := Rnum) true true (1 / 2) 1 [1%Z] clip "acc" 0 2 far_sel far_est (exact_refit 2) [far_split] [far_split] far_X far_y = Ok (c, b) /\
  ~ matching_intercept 2 2 far_X (map INR (Model_Labels.codes far_y)) c b.
Proof. exact far_fit. Qed.
Print Assumptions C126_standardized.

(** A response with a single class gives coefficients of zero. *)
Theorem C129_constant : forall n p X (y : list Model_Labels.label), matrix n p X -> (0 < n)%nat -> length (Model_Labels.codes y) = n ->
  forall v standardize has eps num ts clip metric target (sel_lm : solver_C (N := Rnum)) (est_lm : solver_ml (N := Rnum)) (refit : refitter (N := Rnum)) sel est,
  (forall i, (i < n)%nat -> nth i (Model_Labels.codes y) 0%nat = v) ->
  exists b, class_fit (N := Rnum) standardize has eps num ts clip metric target p sel_lm est_lm refit sel est X y = Ok (repeat 0 p, b).
Proof. intros n p X y HX Hn Lz. now apply one_class. Qed.
Print Assumptions C129_constant.

Example C129_constant_ex clip : exists b,
  class_fit (N := Rnum) true true (1 / 2) 1 [1%Z] clip "acc" 0 2 far_sel far_est (exact_refit 2) [far_split] [far_split] far_X [Model_Labels.LInt 7; Model_Labels.LInt 7] = Ok ([0; 0], b).
Proof.
  refine (C129_constant 2 2 far_X _ _ _ _ 0%nat _ _ _ _ _ _ _ _ _ _ _ _ _ _); [split; [reflexivity|repeat constructor]|lia|reflexivity|].
  intros i Hi. destruct i as [|[|i]]; [reflexivity|reflexivity|lia].
Qed.

(** Without fit_intercept the intercept is zero. *)
Theorem C129_no_intercept : forall p X (y : list Model_Labels.label) standardize eps num ts clip metric target (sel_lm : solver_C (N := Rnum)) (est_lm : solver_ml (N := Rnum)) (refit : refitter (N := Rnum)) sel est c b,
  class_fit (N := Rnum) standardize false eps num ts clip metric target p sel_lm est_lm refit sel est X y = Ok (c, b) -> b = 0.
Proof. exact no_intercept. Qed.
Print Assumptions C129_no_intercept.

(** For instance with a single class. *)
Example C129_no_intercept_ex clip :
  class_fit (N := Rnum) true false (1 / 2) 1 [1%Z] clip "acc" 0 2 far_sel far_est (exact_refit 2) [far_split] [far_split] far_X [Model_Labels.LInt 7; Model_Labels.LInt 7] = Ok ([0; 0], 0).
Proof.
  assert (HX : matrix 2 2 far_X) by (split; [reflexivity|repeat constructor]).
  destruct (C129_constant 2 2 far_X [Model_Labels.LInt 7; Model_Labels.LInt 7] HX ltac:(lia) eq_refl 0%nat true false (1 / 2) 1%nat [1%Z] clip "acc" 0 far_sel far_est (exact_refit 2) [far_split] [far_split]) as [b E].
  - intros i Hi. destruct i as [|[|i]]; [reflexivity|reflexivity|lia].
  - rewrite E. pose proof (C129_no_intercept _ _ _ _ _ _ _ _ _ _ _ _ _ _ _ _ _ E) as Q. now rewrite Q.
Qed.
