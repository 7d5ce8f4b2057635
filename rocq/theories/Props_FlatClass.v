(** C124 for UoI_L1Logistic: features that do not vary (real numbers). *)
From Coq Require Import ZArith String List Bool Arith Lia Reals Lra.
From Verif Require Import Prelude Num Model_Fit Model_Refit Model_Rescale Model_Poisson Model_Linear Model_Estimation Model_Selection Model_ClassFit
  Spec_Rescale Spec_Poisson Spec_Linear Spec_Estimation Spec_Units Spec_Choice Spec_Flat Spec_ClassFit Proofs_ClassFit4 Proofs_ClassFit5 Proofs_FlatClass.
From Verif Require Model_Labels.
Import ListNotations.
Local Open Scope R_scope.

(** UoI_L1Logistic with fit_intercept and two classes.  [Xs] are the features the modules
    get; the selection solver only has to minimize in the bootstraps in which the feature
    does not vary. *)
Theorem C124_logistic : forall standardize metric target n p X (y : list Model_Labels.label) eps num clip ts (sel_lm : solver_C (N := Rnum)) (est_lm : solver_ml (N := Rnum)) (refit : refitter (N := Rnum)) sel est
    (informative : Model_Fit.split -> bool) j,
  let z := Model_Labels.codes y in
  matrix n p X -> length z = n -> (0 < n)%nat -> (j < p)%nat -> est <> [] ->
  (forall sp, In sp sel -> informative sp = false -> (forall i, In i (fst sp) -> (i < n)%nat) /\ flat true X (fst sp) j) ->
  (forall t, In t ts -> (Z.of_nat (length (filter informative sel)) < t)%Z) ->
  let Xs := map (base_transform (N := Rnum) standardize true (fit_scaler (columns p X))) X in
  (forall sp Cs (C : R), In sp sel -> informative sp = false -> class_Cs (N := Rnum) true p eps num Xs z = Ok Cs -> In C Cs ->
     let Xr := samples Xs (fst sp) in let yr := part_y (map INR z) (fst sp) in
     class_minimizer (length (fst sp)) p Xr yr (/ C) (sel_lm Xr yr C)) ->
  (forall Cs mask, class_Cs (N := Rnum) true p eps num Xs z = Ok Cs -> In mask (class_select (N := Rnum) p sel_lm ts Cs sel Xs z) -> nth j mask false = false) /\
  forall c b, class_fit (N := Rnum) standardize true eps num ts clip metric target p sel_lm est_lm refit sel est X y = Ok (c, b) -> entry c j = 0.
Proof. exact logistic_flat. Qed.
Print Assumptions C124_logistic.

(** Twelve samples, of which only the last two differ in the second feature; the solver of
    the example puts it into the model of the second bootstrap. *)
Example C124_ex_logistic : forall clip metric (est_lm : solver_ml (N := Rnum)) (refit : refitter (N := Rnum)),
  (forall mask, In mask (class_select (N := Rnum) 2 wide_sel [2%Z] [12] [ten_split; wide_split] wide_X ten_z) -> nth 1 mask false = false) /\
  forall c b, class_fit (N := Rnum) false true (1 / 2) 1 [2%Z] clip metric 1 2 wide_sel est_lm refit [ten_split; wide_split] [ten_split] wide_X (map label ten_z) = Ok (c, b) -> entry c 1 = 0.
Proof. exact wide_example. Qed.
