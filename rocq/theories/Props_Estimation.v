(** C119 and C120: the estimation module of UoI_Lasso and UoI_ElasticNet (real numbers).
    [part X rows mask] is the data that LinearRegression sees: the given samples, reduced to
    the features of the support. *)
From Coq Require Import ZArith String List Bool Arith Lia Reals Lra.
From Verif Require Import Prelude F64 Num Model_Fit Model_Linear Model_Estimation Spec_Rescale Spec_Poisson Spec_Estimation
  Proofs_Estimation3 Proofs_Estimation4 Proofs_Estimation5.
Import ListNotations.
Local Open Scope R_scope.

(** C119: data without noise are fitted exactly, with and without standardization, whatever
    else the candidate supports contain.  The least-squares solver only has to be one on the
    data it is given. *)
Theorem C119_recovers : forall standardize has n p X y beta b (ols : solver_ls (N := Rnum)) select splits,
  matrix n p X -> noiseless n p X y beta b -> (has = false -> b = 0) -> splits <> [] ->
  let D := linear_pre (N := Rnum) standardize has p X y in
  let supports := select (fst D) (snd D) in
  (forall mask, In mask supports -> length mask = p) ->
  (forall sp, In sp splits -> informative has n p X beta supports sp) ->
  (forall sp mask, In sp splits -> In mask supports -> existsb (fun b => b) mask = true ->
     least_squares has (count (fun b => b) mask) (part (fst D) (fst sp) mask) (part_y (snd D) (fst sp))
       (ols (part (fst D) (fst sp) mask) (part_y (snd D) (fst sp)))) ->
  regressor_fit (N := Rnum) standardize has "r2"%string 1 p ols select splits X y = Ok (beta, b).
Proof. exact fit_exact. Qed.
Print Assumptions C119_recovers.

(** Eight samples, y = 1 + 2 * x_0; the candidate supports are the wrong feature alone and
    the right one alone. *)
Example C119_ex :
  regressor_fit (N := Rnum) false true "r2"%string 1 2 ols_exact (fun _ _ => [[false; true]; [true; false]]) [half_split]
    two_by_two y_exact = Ok ([2; 0], 1).
Proof.
  apply (C119_recovers false true 8 2 two_by_two y_exact [2; 0] 1); [exact matrix_two|exact exact_noiseless|discriminate|discriminate| | |].
  - intros mask [<-|[<-|[]]]; reflexivity.
  - intros sp [<-|[]]. exact exact_informative.
  - intros sp mask [<-|[]] Hm _. exact (exact_ols mask Hm).
Qed.

(** C120 (finding): with fit_intercept=False the support without features is scored as the
    constant mean of the training response.  If that constant has a smaller squared error on
    the test samples of every bootstrap than the other candidates, fit returns the model that
    predicts 0. *)
Theorem C120_zero_model : forall standardize n p X y (ols : solver_ls (N := Rnum)) select splits,
  matrix n p X -> (0 < n)%nat -> length y = n -> splits <> [] ->
  let D := linear_pre (N := Rnum) standardize false p X y in
  let supports := select (fst D) (snd D) in
  (forall mask, In mask supports -> length mask = p) -> In (repeat false p) supports ->
  (forall sp, In sp splits -> (2 <= length (snd sp))%nat /\ (forall i, In i (fst sp) -> (i < n)%nat) /\ (forall i, In i (snd sp) -> (i < n)%nat) /\
     let yr := part_y (snd D) (fst sp) in
     let yt := part_y (snd D) (snd sp) in
     distance2 yt (average (length yt) yt) <> 0 /\
     forall mask, In mask supports -> existsb (fun b => b) mask = true ->
       let m := ols (part (fst D) (fst sp) mask) yr in
       length (fst m) = count (fun b => b) mask /\
       distance2 yt (average (length yr) yr) < squared_error (count (fun b => b) mask) (part (fst D) (snd sp) mask) yt (fst m) (snd m)) ->
  regressor_fit (N := Rnum) standardize false "r2"%string 1 p ols select splits X y = Ok (repeat 0 p, 0).
Proof. exact fit_zero. Qed.
Print Assumptions C120_zero_model.

(** So the returned model can be worse, on all of the data, than a candidate that was
    available: for y = a + x_0 and a > 1 its squared error exceeds that of y = x_0. *)
Theorem C120_worse : forall a (ols : solver_ls (N := Rnum)), 1 < a ->
  (forall mask, In mask three_supports -> existsb (fun b => b) mask = true ->
     least_squares false (count (fun b => b) mask) (part two_by_two (fst half_split) mask) (part_y (y_shift a) (fst half_split))
       (ols (part two_by_two (fst half_split) mask) (part_y (y_shift a) (fst half_split)))) ->
  exists c b,
    regressor_fit (N := Rnum) false false "r2"%string 1 2 ols (fun _ _ => three_supports) [half_split] two_by_two (y_shift a) = Ok (c, b) /\
    squared_error 2 two_by_two (y_shift a) c b = 8 * (a * a) + 8 /\
    squared_error 2 two_by_two (y_shift a) [1; 0] 0 = 8 * (a * a).
Proof.
  intros a ols Ha H. exists [0; 0], 0. split; [exact (shift_fit a ols Ha H)|]. exact (shift_errors a).
Qed.
Print Assumptions C120_worse.

Example C120_ex : exists c b,
  regressor_fit (N := Rnum) false false "r2"%string 1 2 ols_shift (fun _ _ => three_supports) [half_split] two_by_two (y_shift 3) = Ok (c, b) /\
  squared_error 2 two_by_two (y_shift 3) c b = 8 * (3 * 3) + 8 /\
  squared_error 2 two_by_two (y_shift 3) [1; 0] 0 = 8 * (3 * 3).
Proof. apply C120_worse; [lra|]. exact (shift_ols 3). Qed.
