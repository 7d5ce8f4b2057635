(** C117: a feature that is zero in every sample turns Poisson(solver='cd') with a pure L1
    penalty into NaN. *)
From Coq Require Import ZArith List Bool Arith Lia Floats.SpecFloat.
From Verif Require Import Prelude F64 Num Model_Rescale Model_Poisson Spec_ZeroColumn Proofs_ZeroColumn.
Import ListNotations.

(** In binary64, whatever exp is as long as exp(NaN) is NaN.  The column that is zero is one
    of the matrix the solver sees: of X, or of X after centering and scaling.  The fit does
    not raise; its coefficient for that column is NaN; with at least two sweeps allowed no
    coefficient is a number other than zero and the intercept is NaN; all predictions are
    NaN. *)
Theorem C117_zero_column : forall exp64 ln64 n p X y swo (c : config (Fnum exp64 ln64)) j opt o,
  let s := fit_scaler (N := Fnum exp64 ln64) (columns (N := Fnum exp64 ln64) p X) in
  length X = S n -> Forall (fun r => length r = p) X -> length y = S n ->
  match swo with Some w => length w = S n | None => True end ->
  exp64 fnan = fnan ->
  zero_column j (map (centering_transform (N := Fnum exp64 ln64) (standardize c) s) X) -> (j < p)%nat ->
  l1_ratio c = fone -> warm_start c = false -> (0 < max_iter c)%nat ->
  constant_response (N := Fnum exp64 ln64) y = false ->
  exists v b,
    poisson_fit (N := Fnum exp64 ln64) c Cd opt p X y swo o = (mkPoisson (N := Fnum exp64 ln64) (Some v) b, Ok tt) /\
    length v = p /\ nth j v fzero = fnan /\
    b = (if fit_intercept c then Some (match b with Some x => x | None => fzero end) else intercept_ o) /\
    ((1 < max_iter c)%nat ->
       (forall k, (k < p)%nat -> zero_or_nan (nth k v fzero)) /\ (fit_intercept c = true -> b = Some fnan)).
Proof. exact zero_column_fit. Qed.
Print Assumptions C117_zero_column.

Theorem C117_predictions : forall exp64 ln64 n p X y swo (c : config (Fnum exp64 ln64)) j opt o,
  let s := fit_scaler (N := Fnum exp64 ln64) (columns (N := Fnum exp64 ln64) p X) in
  length X = S n -> Forall (fun r => length r = p) X -> length y = S n ->
  match swo with Some w => length w = S n | None => True end ->
  exp64 fnan = fnan ->
  zero_column j (map (centering_transform (N := Fnum exp64 ln64) (standardize c) s) X) -> (j < p)%nat ->
  l1_ratio c = fone -> warm_start c = false -> (0 < max_iter c)%nat ->
  constant_response (N := Fnum exp64 ln64) y = false -> fit_intercept c = true ->
  forall Xn, Forall (fun r => length r = p) Xn ->
  predict_mean (N := Fnum exp64 ln64) (fst (poisson_fit (N := Fnum exp64 ln64) c Cd opt p X y swo o)) Xn
  = Ok (repeat fnan (length Xn)).
Proof.
  intros exp64 ln64 n p X y swo c j opt o s H1 H2 H3 H4 H5 H6 H7 H8 H9 H10 H11 Hf Xn HXn.
  destruct (zero_column_fit exp64 ln64 n p X y swo c j opt o H1 H2 H3 H4 H5 H6 H7 H8 H9 H10 H11) as (v & b & E & L & Ej & Eb & _).
  rewrite E. rewrite Hf in Eb. rewrite Eb. exact (predict_zero_column exp64 ln64 p j v _ Xn H5 L H7 Ej HXn).
Qed.
Print Assumptions C117_predictions.

(** Three samples, the second feature never seen; plain and standardized. *)
Definition unseen (b : bool) (k : nat) :=
  let e x := match x with S754_nan => fnan | _ => fone end in
  poisson_fit (N := Fnum e (fun x => x)) (mkConfig (N := Fnum e (fun x => x)) fone fone true b k fzero false) Cd
    (fun _ _ _ _ => Raise ValueError) 2 [[f64_of_Z 1; fzero]; [f64_of_Z 2; fzero]; [f64_of_Z 30; fzero]]
    [f64_of_Z 1; f64_of_Z 3; f64_of_Z 200] None fresh_poisson.
Example C117_ex :
  match unseen false 1 with (mkPoisson (Some [S754_finite _ _ _; S754_nan]) (Some (S754_finite _ _ _)), Ok tt) => true | _ => false end = true /\
  match unseen false 2 with (mkPoisson (Some [S754_nan; S754_nan]) (Some S754_nan), Ok tt) => true | _ => false end = true /\
  match unseen true 2 with (mkPoisson (Some [S754_nan; S754_nan]) (Some S754_nan), Ok tt) => true | _ => false end = true.
Proof. repeat split; vm_compute; reflexivity. Qed.
