(** Property theorems C01-C03 (stability selection thresholds). *)
From Coq Require Import ZArith Reals List Bool Lia Lra.
From Flocq Require Import Core.
From Verif Require Import Prelude F64 F64Facts Model_Thresholds Spec_Thresholds Proofs_Thresholds.
Import ListNotations.
Local Open Scope Z_scope.

(** C01.  A value is accepted exactly when it stands for a list of thresholds
    that are all between 1 and [n_boots], and the thresholds are then exactly
    those; all other values raise (a call either returns or raises). *)
Theorem C01_accepted_iff : forall n ss ts,
  1 <= n <= 2 ^ 53 -> wf_value ss ->
  (stability_selection_to_threshold ss n = Ok ts <-> stands_for n ss ts).
Proof. intros n ss ts Hn. exact (thresholds_iff n Hn ss ts). Qed.
Print Assumptions C01_accepted_iff.

(** The bounds hold whatever [n_boots] is. *)
Theorem C01_bounds : forall ss n ts,
  stability_selection_to_threshold ss n = Ok ts -> Forall (fun t => 1 <= t <= n) ts.
Proof. exact thresholds_bounds. Qed.
Print Assumptions C01_bounds.

Theorem C01_cur_accepted_iff : forall n ss t,
  1 <= n <= 2 ^ 53 -> wf_value ss ->
  (cur_stability_selection_to_threshold ss n = Ok t <-> stands_for_scalar n ss t).
Proof. intros n ss t Hn. exact (cur_threshold_iff n Hn ss t). Qed.
Print Assumptions C01_cur_accepted_iff.

(** Non-vacuity: 0.5 of 48 bootstraps, a list of floats, a mixed list. *)
Definition half : f64 := fdiv (f64_of_Z 1) (f64_of_Z 2).
Definition three_quarters : f64 := fdiv (f64_of_Z 3) (f64_of_Z 4).
Example C01_ex_float :
  wf_value (PyFloat half) /\
  stability_selection_to_threshold (PyFloat half) 48 = Ok [24].
Proof. split; [constructor; reflexivity | reflexivity]. Qed.
Example C01_ex_list :
  wf_value (PyList [PyFloat half; PyFloat three_quarters]) /\
  stability_selection_to_threshold (PyList [PyFloat half; PyFloat three_quarters]) 48
  = Ok [24; 36].
Proof. split; [repeat constructor | reflexivity]. Qed.
Example C01_ex_mixed_list :
  stability_selection_to_threshold (PyList [PyFloat half; PyInt 3]) 48 = Raise ValueError.
Proof. reflexivity. Qed.
Example C01_ex_nan :
  stability_selection_to_threshold (PyFloat fnan) 48 = Raise ValueError.
Proof. reflexivity. Qed.

(** C02.  1.0 is the hard intersection. *)
Theorem C02_one_is_all : forall n, 1 <= n <= 2 ^ 53 ->
  stability_selection_to_threshold (PyFloat fone) n = Ok [n].
Proof. exact one_is_all. Qed.
Print Assumptions C02_one_is_all.

Theorem C02_cur_one_is_all : forall n, 1 <= n <= 2 ^ 53 ->
  cur_stability_selection_to_threshold (PyFloat fone) n = Ok n.
Proof. exact cur_one_is_all. Qed.
Print Assumptions C02_cur_one_is_all.

(** A proportion in [0,1] is accepted as soon as its rounded share of the
    bootstraps is at least one: it is never rejected for being too large. *)
Theorem C02_unit_accepted : forall n, 1 <= n <= 2 ^ 53 -> forall x,
  valid64 x = true -> is_finite64 x = true -> (0 <= rval x <= 1)%R ->
  ((1 <= rnd64 (rval x * IZR n))%R <->
   exists t, stability_selection_to_threshold (PyFloat x) n = Ok [t]).
Proof. exact unit_float_accepted. Qed.
Print Assumptions C02_unit_accepted.

Theorem C02_monotone : forall n, 1 <= n <= 2 ^ 53 -> forall x y tx ty,
  valid64 x = true -> valid64 y = true -> (rval x <= rval y)%R ->
  stability_selection_to_threshold (PyFloat x) n = Ok [tx] ->
  stability_selection_to_threshold (PyFloat y) n = Ok [ty] ->
  tx <= ty.
Proof. exact float_monotone. Qed.
Print Assumptions C02_monotone.

Example C02_ex : exists tx ty,
  fleb half three_quarters = true /\
  stability_selection_to_threshold (PyFloat half) 48 = Ok [tx] /\
  stability_selection_to_threshold (PyFloat three_quarters) 48 = Ok [ty].
Proof. exists 24, 36. repeat split. Qed.

(** C03 (finding).  The proportion k/n can give the threshold k-1, and can even
    be rejected. *)
Theorem C03_proportion_refuted : exists (k n : Z) (x : f64),
  1 <= k <= n /\ valid64 x = true /\ rval x = rnd64 (IZR k / IZR n) /\
  stability_selection_to_threshold (PyFloat x) n = Ok [k - 1].
Proof. exact proportion_rounding. Qed.
Print Assumptions C03_proportion_refuted.

Theorem C03_proportion_rejected_refuted : exists (n : Z) (x : f64),
  1 <= n /\ valid64 x = true /\ rval x = rnd64 (1 / IZR n) /\
  stability_selection_to_threshold (PyFloat x) n = Raise ValueError.
Proof. exact proportion_rejected. Qed.
Print Assumptions C03_proportion_rejected_refuted.
