(** What a user may expect of [stability_selection] (C01-C03), stated without
    reference to the model's functions: only the type of Python values, real
    numbers and rounding to nearest are used. *)
From Coq Require Import ZArith Reals List Bool.
From Flocq Require Import Core.
From Verif Require Import F64 F64Facts Model_Thresholds.
Import ListNotations.
Local Open Scope Z_scope.

(** Every double inside the value is a canonical binary64 number. *)
Inductive wf_value : pyval -> Prop :=
| wf_float x : valid64 x = true -> wf_value (PyFloat x)
| wf_int z : wf_value (PyInt z)
| wf_bool b : wf_value (PyBool b)
| wf_list l : Forall wf_value l -> wf_value (PyList l)
| wf_ndfloat l : Forall (fun x => valid64 x = true) l -> wf_value (PyNdFloat l)
| wf_ndint l : wf_value (PyNdInt l)
| wf_ndother : wf_value PyNdOther
| wf_other : wf_value PyOther.

(** [x] as a proportion of [n] bootstraps: the product is rounded to the nearest
    double and truncated. *)
Definition proportion (n : Z) (x : f64) (t : Z) : Prop :=
  is_finite64 x = true /\ t = Ztrunc (rnd64 (rval x * IZR n)).

Definition in_bounds (n t : Z) : Prop := 1 <= t <= n.

(** The values a caller can use, with the thresholds they stand for. *)
Inductive stands_for (n : Z) : pyval -> list Z -> Prop :=
| SfFloat x t : proportion n x t -> in_bounds n t -> stands_for n (PyFloat x) [t]
| SfInt z : in_bounds n z -> stands_for n (PyInt z) [z]
| SfTrue : in_bounds n 1 -> stands_for n (PyBool true) [1]
| SfListFloat xs ts :
    Forall2 (fun x t => proportion n x t /\ in_bounds n t) xs ts ->
    stands_for n (PyList (map PyFloat xs)) ts
| SfListInt vs ts :
    Forall2 (fun v t => (v = PyInt t \/ (v = PyBool true /\ t = 1)) /\ in_bounds n t)
            vs ts ->
    stands_for n (PyList vs) ts
| SfNdFloat xs ts :
    Forall2 (fun x t => proportion n x t /\ in_bounds n t) xs ts ->
    stands_for n (PyNdFloat xs) ts
| SfNdInt ts : Forall (in_bounds n) ts -> stands_for n (PyNdInt ts) ts.

(** Scalar values only (UoI_CUR). *)
Inductive stands_for_scalar (n : Z) : pyval -> Z -> Prop :=
| SsFloat x t : proportion n x t -> in_bounds n t -> stands_for_scalar n (PyFloat x) t
| SsInt z : in_bounds n z -> stands_for_scalar n (PyInt z) z
| SsTrue : in_bounds n 1 -> stands_for_scalar n (PyBool true) 1.
