(** Vocabulary for the aggregation of the bootstrap estimates (C103). *)
From Coq Require Import List Bool Arith.
From Verif Require Import F64 Model_Fit Spec_Fit.
Import ListNotations.

(** How many elements of a list satisfy a test. *)
Definition howmany {A} (p : A -> bool) (l : list A) : nat := length (filter p l).

(** The double [x] lies between [lo] and [hi] (false for a NaN). *)
Definition within (lo hi x : f64) : bool := fleb lo x && fleb x hi.

(** Doubling [x] does not overflow: [x] is finite and below 2^1023. *)
Definition doubles (x : f64) : Prop := is_finite64 (fadd x x) = true.

(** The estimates of coefficient [k] that enter the aggregate: for each estimation
    bootstrap the one of the support chosen for that bootstrap. *)
Definition winners (d : dims) (sel : selected) (k : nat) : list f64 :=
  map (fun b => at3 (s_estimates sel) b (index_at (s_rp_max_idx sel) b) k) (seq 0 (n_boots_est d)).
