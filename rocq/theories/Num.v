(** Number types: the models of numerical code are written once and read with
    exact real numbers or with binary64 numbers.  In binary64, [exp] and [ln] are
    not specified by any standard, so they stay parameters. *)
From Coq Require Import ZArith List Bool Reals.
From Verif Require Import F64.
Import ListNotations.

Record NumOps := mkNum {
  carrier :> Type;
  nadd : carrier -> carrier -> carrier;
  nsub : carrier -> carrier -> carrier;
  nmul : carrier -> carrier -> carrier;
  ndiv : carrier -> carrier -> carrier;
  nopp : carrier -> carrier;
  nabs : carrier -> carrier;
  nofZ : Z -> carrier;                  (* conversion of a Python int *)
  nleb : carrier -> carrier -> bool;
  nltb : carrier -> carrier -> bool;
  neqb : carrier -> carrier -> bool;    (* == *)
  nexp : carrier -> carrier;
  nln : carrier -> carrier;
  nsqrt : carrier -> carrier;
  nneginf : carrier                     (* -np.inf; 0 in the real reading *)
}.
Arguments nadd {n}.
Arguments nsub {n}.
Arguments nmul {n}.
Arguments ndiv {n}.
Arguments nopp {n}.
Arguments nabs {n}.
Arguments nofZ {n}.
Arguments nleb {n}.
Arguments nltb {n}.
Arguments neqb {n}.
Arguments nexp {n}.
Arguments nln {n}.
Arguments nsqrt {n}.
Arguments nneginf {n}.

Definition Rleb (x y : R) : bool := if Rle_dec x y then true else false.
Definition Rltb (x y : R) : bool := if Rlt_dec x y then true else false.
Definition Reqb (x y : R) : bool := if Req_EM_T x y then true else false.

(** Exact real arithmetic. *)
Canonical Structure Rnum : NumOps :=
  mkNum R Rplus Rminus Rmult Rdiv Ropp Rabs IZR Rleb Rltb Reqb exp ln sqrt R0.

(** Binary64 arithmetic with given implementations of exp and log. *)
Definition Fnum (exp64 ln64 : f64 -> f64) : NumOps :=
  mkNum f64 fadd fsub fmul fdiv fopp fabs f64_of_Z fleb fltb feqb exp64 ln64 fsqrt fninf.

Section Derived.
  Context {N : NumOps}.
  Definition nzero : N := nofZ 0.
  Definition none : N := nofZ 1.
  Definition nofnat (n : nat) : N := nofZ (Z.of_nat n).

  (** np.sum: the order of additions is numpy's business (pairwise blocks); the
      model adds from the right. *)
  Definition nsum (l : list N) : N := fold_right nadd nzero l.
  Definition nmean (l : list N) : N := ndiv (nsum l) (nofnat (length l)).

  Fixpoint map2 {A B C} (f : A -> B -> C) (a : list A) (b : list B) : list C :=
    match a, b with
    | x :: a', y :: b' => f x y :: map2 f a' b'
    | _, _ => []
    end.
  Definition ndot (a b : list N) : N := nsum (map2 nmul a b).
  (** [x != 0]: true for NaN, as [bool(x)] in numpy. *)
  Definition nnonzero (x : N) : bool := negb (neqb x nzero).
  Definition nany (l : list N) : bool := existsb nnonzero l.
  Definition nsquare (x : N) : N := nmul x x.
End Derived.
