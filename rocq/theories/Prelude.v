(** Shared vocabulary of the models: Python exceptions as values and a few list
    functions.  Nothing in this file models a particular pyuoi function. *)
From Coq Require Import List ZArith Bool Lia Arith.
Import ListNotations.

(** Exception classes that the modelled code can raise. *)
Inductive exn : Type :=
| ValueError | TypeError | IndexError | KeyError | AttributeError
| OverflowError | AssertionError | NotFittedError | ZeroDivisionError
| LBFGSError | AllZeroLBFGSError | MemoryError | UnboundLocalError | OtherError.

(** A Python call either returns a value or raises. *)
Inductive result (A : Type) : Type :=
| Ok (a : A)
| Raise (e : exn).
Arguments Ok {A} a.
Arguments Raise {A} e.

Definition bind {A B} (r : result A) (k : A -> result B) : result B :=
  match r with Ok a => k a | Raise e => Raise e end.

Notation "'let*' x ':=' r 'in' k" := (bind r (fun x => k))
  (at level 200, x pattern, r at level 100, k at level 200, right associativity).

Definition is_ok {A} (r : result A) : bool :=
  match r with Ok _ => true | Raise _ => false end.

Definition rmap {A B} (f : A -> B) (r : result A) : result B :=
  match r with Ok a => Ok (f a) | Raise e => Raise e end.

(** Left-to-right evaluation of a loop whose body may raise. *)
Fixpoint mapM {A B} (f : A -> result B) (l : list A) : result (list B) :=
  match l with
  | [] => Ok []
  | x :: r => let* y := f x in let* ys := mapM f r in Ok (y :: ys)
  end.

Fixpoint foldM {A S} (f : S -> A -> result S) (l : list A) (s : S) : result S :=
  match l with
  | [] => Ok s
  | x :: r => let* s' := f s x in foldM f r s'
  end.

(** Generic list functions. *)

(** Number of elements satisfying a test. *)
Fixpoint count {A} (p : A -> bool) (l : list A) : nat :=
  match l with
  | [] => 0
  | x :: r => (if p x then 1 else 0) + count p r
  end.

(** [chunks k n l] cuts [l] into [n] consecutive pieces of length [k]
    (row-major reshape of a flat array to [n] rows). *)
Fixpoint chunks {A} (k n : nat) (l : list A) : list (list A) :=
  match n with
  | 0 => []
  | S n' => firstn k l :: chunks k n' (skipn k l)
  end.

(** [lset i x l]: replace position [i] (no effect when out of range). *)
Fixpoint lset {A} (i : nat) (x : A) (l : list A) : list A :=
  match l, i with
  | [], _ => []
  | _ :: r, 0 => x :: r
  | a :: r, S i' => a :: lset i' x r
  end.

(** Elements at the positions where the mask is true (boolean indexing). *)
Fixpoint pick {A} (mask : list bool) (l : list A) : list A :=
  match mask, l with
  | b :: m, x :: r => if b then x :: pick m r else pick m r
  | _, _ => []
  end.
