(** Sizes of the training and test parts of a bootstrap.
    src/pyuoi/linear_model/base.py:245-262 and 345-362 (train_test_split with
    test_size=1 - selection_frac or 1 - estimation_frac), decomposition/CUR.py:111-116.
    scikit-learn's _validate_shuffle_split (any version >= 0.24) is transcribed here; which
    samples end up in which part, and the further checks with [stratify], are not modelled. *)
From Coq Require Import ZArith List Bool Floats.SpecFloat.
From Verif Require Import Prelude F64.
Local Open Scope Z_scope.

(** A fraction given as Python float or int. *)
Inductive frac := FFloat (x : f64) | FInt (z : Z).

(** math.ceil: ValueError for NaN, OverflowError for infinities. *)
Definition fceil (x : f64) : result Z :=
  match x with
  | S754_nan => Raise ValueError
  | S754_infinity _ => Raise OverflowError
  | S754_zero _ => Ok 0
  | S754_finite s m e =>
      let z := if s then Z.neg m else Z.pos m in
      Ok (if 0 <=? e then z * 2 ^ e else - ((- z) / 2 ^ (- e)))
  end.

(** base.py:249, CUR.py:114: 1 - frac. *)
Definition one_minus (f : frac) : frac :=
  match f with FFloat x => FFloat (fsub fone x) | FInt z => FInt (1 - z) end.

(** sklearn.model_selection._split._validate_shuffle_split with train_size=None:
    (number of training samples, number of test samples). *)
Definition shuffle_split (n : Z) (test_size : frac) : result (Z * Z) :=
  let* n_test :=
    match test_size with
    | FFloat t => if fleb t fzero || fleb fone t then Raise ValueError else fceil (fmul t (f64_of_Z n))
    | FInt t => if (n <=? t) || (t <=? 0) then Raise ValueError else Ok t
    end in
  let n_train := n - n_test in
  if n_train =? 0 then Raise ValueError else Ok (n_train, n_test).

(** base.py:245-262, 345-362: one bootstrap of the selection or estimation step. *)
Definition bootstrap_sizes (n : Z) (f : frac) : result (Z * Z) := shuffle_split n (one_minus f).

(** frac == 1. *)
Definition is_one (f : frac) : bool := match f with FFloat x => feqb x fone | FInt z => z =? 1 end.
(** CUR.py:111-116: number of rows passed to the SVD. *)
Definition cur_rows (n : Z) (f : frac) : result Z :=
  if is_one f then Ok n else let* s := bootstrap_sizes n f in Ok (fst s).
