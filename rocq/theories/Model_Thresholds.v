(** Model of the two [stability_selection_to_threshold] functions:
    src/pyuoi/linear_model/utils.py:4-80 and
    src/pyuoi/decomposition/utils.py:53-90. *)
From Coq Require Import ZArith List Bool Floats.SpecFloat.
From Verif Require Import Prelude F64.
Import ListNotations.
Local Open Scope Z_scope.

(** Values a caller can pass as [stability_selection].  Only the distinctions
    made by the code's [isinstance]/[issubdtype] tests are kept.
    - [PyFloat]: an instance of [float] (this includes [np.float64]);
    - [PyInt], [PyBool]: instances of [int] ([bool] is a subclass);
    - [PyList]: a Python list;
    - [PyNdFloat], [PyNdInt]: one-dimensional float64 / int64 arrays
      (narrower dtypes and other ranks are not modelled);
    - [PyNdOther]: an array of any other dtype (bool, str, object);
    - [PyOther]: anything else (str, tuple, None, [np.int64], ...). *)
Inductive pyval : Type :=
| PyFloat (x : f64)
| PyInt (z : Z)
| PyBool (b : bool)
| PyList (l : list pyval)
| PyNdFloat (l : list f64)
| PyNdInt (l : list Z)
| PyNdOther
| PyOther.

(** [isinstance(v, float)] and [isinstance(v, int)]. *)
Definition isinstance_float (v : pyval) : bool :=
  match v with PyFloat _ => true | _ => false end.
Definition isinstance_int (v : pyval) : bool :=
  match v with PyInt _ | PyBool _ => true | _ => false end.

Definition int_of_bool (b : bool) : Z := if b then 1 else 0.

(** int64 range of [astype('int')] on the platforms pyuoi supports. *)
Definition int64_min : Z := - 2 ^ 63.
Definition int64_max : Z := 2 ^ 63 - 1.
Definition in_int64 (z : Z) : bool := (int64_min <=? z) && (z <=? int64_max).

(** Python's [int(x)] for a float: ValueError on NaN, OverflowError on
    infinities, truncation otherwise. *)
Definition py_int (x : f64) : result Z :=
  match x with
  | S754_nan => Raise ValueError
  | S754_infinity _ => Raise OverflowError
  | _ => match ftrunc x with Some z => Ok z | None => Raise ValueError end
  end.

(** [np.array([z, ...]).astype('int')] for Python ints.  Integers outside int64
    either fail to convert or wrap to a negative number that the bounds check
    below rejects; both are modelled as OverflowError. *)
Definition astype_int_of_Z (z : Z) : result Z :=
  if in_int64 z then Ok z else Raise OverflowError.

(** Element of [float64_array.astype('int')]: truncation; NaN, infinities and
    out-of-range values become INT64_MIN (x86-64 conversion instruction). *)
Definition astype_int_of_f64 (x : f64) : Z :=
  match ftrunc x with
  | Some z => if in_int64 z then z else int64_min
  | None => int64_min
  end.

(** Float and integer entries of a list that passed the [all(isinstance ...)]
    tests of lines 40 and 45. *)
Definition floats_of (l : list pyval) : list f64 :=
  flat_map (fun v => match v with PyFloat x => [x] | _ => [] end) l.
Definition ints_of (l : list pyval) : list Z :=
  flat_map (fun v => match v with
                     | PyInt z => [z] | PyBool b => [int_of_bool b] | _ => []
                     end) l.

(** linear_model/utils.py:25-72: the thresholds before the bounds check.
    [n_boots * x] converts the int [n_boots] to a double and rounds the
    product. *)
Definition raw_thresholds (ss : pyval) (n_boots : Z) : result (list Z) :=
  match ss with
  | PyFloat x =>                                        (* lines 26-29 *)
      let* z := py_int (fmul x (f64_of_Z n_boots)) in
      mapM astype_int_of_Z [z]
  | PyInt z => mapM astype_int_of_Z [z]                 (* lines 32-35 *)
  | PyBool b => mapM astype_int_of_Z [int_of_bool b]
  | PyList l =>                                         (* lines 38-50 *)
      if forallb isinstance_float l then
        Ok (map (fun x => astype_int_of_f64 (fmul (f64_of_Z n_boots) x))
                (floats_of l))
      else if forallb isinstance_int l then
        mapM astype_int_of_Z (ints_of l)
      else Raise ValueError
  | PyNdFloat l =>                                      (* lines 55-56 *)
      Ok (map (fun x => astype_int_of_f64 (fmul (f64_of_Z n_boots) x)) l)
  | PyNdInt l => Ok l                                   (* lines 59-60 *)
  | PyNdOther => Raise ValueError                       (* lines 62-64 *)
  | PyOther => Raise ValueError                         (* lines 66-68 *)
  end.

(** linear_model/utils.py:4-80 [stability_selection_to_threshold]. *)
Definition stability_selection_to_threshold (ss : pyval) (n_boots : Z)
  : result (list Z) :=
  let* ts := raw_thresholds ss n_boots in
  if forallb (fun t => t <=? n_boots) ts && forallb (fun t => 1 <=? t) ts
  then Ok ts                                            (* lines 73-80 *)
  else Raise ValueError.

(** decomposition/utils.py:53-90: the scalar version used by UoI_CUR. *)
Definition cur_stability_selection_to_threshold (ss : pyval) (n_boots : Z)
  : result Z :=
  let* t :=
    match ss with
    | PyFloat x => py_int (fmul x (f64_of_Z n_boots))   (* lines 72-73 *)
    | PyInt z => Ok z                                   (* lines 76-77 *)
    | PyBool b => Ok (int_of_bool b)
    | _ => Raise ValueError                             (* lines 79-80 *)
    end in
  if (t <=? n_boots) && (1 <=? t) then Ok t             (* lines 84-90 *)
  else Raise ValueError.
