(** Model of the intersection step:
    src/pyuoi/linear_model/utils.py:83-145 ([intersection]) and
    src/pyuoi/linear_model/base.py:567-569, 724-735 (the two [intersect]). *)
From Coq Require Import ZArith List Bool Arith.
From Verif Require Import Prelude F64.
Import ListNotations.

(** A (boots x reg_params x features) array of doubles.  The first axis is the
    length of [c_data]; the other two are explicit because they matter when an
    axis is empty. *)
Record coefs3 := mkCoefs { c_reg : nat; c_feat : nat; c_data : list (list (list f64)) }.

(** [coefs[b, r, j]] given the slice of bootstrap [b]. *)
Definition entry (boot : list (list f64)) (r j : nat) : f64 :=
  nth j (nth r boot []) fzero.

(** A boolean ndarray of rank 0, 1 or 2.  The number of columns of a rank-2
    array is kept because the array may have no rows. *)
Inductive barray : Type :=
| Arr0 (b : bool)
| Arr1 (l : list bool)
| Arr2 (ncol : nat) (rows : list (list bool)).

(** utils.py:133-134 [np.count_nonzero(coefs, axis=0) >= threshold]. *)
Definition support_rows (c : coefs3) (t : Z) : list (list bool) :=
  map (fun r =>
         map (fun j => (t <=? Z.of_nat (count (fun b => nonzero64 (entry b r j)) (c_data c)))%Z)
             (seq 0 (c_feat c)))
      (seq 0 (c_reg c)).

(** utils.py:131-141: the (thresholds * reg_params) x features array before
    squeezing; thresholds vary slowest (row-major reshape). *)
Definition all_support_rows (c : coefs3) (ts : list Z) : list (list bool) :=
  flat_map (support_rows c) ts.

(** [np.squeeze] of a rank-2 array of shape (m, p). *)
Definition squeeze2 (p : nat) (rows : list (list bool)) : barray :=
  match length rows =? 1, p =? 1 with
  | true, true => Arr0 (hd false (hd [] rows))
  | true, false => Arr1 (hd [] rows)
  | false, true => Arr1 (map (hd false) rows)
  | false, false => Arr2 p rows
  end.

(** Comparison of booleans (False < True) and of rows (lexicographic). *)
Definition bool_cmp (a b : bool) : comparison :=
  match a, b with
  | false, true => Lt
  | true, false => Gt
  | _, _ => Eq
  end.
Fixpoint row_cmp (a b : list bool) : comparison :=
  match a, b with
  | [], [] => Eq
  | [], _ => Lt
  | _, [] => Gt
  | x :: a', y :: b' =>
      match bool_cmp x y with Eq => row_cmp a' b' | c => c end
  end.

(** Sorted insertion that drops duplicates; [np.unique] sorts and keeps one copy
    of each element. *)
Fixpoint uinsert {A} (cmp : A -> A -> comparison) (x : A) (l : list A) : list A :=
  match l with
  | [] => [x]
  | y :: r =>
      match cmp x y with
      | Lt => x :: y :: r
      | Eq => y :: r
      | Gt => y :: uinsert cmp x r
      end
  end.
Definition usort {A} (cmp : A -> A -> comparison) (l : list A) : list A :=
  fold_right (uinsert cmp) [] l.

(** [np.unique(a, axis=0)]: sorted distinct entries (rank 1) or rows (rank 2);
    a rank-0 array has no axis 0 and numpy raises AxisError, a ValueError. *)
Definition np_unique (a : barray) : result barray :=
  match a with
  | Arr0 _ => Raise ValueError
  | Arr1 l => Ok (Arr1 (usort bool_cmp l))
  | Arr2 p rows => Ok (Arr2 p (usort row_cmp rows))
  end.

(** utils.py:83-145 [intersection].  [ts = None] is the default of line 119. *)
Definition intersection (c : coefs3) (ts : option (list Z)) : result barray :=
  let ts := match ts with
            | Some l => l
            | None => [Z.of_nat (length (c_data c))]
            end in
  np_unique (squeeze2 (c_feat c) (all_support_rows c ts)).

(** base.py:730-734: reshape to (-1, output_dim, n_features), union over the
    classes, unique rows.  Modelled for rank-2 supports whose number of columns
    is a multiple of output_dim, the only case in which numpy's reshape keeps
    rows apart; a rank-1 array is reshaped by numpy if its length allows it. *)
Fixpoint or_rows (rows : list (list bool)) (p : nat) : list bool :=
  match rows with
  | [] => repeat false p
  | r :: rs => map (fun ab => fst ab || snd ab) (combine r (or_rows rs p))
  end.

(** Flat list of the entries of an array and its last axis. *)
Definition flat (a : barray) : list bool :=
  match a with Arr0 b => [b] | Arr1 l => l | Arr2 _ rows => concat rows end.
Definition last_axis (a : barray) : nat :=
  match a with Arr0 _ => 0 | Arr1 l => length l | Arr2 p _ => p end.

Definition union_over_classes (dim : nat) (a : barray) : result barray :=
  let nf := last_axis a / dim in
  (* reshape((-1, dim, nf)): numpy needs dim * nf to divide the size, and
     rejects an unknown axis when dim * nf = 0 *)
  let blk := dim * nf in
  if blk =? 0 then Raise ValueError
  else if negb (length (flat a) mod blk =? 0) then Raise ValueError
  else
    let groups := chunks blk (length (flat a) / blk) (flat a) in
    Ok (Arr2 nf (usort row_cmp (map (fun g => or_rows (chunks nf dim g) nf) groups))).

(** base.py:724-735 [AbstractUoIGeneralizedLinearRegressor.intersect]. *)
Definition glm_intersect (output_dim : nat) (shared_support : bool)
    (c : coefs3) (ts : list Z) : result barray :=
  let* supports := intersection c (Some ts) in
  if (1 <? output_dim) && shared_support
  then union_over_classes output_dim supports
  else Ok supports.

(** base.py:567-569 [AbstractUoILinearRegressor.intersect]. *)
Definition linear_intersect (c : coefs3) (ts : list Z) : result barray :=
  intersection c (Some ts).
