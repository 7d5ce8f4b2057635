(** Model of column subset selection: column_select of src/pyuoi/decomposition/utils.py:4-50
    and the classes UoI_CUR and CUR of src/pyuoi/decomposition/CUR.py.
    Matrices are lists of rows.  Not modelled: the truncated SVD and train_test_split
    (functions of a random generator and the data), numpy's generators, multi-dimensional
    ks and cs. *)
From Coq Require Import ZArith List Bool Arith.
From Verif Require Import Prelude F64 Num Model_Thresholds.
Import ListNotations.

(** ** The arguments ks and cs *)

(** One-dimensional numpy arrays of numbers; integers are not bounded. *)
Inductive arr : Type := ArrInt (l : list Z) | ArrFloat (l : list f64) | ArrBool (l : list bool).
Definition arr_size (a : arr) : nat :=
  match a with ArrInt l => length l | ArrFloat l => length l | ArrBool l => length l end.

Definition is_number (v : pyval) : bool :=
  match v with PyFloat _ | PyInt _ | PyBool _ => true | _ => false end.
Definition is_int_value (v : pyval) : bool := match v with PyInt _ => true | _ => false end.
Definition bool_value (v : pyval) : bool := match v with PyBool b => b | _ => false end.
Definition int_value (v : pyval) : Z :=
  match v with PyInt z => z | PyBool b => int_of_bool b | _ => 0%Z end.
Definition float_value (v : pyval) : f64 :=
  match v with PyFloat x => x | _ => f64_of_Z (int_value v) end.

(** np.array(l) for a list of numbers; the dtype of an empty list is float64.
    OtherError stands for what numpy does with other elements. *)
Definition np_array (l : list pyval) : result arr :=
  if negb (forallb is_number l) then Raise OtherError
  else if existsb isinstance_float l || Nat.eqb (length l) 0 then Ok (ArrFloat (map float_value l))
  else if existsb is_int_value l then Ok (ArrInt (map int_value l))
  else Ok (ArrBool (map bool_value l)).

(** CUR.py:160-168: ks as an array.  [None] is the Python None; PyNdOther is an array of
    booleans. *)
Definition ks_array (max_k : Z) (ks : option pyval) : result arr :=
  match ks with
  | None => Ok (ArrInt (map (fun i => 1 + Z.of_nat i)%Z (seq 0 (Z.to_nat max_k))))
  | Some (PyInt z) => Ok (ArrInt [z])
  | Some (PyBool b) => Ok (ArrBool [b])
  | Some (PyList l) => np_array l
  | Some (PyNdInt l) => Ok (ArrInt l)
  | Some (PyNdFloat l) => Ok (ArrFloat l)
  | Some PyNdOther => Ok (ArrBool [])
  | Some _ => Raise ValueError
  end.
(** CUR.py:171-177. *)
Definition check_ranks (max_k : Z) (ks : arr) : result (list Z) :=
  match ks with
  | ArrInt l => if forallb (fun k => k <=? max_k)%Z l && forallb (fun k => 0 <? k)%Z l then Ok l else Raise ValueError
  | _ => Raise ValueError
  end.
(** CUR.py:182-190. *)
Definition cs_array (ks : list Z) (cs : option pyval) : result arr :=
  match cs with
  | None => Ok (ArrInt (map (fun k => k + 20)%Z ks))
  | Some (PyList l) => np_array l
  | Some (PyNdInt l) => Ok (ArrInt l)
  | Some (PyNdFloat l) => Ok (ArrFloat l)
  | Some PyNdOther => Ok (ArrBool [])
  | Some PyOther => Raise ValueError
  | Some v => Ok (ArrFloat (map (fun one => fmul (float_value v) one) (repeat fone (length ks))))
  end.
(** CUR.py:193-199. *)
Definition check_counts (n_ks : nat) (cs : arr) : result arr :=
  let positive := match cs with
    | ArrInt l => forallb (fun c => 0 <? c)%Z l
    | ArrFloat l => forallb (fun c => fltb fzero c) l
    | ArrBool _ => false
    end in
  if positive && Nat.eqb (arr_size cs) n_ks then Ok cs else Raise ValueError.
(** CUR.py:143-201. *)
Definition check_ks_and_cs (max_k : Z) (ks cs : option pyval) : result (list Z * arr) :=
  let* a := ks_array max_k ks in
  let* ks := check_ranks max_k a in
  let* c := cs_array ks cs in
  let* c := check_counts (length ks) c in
  Ok (ks, c).

Section Cur.
  Context {N : NumOps}.
  Notation matrix := (list (list N)).

  (** Conversion of a float64 array element; np.isfinite; np.argsort (not stable, so its
      result is only known to be sorting). *)
  Variables (of_f64 : f64 -> N) (finite : N -> bool) (argsort : list N -> list nat).

  Definition arr_nums (a : arr) : list N :=
    match a with
    | ArrInt l => map nofZ l
    | ArrFloat l => map of_f64 l
    | ArrBool l => map (fun b => nofZ (int_of_bool b)) l
    end.

  (** ** column_select, utils.py:4-50 *)

  (** Line 33; [k] is the number of columns of V. *)
  Definition leverages (V : matrix) : list N :=
    let k := length (hd [] V) in
    map (fun row => ndiv (nsum (map nsquare row)) (nofnat k)) V.

  (** Line 39: Python's [min(1, x)]. *)
  Definition min1 (x : N) : N := if nltb x none then x else none.

  (** Lines 36-50.  [u j] is the number drawn for column [j]; the generator is
      [RandomState(seed=None)], whatever random_state is. *)
  Definition column_select (V : matrix) (c : N) (leverage_sort : bool) (u : nat -> N) : list nat :=
    let pi := leverages V in
    let flags := map (fun j => nltb (u j) (min1 (nmul c (nth j pi nzero)))) (seq 0 (length V)) in
    let indices := filter (fun j => nth j flags false) (seq 0 (length flags)) in
    if leverage_sort
    then map (fun i => nth i indices 0) (argsort (map (fun j => nth j pi nzero) indices))
    else indices.

  (** ** Random numbers *)

  (** random_state: an int, a RandomState instance, or None (numpy's global generator).
      An int is turned into a new generator by every call that uses it. *)
  Inductive random_arg := Seed (z : Z) | Generator.
  Variables (RS : Type) (seeded : Z -> RS).
  (** The training rows of train_test_split, and the right singular vectors
      [tsvd.fit(X_train).components_.T]. *)
  Variables (tts : RS -> result (list nat) * RS) (svd : matrix -> RS -> result matrix * RS).

  (** Run a consumer of random numbers: [st] is the state of the instance or of the global
      generator. *)
  Definition with_rng {A} (a : random_arg) (f : RS -> A * RS) (st : RS) : A * RS :=
    match a with
    | Seed z => (fst (f (seeded z)), st)
    | Generator => f st
    end.

  (** ** UoI_CUR *)
  Record cur_config := mkCurConfig {
    n_boots : Z; max_k : Z; boots_frac_is_1 : bool; stability_selection : pyval; random_state : random_arg
  }.
  (** [None]: the attribute does not exist. *)
  Record cur := mkCur { column_indices_ : option (list nat); components_ : option matrix }.
  Definition fresh_cur : cur := mkCur None None.

  (** X[rows] *)
  Definition take_rows (rows : list nat) (X : matrix) : matrix := map (fun i => nth i X []) rows.
  (** X[:, cols] *)
  Definition take_columns (cols : list nat) (X : matrix) : matrix :=
    map (fun row => map (fun j => nth j row nzero) cols) X.

  (** CUR.py:110-122: one bootstrap, up to its singular vectors. *)
  Definition bootstrap (g : cur_config) (X : matrix) (st : RS) : result matrix * RS :=
    let r := if boots_frac_is_1 g then (Ok X, st)
             else let t := with_rng (random_state g) tts st in
                  (rmap (fun rows => take_rows rows X) (fst t), snd t) in
    match fst r with
    | Raise e => (Raise e, snd r)
    | Ok X_train => with_rng (random_state g) (svd X_train) (snd r)
    end.

  (** CUR.py:124-131: the columns of all ranks, as flags ([+= 1] on zeros). *)
  Definition boot_columns (p : nat) (ks : list Z) (cs : list N) (V : matrix) (u : nat -> nat -> N) : list (list nat) :=
    map (fun i =>
      let idx := column_select (map (firstn (Z.to_nat (nth i ks 0%Z))) V) (nth i cs nzero) false (u i) in
      map (fun j => if existsb (Nat.eqb j) idx then 1 else 0) (seq 0 p)) (seq 0 (length ks)).

  (** CUR.py:109-131: [k] bootstraps from the [b]-th on; the columns for every bootstrap.
      [u b i j] is the number drawn for column j in bootstrap b for the i-th rank. *)
  Fixpoint bootstraps (g : cur_config) (X : matrix) (p : nat) (ks : list Z) (cs : list N)
      (u : nat -> nat -> nat -> N) (k b : nat) (st : RS) : result (list (list (list nat))) * RS :=
    match k with
    | O => (Ok [], st)
    | S k' =>
        let r := bootstrap g X st in
        match fst r with
        | Raise e => (Raise e, snd r)
        | Ok V =>
            let rest := bootstraps g X p ks cs u k' (S b) (snd r) in
            (rmap (cons (boot_columns p ks cs V (u b))) (fst rest), snd rest)
        end
    end.

  (** CUR.py:133-137: np.sum(columns, axis=1) >= threshold, then the union over ranks. *)
  Definition selected (p n_ks : nat) (threshold : Z) (columns : list (list (list nat))) : list nat :=
    filter (fun j => existsb (fun i =>
      Z.leb threshold (Z.of_nat (fold_right Nat.add 0 (map (fun boot => nth j (nth i boot []) 0) columns)))) (seq 0 n_ks))
      (seq 0 p).

  (** CUR.py:63-141.  [p] is X.shape[1]. *)
  Definition cur_fit (g : cur_config) (X : matrix) (p : nat) (ks cs : option pyval)
      (u : nat -> nat -> nat -> N) (st : RS) (o : cur) : cur * result unit * RS :=
    match check_ks_and_cs (max_k g) ks cs with
    | Raise e => (o, Raise e, st)
    | Ok (ks, cs) =>
        match cur_stability_selection_to_threshold (stability_selection g) (n_boots g) with
        | Raise e => (o, Raise e, st)
        | Ok threshold =>
            let r := bootstraps g X p ks (arr_nums cs) u (Z.to_nat (n_boots g)) 0 st in
            match fst r with
            | Raise e => (o, Raise e, snd r)
            | Ok columns =>
                let idx := selected p (length ks) threshold columns in
                (mkCur (Some idx)
                   (Some (if Nat.eqb (length idx) 0 then [[]] else take_columns idx X)), Ok tt, snd r)
            end
        end
    end.

  (** sklearn's check_array: at least one row and one column, finite numbers. *)
  Definition check_array (X : matrix) (p : nat) : result matrix :=
    if Nat.eqb (length X) 0 || Nat.eqb p 0 || negb (forallb (forallb finite) X) then Raise ValueError else Ok X.

  (** CUR.py:203-219 and 318-334: both classes check an attribute that fit sets. *)
  Definition cur_transform (o : cur) (X : matrix) (p : nat) : result matrix :=
    match components_ o, column_indices_ o with
    | Some _, Some idx =>
        let* X := check_array X p in
        if forallb (fun j => Nat.ltb j p) idx then Ok (take_columns idx X) else Raise IndexError
    | _, _ => Raise NotFittedError
    end.

  (** ** CUR, CUR.py:280-316 *)
  Definition plain_cur_fit (max_k : Z) (a : random_arg) (X : matrix) (c : option N) (u : nat -> N) (st : RS) (o : cur)
    : cur * result unit * RS :=
    let r := with_rng a (svd X) st in
    match fst r with
    | Raise e => (o, Raise e, snd r)
    | Ok V =>
        let V := map (firstn (Z.to_nat max_k)) V in
        let c := match c with Some c => c | None => nofZ (max_k + 20) end in
        let idx := column_select V c true u in
        (mkCur (Some idx) (Some (take_columns idx X)), Ok tt, snd r)
    end.
End Cur.
Arguments cur N : clear implicits.
