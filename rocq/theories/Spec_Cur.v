(** Specification vocabulary for column subset selection (C56-C60, C93). *)
From Coq Require Import ZArith List Bool Arith Reals Permutation Sorted.
From Verif Require Import Prelude F64 Num Spec_Rescale Spec_Poisson Model_Thresholds Model_Cur.
Import ListNotations.

(** ** Leverage scores *)

(** The normalized leverage score of column [j] for [k] singular vectors: the mean of the
    squares of the first [k] entries of row [j] of V. *)
Definition leverage (k : nat) (V : list (list R)) (j : nat) : R := (Sum k (fun i => mat V j i * mat V j i) / INR k)%R.

(** The probability with which column [j] is to be selected. *)
Definition probability (k : nat) (V : list (list R)) (c : R) (j : nat) : R := Rmin 1 (c * leverage k V j).

(** Column [j] is drawn: its random number is below its probability. *)
Definition drawn_column (k : nat) (V : list (list R)) (c : R) (u : nat -> R) (j : nat) : Prop :=
  (u j < probability k V c j)%R.

(** Uniform random numbers lie in [0, 1). *)
Definition uniform (x : R) : Prop := (0 <= x < 1)%R.

(** What is required of np.argsort. *)
Definition sorts (argsort : list R -> list nat) : Prop :=
  forall l, Permutation (argsort l) (seq 0 (length l)) /\ StronglySorted Rle (map (fun i => nth i l 0%R) (argsort l)).

(** Unit norm of the first [k] columns of a matrix with [p] rows. *)
Definition unit_columns (p k : nat) (V : list (list R)) : Prop :=
  forall i, i < k -> Sum p (fun j => mat V j i * mat V j i)%R = 1%R.

(** ** Bootstraps *)
Section Boots.
  Variables (M RS : Type).

  (** Where a call gets its random numbers from: its own new generator in the given state,
      or a generator shared by all calls. *)
  Inductive source := Own (s : RS) | Shared.
  Definition call {A} (src : source) (f : RS -> A * RS) (st : RS) (a : A) (st' : RS) : Prop :=
    match src with
    | Own s => fst (f s) = a /\ st' = st
    | Shared => f st = (a, st')
    end.

  (** Consecutive bootstraps: training rows, and the singular vectors of these rows. *)
  Variables (src : source) (split : RS -> result (list nat) * RS) (svd : M -> RS -> result M * RS) (rows : list nat -> M).
  Inductive boots : RS -> list (list nat * M) -> RS -> Prop :=
  | boots_nil st : boots st [] st
  | boots_cons st ix st1 V st2 l st3 : call src split st (Ok ix) st1 -> call src (svd (rows ix)) st1 (Ok V) st2 ->
      boots st2 l st3 -> boots st ((ix, V) :: l) st3.
End Boots.
Arguments Own {RS} s.
Arguments Shared {RS}.

(** The random_state argument: an int gives every call a new generator. *)
Definition source_of {RS} (seeded : Z -> RS) (a : random_arg) : source RS :=
  match a with Seed z => Own (seeded z) | Generator => Shared end.
(** With boots_frac = 1 every bootstrap consists of all [n] rows. *)
Definition split_of {RS} (all : bool) (n : nat) (tts : RS -> result (list nat) * RS) (st : RS) : result (list nat) * RS :=
  if all then (Ok (seq 0 n), st) else tts st.
Definition rows_of {A} (X : list (list A)) (ix : list nat) : list (list A) := map (fun i => nth i X []) ix.
Definition columns_of {A} (d : A) (X : list (list A)) (ix : list nat) : list (list A) := map (fun row => map (fun j => nth j row d) ix) X.

(** At least [t] of the bootstraps 0..n-1 satisfy P. *)
Definition at_least (t : Z) (n : nat) (P : nat -> Prop) : Prop :=
  exists l, NoDup l /\ (forall b, In b l -> b < n /\ P b) /\ (t <= Z.of_nat (length l))%Z.

(** ** Validation of ks and cs *)
Local Open Scope Z_scope.

(** The ranks denoted by a valid ks argument. *)
Definition in_range (max_k k : Z) : Prop := 1 <= k <= max_k.
Inductive denotes_int : pyval -> Z -> Prop :=
| denotes_PyInt z : denotes_int (PyInt z) z
| denotes_PyBool b : denotes_int (PyBool b) (if b then 1 else 0).

Inductive valid_ks (max_k : Z) : option pyval -> list Z -> Prop :=
| ks_default l : length l = Z.to_nat max_k -> (forall i, (i < length l)%nat -> nth i l 0 = 1 + Z.of_nat i) -> valid_ks max_k None l
| ks_int z : in_range max_k z -> valid_ks max_k (Some (PyInt z)) [z]
| ks_nd l : Forall (in_range max_k) l -> valid_ks max_k (Some (PyNdInt l)) l
| ks_list l v : Forall2 denotes_int l v -> (exists z, In (PyInt z) l) -> Forall (in_range max_k) v -> valid_ks max_k (Some (PyList l)) v.

Inductive denotes_float : pyval -> f64 -> Prop :=
| float_PyFloat x : denotes_float (PyFloat x) x
| float_int v z : denotes_int v z -> denotes_float v (f64_of_Z z).

(** Counts are integers or floats. *)
Inductive counts := CountsInt (l : list Z) | CountsFloat (l : list f64).
Definition positive (c : counts) : Prop :=
  match c with CountsInt l => Forall (fun z => 0 < z) l | CountsFloat l => Forall (fun x => fltb fzero x = true) l end.
Definition n_counts (c : counts) : nat := match c with CountsInt l => length l | CountsFloat l => length l end.

(** The counts denoted by a cs argument for given ranks. *)
Inductive denotes_counts (ks : list Z) : option pyval -> counts -> Prop :=
| cs_default : denotes_counts ks None (CountsInt (map (fun k => k + 20) ks))
| cs_scalar v x : denotes_float v x -> denotes_counts ks (Some v) (CountsFloat (repeat (fmul x fone) (length ks)))
| cs_int_array l : denotes_counts ks (Some (PyNdInt l)) (CountsInt l)
| cs_float_array l : denotes_counts ks (Some (PyNdFloat l)) (CountsFloat l)
| cs_int_list l v : Forall2 denotes_int l v -> (exists z, In (PyInt z) l) -> denotes_counts ks (Some (PyList l)) (CountsInt v)
| cs_float_list l v : Forall2 denotes_float l v -> (l = [] \/ exists x, In (PyFloat x) l) -> denotes_counts ks (Some (PyList l)) (CountsFloat v).
Definition valid_cs (ks : list Z) (cs : option pyval) (c : counts) : Prop :=
  denotes_counts ks cs c /\ positive c /\ n_counts c = length ks.

(** The expected number of columns for the i-th rank. *)
Definition count_value (of_f64 : f64 -> R) (c : counts) (i : nat) : R :=
  match c with CountsInt l => IZR (nth i l 0) | CountsFloat l => of_f64 (nth i l fzero) end.

(** Lists contain numbers only. *)
Definition numeric (v : option pyval) : Prop :=
  match v with
  | Some (PyList l) => Forall (fun x => exists y, denotes_float x y) l
  | _ => True
  end.
