(** Specification vocabulary for [fit] (C04, C16-C27). *)
From Coq Require Import ZArith List Bool Arith Sorting.Permutation.
From Verif Require Import Prelude F64 Model_Intersection Model_Mpi Spec_Mpi Model_Fit.
Import ListNotations.

(** What numpy guarantees about the arrays coming out of a solver: a sweep gives
    one row of [n_coef] coefficients per regularization parameter, and
    [_fit_intercept] stores a consistent array of a supported dtype with at
    least one axis. *)
Definition shapes_ok {S E} (d : dims) (sol : solver S E) : Prop :=
  (forall s regs train s' rows, sweep sol s regs train = Ok (s', rows) ->
     length rows = length regs /\ Forall (fun r => length r = n_coef d) rows) /\
  (forall c a, fit_int sol c = Ok a ->
     wf_nd a /\ np2mpi (nd_dtype a) = true /\ nd_shape a <> []).

(** [F] is what some rank's call to [fit] returns in some execution with [n]
    ranks; rank [i] starts with random state [R i] and solver state [s0 i].
    [n = 1] is the serial case. *)
Definition returned {S E Rng} env d (sol : nat -> solver S E) draw post n constant
    (R : nat -> Rng) (s0 : nat -> S) (F : fitted) : Prop :=
  exists wait m cf i, i < n /\
    steps n wait m (start (fun i => fit env d (sol i) draw post n i constant (R i) (s0 i))) cf /\
    prog cf i = Done (Ok F).

(** Elements of arrays by position. *)
Definition num (s : scalar) : f64 :=
  match s with SFlt x => x | SInt _ => fnan end.
Definition at3 (a : nd) (i j k : nat) : f64 :=
  match nd_shape a with
  | [_; n1; n2] => num (nth ((i * n1 + j) * n2 + k) (nd_data a) (SFlt fnan))
  | _ => fnan
  end.
Definition at2 (a : nd) (i j : nat) : f64 :=
  match nd_shape a with
  | [_; n1] => num (nth (i * n1 + j) (nd_data a) (SFlt fnan))
  | _ => fnan
  end.
Definition index_at (a : nd) (i : nat) : nat :=
  match nth i (nd_data a) (SInt 0) with SInt z => Z.to_nat z | SFlt _ => 0 end.

(** The smallest position of a maximum. *)
Definition first_max (l : list f64) (i : nat) : Prop :=
  i < length l /\
  forall j, j < length l ->
    fleb (nth j l fnan) (nth i l fnan) = true /\
    (j < i -> fleb (nth i l fnan) (nth j l fnan) = false).

(** The middle of the sorted values, or the mean of the two middle ones. *)
Definition is_median (l : list f64) (m : f64) : Prop :=
  exists s, Permutation l s /\
    (forall i j, i <= j < length s -> fleb (nth i s fnan) (nth j s fnan) = true) /\
    ((exists h, length l = 2 * h + 1 /\ m = nth h s fnan) \/
     (exists h, length l = 2 * h + 2 /\
        m = fdiv (fadd (nth h s fnan) (nth (h + 1) s fnan)) ftwo)).

(** [c] holds selection coefficients: its row for bootstrap [b] and parameter [r]
    was returned by some rank's selection solver when asked about the training
    rows of bootstrap [b] and (among others) parameter [r]. *)
Definition selection_coefs {S E} d (sol : nat -> solver S E) n (splits : list split)
    (c : coefs3) : Prop :=
  c_reg c = n_reg d /\ c_feat c = n_coef d /\ length (c_data c) = n_boots_sel d /\
  forall b r, b < n_boots_sel d -> r < n_reg d ->
  exists i s regs s' rows q, i < n /\
    sweep (sol i) s regs (fst (nth b splits ([], []))) = Ok (s', rows) /\
    q < length regs /\ nth q regs 0 = r /\ nth q rows [] = nth r (nth b (c_data c) []) [].

(** The zeros of the coefficient vector survive [_post_fit]. *)
Definition keeps_zeros (post : nd -> nd -> result (nd * nd)) : Prop :=
  forall c ic c' ic' k, post c ic = Ok (c', ic') ->
    nonzero64 (num (nth k (nd_data c) (SFlt fzero))) = false ->
    nonzero64 (num (nth k (nd_data c') (SFlt fzero))) = false.

(** [sps] are successive draws of a generator in state [r], ending in state [r']. *)
Inductive drawn {Rng} (draw : bool -> Rng -> result (split * Rng)) (sel : bool)
  : Rng -> list split -> Rng -> Prop :=
| drawn_none r : drawn draw sel r [] r
| drawn_more r sp r1 sps r2 : draw sel r = Ok (sp, r1) -> drawn draw sel r1 sps r2 ->
    drawn draw sel r (sp :: sps) r2.

(** [Inv] holds of every state that the selection solver goes through. *)
Definition preserved {S E} (sol : solver S E) (Inv : S -> Prop) : Prop :=
  (forall s, Inv s -> Inv (reset sol s)) /\
  (forall s regs tr s' rows, Inv s -> sweep sol s regs tr = Ok (s', rows) -> Inv s').

(** After a reset a whole sweep gives [G] of the training rows, whatever happened
    before.  *)
Definition from_reset {S E} d (sol : solver S E) (Inv : S -> Prop)
    (G : list nat -> result (list (list f64))) : Prop :=
  forall s tr, Inv s -> rmap snd (sweep sol (reset sol s) (seq 0 (n_reg d)) tr) = G tr.

(** The coefficients found for parameter [r] are [F r] of the training rows,
    whatever the solver did before: warm starting does not matter. *)
Definition state_independent {S E} (sol : solver S E) (Inv : S -> Prop)
    (F : nat -> list nat -> result (list f64)) : Prop :=
  forall s regs tr, Inv s -> rmap snd (sweep sol s regs tr) = mapM (fun r => F r tr) regs.

(** Does the support [mask] allow coefficient number [k] to be non-zero?  A
    support shared by the classes has one entry per feature, otherwise one entry
    per coefficient. *)
Definition covers d (mask : list bool) (k : nat) : bool :=
  nth (if shared d then k mod n_feat d else k) mask false.

(** Without shared support, the estimation solver returns all coefficients, with
    zeros where the mask is false. *)
Definition respects_mask {S E} d (sol : solver S E) : Prop :=
  forall mask tr e, est_fit sol mask tr = Ok e ->
    length (est_coef sol e) = n_coef d /\
    forall k, nth k mask false = false -> nonzero64 (nth k (est_coef sol e) fzero) = false.

(** Some coefficient of the feature that coefficient [k] belongs to is non-zero in
    at least [t] selection bootstraps, for an accepted threshold [t] and some
    regularization parameter.  (Coefficient [k] itself if the support is not shared
    or there is one class.) *)
Definition stably_selected d (c : coefs3) (k : nat) : Prop :=
  exists t r k', In t (thresholds d) /\ r < n_reg d /\ k' < n_coef d /\
    k' mod n_feat d = k mod n_feat d /\
    (shared d = false \/ out_dim d <= 1 -> k' = k) /\
    (t <= Z.of_nat (length (filter (fun b =>
            nonzero64 (nth k' (nth r (nth b (c_data c) []) []) fzero))
            (seq 0 (n_boots_sel d)))))%Z.

(** The entry of an estimate for coefficient [k], given the coefficients [v] that
    the estimation solver returned for the support [mask]: with shared support
    [v] holds the coefficients of the support only. *)
Definition placed d (mask : list bool) (v : list f64) (k : nat) : f64 :=
  if shared d
  then if covers d mask k then nth (length (filter (covers d mask) (seq 0 k))) v fzero else fzero
  else nth k v fzero.
Definition expected_length d (mask : list bool) : nat :=
  if shared d then length (filter (covers d mask) (seq 0 (n_coef d))) else n_coef d.

(** How the estimate and the score of bootstrap [b] and support number [j] came
    about, when the rows of the support array are [rows] and the estimation
    bootstraps are [sps]. *)
Definition estimated {S E} d (sol : solver S E) (rows : list (list bool)) (sps : list split)
    (sel : selected) (b j : nat) : Prop :=
  let mask := nth j rows [] in
  let sp := nth b sps ([], []) in
  ((exists k, nth k mask false = true) /\
   exists e, est_fit sol mask (fst sp) = Ok e /\
     score sol e mask sp = Ok (at2 (s_scores sel) b j) /\
     (length (est_coef sol e) = expected_length d mask ->
      forall k, k < n_coef d -> at3 (s_estimates sel) b j k = placed d mask (est_coef sol e) k)) \/
  ((forall k, nth k mask false = false) /\
   exists e, null_fit sol (fst sp) = Ok e /\
     null_score sol e sp = Ok (at2 (s_scores sel) b j) /\
     forall k, k < n_coef d -> at3 (s_estimates sel) b j k = fzero).
