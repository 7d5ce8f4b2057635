(** Model of [AbstractUoILinearModel.fit], src/pyuoi/linear_model/base.py:179-445,
    as the program executed by one rank of a communicator (or by a single
    process: [size = 1]).

    Everything that depends on the data is a parameter, so that theorems hold
    for every data set, solver and scoring function:
    - [solver]: what the selection and estimation models, the scoring function
      and [_fit_intercept] do, as functions that may raise.  The selection
      solver has a state (it may warm start); the estimation solvers of pyuoi
      are created without warm start, so they have none.
    - [draw]: [train_test_split] together with the random state it consumes.
    - [post]: [_post_fit].
    The response and the design matrix are the same on all ranks, as the
    documentation requires.  [n_boots_sel >= 1] (with 0 numpy shapes differ). *)
From Coq Require Import ZArith List Bool Arith.
From Verif Require Import Prelude F64 Model_Intersection Model_Mpi.
Import ListNotations.

(** Sizes and options that [fit] reads: base.py:85-122, 205-207, 224-225. *)
Record dims := mkDims {
  n_feat : nat;              (* X.shape[1] *)
  out_dim : nat;             (* self.output_dim *)
  n_boots_sel : nat;
  n_boots_est : nat;
  n_reg : nat;               (* len(self.reg_params_) *)
  thresholds : list Z;       (* self.selection_thresholds_ *)
  shared : bool;             (* self.shared_support *)
  glm : bool                 (* which class's [intersect] is used *)
}.

(** base.py:483-488 [get_n_coef]. *)
Definition n_coef (d : dims) : nat := n_feat d * out_dim d.

(** base.py:567-569 and 724-735: the two [intersect] methods. *)
Definition intersect (d : dims) (c : coefs3) : result barray :=
  if glm d then glm_intersect (out_dim d) (shared d) c (thresholds d)
  else linear_intersect c (thresholds d).

(** Row indices of one bootstrap: training rows, test rows. *)
Definition split := (list nat * list nat)%type.

Record solver (S E : Type) := mkSolver {
  reset : S -> S;                                            (* base.py:280-283 *)
  sweep : S -> list nat -> list nat -> result (S * list (list f64));
                       (* uoi_selection_sweep(X_rep, y_rep, reg params) *)
  est_fit : list bool -> list nat -> result E;               (* base.py:377, 381 *)
  est_coef : E -> list f64;                                  (* coef_.ravel() *)
  null_fit : list nat -> result E;                           (* base.py:391 *)
  score : E -> list bool -> split -> result f64;             (* base.py:384-389 *)
  null_score : E -> split -> result f64;                     (* base.py:396-401 *)
  fit_int : list f64 -> result nd                            (* _fit_intercept *)
}.
Arguments reset {S E}.
Arguments sweep {S E}.
Arguments est_fit {S E}.
Arguments est_coef {S E}.
Arguments null_fit {S E}.
Arguments score {S E}.
Arguments null_score {S E}.
Arguments fit_int {S E}.

(** base.py:469-481 [uoi_selection_sweep] of the base class: the solver is refitted
    for each regularization parameter in turn, keeping its state.  [lm_fit] is
    [set_params] followed by [fit] and [coef_.ravel()]. *)
Fixpoint base_sweep {S} (lm_fit : S -> nat -> list nat -> result (S * list f64))
    (s : S) (regs : list nat) (train : list nat) : result (S * list (list f64)) :=
  match regs with
  | [] => Ok (s, [])
  | r :: regs' =>
      let* x := lm_fit s r train in
      let* y := base_sweep lm_fit (fst x) regs' train in
      Ok (fst y, snd x :: snd y)
  end.

(** The attributes set by [fit].  [f_sel] is [None] when the call returns early
    (base.py:213-218) and leaves these attributes untouched. *)
Record selected := mkSelected {
  s_supports : barray;                  (* supports_ *)
  s_estimates : nd;                     (* estimates_ *)
  s_scores : nd;                        (* scores_ *)
  s_rp_max_idx : nd                     (* rp_max_idx_ *)
}.
Record fitted := mkFitted {
  f_sel : option selected;
  f_coef : nd;                          (* coef_ *)
  f_intercept : nd                      (* intercept_ *)
}.

(** ** Arrays to and from lists *)
Definition nd_of_nats (l : list nat) : nd :=
  mkNd [length l] Int64 (map (fun k => SInt (Z.of_nat k)) l).
Definition nat_of_scalar (s : scalar) : nat :=
  match s with SInt z => Z.to_nat z | SFlt _ => 0 end.
Definition nats_of_nd (a : nd) : list nat := map nat_of_scalar (nd_data a).

Definition nd_of_floats (shape : list nat) (l : list f64) : nd :=
  mkNd shape Float64 (map SFlt l).
Definition float_of_scalar (s : scalar) : f64 :=
  match s with SFlt x => x | SInt z => f64_of_Z z end.
Definition floats_of_nd (a : nd) : list f64 := map float_of_scalar (nd_data a).

(** base.py:314-318 [.astype(int)] and base.py:321 [.astype(bool)]. *)
Definition scalar_of_bool (b : bool) : scalar := SInt (if b then 1 else 0).
Definition bool_of_scalar (s : scalar) : bool :=
  match s with SInt z => negb (Z.eqb z 0) | SFlt x => nonzero64 x end.
Definition nd_of_barray (a : barray) : nd :=
  match a with
  | Arr0 b => mkNd [] Int64 [scalar_of_bool b]
  | Arr1 l => mkNd [length l] Int64 (map scalar_of_bool l)
  | Arr2 p rows => mkNd [length rows; p] Int64 (map scalar_of_bool (concat rows))
  end.
Definition barray_of_nd (a : nd) : barray :=
  let l := map bool_of_scalar (nd_data a) in
  match nd_shape a with
  | [n; p] => Arr2 p (chunks p n l)
  | [n] => Arr1 l
  | _ => Arr0 (hd false l)
  end.

(** base.py:324 [self.supports_.shape[0]]. *)
Definition n_supports (a : barray) : result nat :=
  match a with
  | Arr0 _ => Raise IndexError
  | Arr1 l => Ok (length l)
  | Arr2 _ rows => Ok (length rows)
  end.

(** ** numpy's argmax and median *)

(** np.argmax of one row: numpy's loop keeps the first element not [<=] the best
    so far and stops at a NaN. *)
Fixpoint argmax_loop (i : nat) (best : f64) (besti : nat) (l : list f64) : nat :=
  match l with
  | [] => besti
  | v :: r => if fleb v best then argmax_loop (S i) best besti r
              else if is_nan64 v then i
              else argmax_loop (S i) v i r
  end.
Definition np_argmax (l : list f64) : result nat :=
  match l with
  | [] => Raise ValueError                 (* argmax of an empty sequence *)
  | v :: r => Ok (if is_nan64 v then 0 else argmax_loop 1 v 0 r)
  end.

(** np.median of one column: NaN if there is a NaN, else the mean of the one or
    two middle elements.  Which of -0.0 and 0.0 comes first is not determined by
    numpy's partition; the model sorts stably. *)
Fixpoint insert64 (x : f64) (l : list f64) : list f64 :=
  match l with
  | [] => [x]
  | y :: r => if fleb x y then x :: y :: r else y :: insert64 x r
  end.
Definition sort64 (l : list f64) : list f64 := fold_right insert64 [] l.
Definition np_median (l : list f64) : f64 :=
  if existsb is_nan64 l || (length l =? 0) then fnan
  else
    let s := sort64 l in
    let h := length l / 2 in
    if Nat.even (length l)
    then fdiv (fadd (nth (h - 1) s fnan) (nth h s fnan)) ftwo
    else nth h s fnan.

(** ** Assignments into preallocated arrays *)

(** base.py:300-301 [selection_coefs[ii] = np.squeeze(...)].  With one
    coefficient and several regularization parameters the squeezed array of
    shape (n_reg,) does not fit the slot of shape (n_reg, 1). *)
Definition store_sweep (d : dims) (many : bool) (rows : list (list f64)) : result (list f64) :=
  if negb many && (n_coef d =? 1) && (1 <? n_reg d) then Raise ValueError
  else Ok (concat rows).

(** base.py:378-379 [estimates[ii, mask] = values] into a row of zeros. *)
Fixpoint scatter (mask : list bool) (values : list f64) : list f64 :=
  match mask with
  | [] => []
  | true :: m => match values with
                 | v :: vs => v :: scatter m vs
                 | [] => fzero :: scatter m []
                 end
  | false :: m => fzero :: scatter m values
  end.
Definition assign_masked (nc : nat) (mask : list bool) (values : list f64) : result (list f64) :=
  if negb (length mask =? nc) then Raise IndexError
  else if length values =? count (fun b => b) mask then Ok (scatter mask values)
  else if length values =? 1 then Ok (scatter mask (repeat (hd fzero values) nc))
  else Raise ValueError.
(** base.py:382 [estimates[ii] = values]. *)
Definition assign_row (nc : nat) (values : list f64) : result (list f64) :=
  if length values =? nc then Ok values
  else if length values =? 1 then Ok (repeat (hd fzero values) nc)
  else Raise ValueError.

(** [my_boots[boot]]: a missing key raises KeyError. *)
Fixpoint lookup (b : nat) (l : list (nat * split)) : result split :=
  match l with
  | [] => Raise KeyError
  | (k, s) :: r => if k =? b then Ok s else lookup b r
  end.

Section Fit.
  Context {S E Rng : Type}.
  Variable env : np_env.
  Variable d : dims.
  Variable sol : solver S E.                  (* this rank's solvers *)
  Variable draw : bool -> Rng -> result (split * Rng).   (* true: selection_frac *)
  Variable post : nd -> nd -> result (nd * nd).          (* coef_, intercept_ *)
  Variables size rank : nat.

  (** base.py:248-266 and 339-357: draw the index sets of [n] bootstraps.  Only
      rank 0 draws; the others receive.  A rank keeps the bootstraps it needs
      ([keys]); a single process keeps all. *)
  Fixpoint draw_boots (sel : bool) (keys : list nat) (b n : nat) (rng : Rng)
    : proc (list (nat * split) * Rng) :=
    match n with
    | 0 => Done (Ok ([], rng))
    | Datatypes.S n' =>
        if 1 <? size then
          let! x := lift (if rank =? 0
                          then rmap (fun x => (ArgNd (nd_of_nats (fst (fst x))),
                                               ArgNd (nd_of_nats (snd (fst x))), snd x))
                                    (draw sel rng)
                          else Ok (ArgNone, ArgNone, rng)) in
          let! train := Bcast_from_root env rank 0 (fst (fst x)) in
          let! test := Bcast_from_root env rank 0 (snd (fst x)) in
          let! rest := draw_boots sel keys (Datatypes.S b) n' (snd x) in
          let mine := (b, (nats_of_nd train, nats_of_nd test)) in
          Done (Ok (if existsb (Nat.eqb b) keys then mine :: fst rest else fst rest,
                    snd rest))
        else
          let! x := lift (draw sel rng) in
          let! rest := draw_boots sel keys (Datatypes.S b) n' (snd x) in
          Done (Ok ((b, fst x) :: fst rest, snd rest))
    end.

  (** base.py:233-246: is the sweep distributed by (bootstrap, parameter)? *)
  Definition many : bool := n_boots_sel d <? size.
  Definition sel_tasks : list nat :=
    if many then array_split_arange (n_boots_sel d * n_reg d) size rank
    else array_split_arange (n_boots_sel d) size rank.
  Definition sel_boot (task : nat) : nat := if many then task / n_reg d else task.
  Definition sel_regs (task : nat) : list nat :=
    if many then [task mod n_reg d] else seq 0 (n_reg d).

  (** base.py:268-301: the selection loop.  The solver is reset whenever the
      bootstrap changes. *)
  Fixpoint sel_loop (boots : list (nat * split)) (tasks : list nat)
      (curr : option nat) (s : S) : result (S * list (list f64)) :=
    match tasks with
    | [] => Ok (s, [])
    | t :: ts =>
        let b := sel_boot t in
        let same := match curr with Some c => c =? b | None => false end in
        let s := if same then s else reset sol s in
        let* sp := lookup b boots in
        let* x := sweep sol s (sel_regs t) (fst sp) in
        let* row := store_sweep d many (snd x) in
        let* rest := sel_loop boots ts (Some b) (fst x) in
        Ok (fst rest, row :: snd rest)
    end.

  (** base.py:236, 244: the array of this rank's selection coefficients. *)
  Definition sel_array (rows : list (list f64)) : nd :=
    nd_of_floats (length rows :: if many then [n_coef d] else [n_reg d; n_coef d])
                 (concat rows).

  (** base.py:309-313: the (boots, reg params, coefs) array on rank 0. *)
  Definition sel_coefs (a : nd) : coefs3 :=
    let nb := if many then n_boots_sel d else hd 0 (nd_shape a) in
    mkCoefs (n_reg d) (n_coef d)
            (map (chunks (n_coef d) (n_reg d))
                 (chunks (n_reg d * n_coef d) nb (floats_of_nd a))).

  (** base.py:333-335. *)
  Definition est_tasks (ns : nat) : list nat :=
    array_split_arange (n_boots_est d * ns) size rank.

  (** base.py:390-401: no feature selected. *)
  Definition est_null (sp : split) : result (list f64 * f64) :=
    let* e := null_fit sol (fst sp) in
    let* sc := null_score sol e sp in
    Ok (repeat fzero (n_coef d), sc).

  (** base.py:374-389.  [mask] is a row of supports_. *)
  Definition est_masked (mask : list bool) (sp : split) : result (list f64 * f64) :=
    let* e := est_fit sol mask (fst sp) in
    let* row := if shared d
                then assign_masked (n_coef d) (concat (repeat mask (out_dim d))) (est_coef sol e)
                else assign_row (n_coef d) (est_coef sol e) in
    let* sc := score sol e mask sp in
    Ok (row, sc).

  (** base.py:363-401: one (bootstrap, support) pair.  When supports_ has rank 1
      (see C08) a support is a single boolean: [X_rep[:, True]] has three axes,
      which every solver rejects with ValueError. *)
  Definition est_task (sup : barray) (ns : nat) (boots : list (nat * split)) (t : nat)
    : result (list f64 * f64) :=
    let* sp := lookup (t / ns) boots in
    match sup with
    | Arr0 _ => Raise IndexError
    | Arr1 l =>
        if nth (t mod ns) l false
        then if shared d then Raise ValueError else est_masked [true] sp
        else est_null sp
    | Arr2 _ rows =>
        let mask := nth (t mod ns) rows [] in
        if existsb (fun b => b) mask then est_masked mask sp else est_null sp
    end.

  (** base.py:412-423 and 430-442: choice of the supports, bagging, intercept. *)
  Definition finish (ns : nat) (estimates scores : list f64)
    : result (nd * nd * nd * nd * nd) :=
    let nb := n_boots_est d in
    let rows := chunks ns nb scores in
    let* rp := mapM np_argmax rows in
    let est := map (chunks (n_coef d) ns) (chunks (ns * n_coef d) nb estimates) in
    let best := map (fun x => nth (snd x) (fst x) []) (combine est rp) in
    let coef := map (fun j => np_median (map (fun e => nth j e fzero) best))
                    (seq 0 (n_coef d)) in
    let* ic := fit_int sol coef in
    Ok (nd_of_floats [nb; ns; n_coef d] estimates,
        nd_of_floats [nb; ns] scores,
        nd_of_nats rp,
        nd_of_floats [out_dim d; n_feat d] coef,
        ic).

  (** base.py:179-445 for a response that is not constant. *)
  Definition fit_body (rng : Rng) (s0 : S) : proc fitted :=
    let keys := map sel_boot sel_tasks in
    let! x := draw_boots true keys 0 (n_boots_sel d) rng in
    let! rows := lift (rmap snd (sel_loop (fst x) sel_tasks None s0)) in
    let! sup :=
      if 1 <? size then
        let! g := Gatherv_rows env rank 0 (ArgNd (sel_array rows)) in
        let! s := lift (match g with
                        | Some a => if rank =? 0
                                    then rmap (fun s => ArgNd (nd_of_barray s))
                                              (intersect d (sel_coefs a))
                                    else Ok ArgNone
                        | None => Ok ArgNone
                        end) in
        let! s := Bcast_from_root env rank 0 s in
        Done (Ok (barray_of_nd s))
      else lift (intersect d (sel_coefs (sel_array rows))) in
    let! ns := lift (n_supports sup) in
    let tasks := est_tasks ns in
    let keys := map (fun t => t / ns) tasks in
    let! y := draw_boots false keys 0 (n_boots_est d) (snd x) in
    let! out := lift (mapM (est_task sup ns (fst y)) tasks) in
    let estimates := concat (map fst out) in
    let scores := map snd out in
    let! z :=
      if 1 <? size then
        let! ge := Gatherv_rows env rank 0
                     (ArgNd (nd_of_floats [length tasks; n_coef d] estimates)) in
        let! gs := Gatherv_rows env rank 0 (ArgNd (nd_of_floats [length tasks] scores)) in
        let! r := lift (match ge, gs with
                        | Some ae, Some as_ =>
                            if rank =? 0
                            then rmap Some (finish ns (floats_of_nd ae) (floats_of_nd as_))
                            else Ok None
                        | _, _ => Ok None
                        end) in
        let arg f := match r with Some v => ArgNd (f v) | None => ArgNone end in
        let! ests := Bcast_from_root env rank 0 (arg (fun v => fst (fst (fst (fst v))))) in
        let! scs := Bcast_from_root env rank 0 (arg (fun v => snd (fst (fst (fst v))))) in
        let! coef := Bcast_from_root env rank 0 (arg (fun v => snd (fst v))) in
        let! ic := Bcast_from_root env rank 0 (arg (fun v => snd v)) in
        let! rp := bcast_obj 0 (match r with
                                | Some v => ONd (snd (fst (fst v)))
                                | None => ONone end) in
        let! rp := lift (match rp with ONd a => Ok a | _ => Raise TypeError end) in
        Done (Ok (ests, scs, rp, coef, ic))
      else lift (finish ns estimates scores) in
    let '(ests, scs, rp, coef, ic) := z in
    let! w := lift (post coef ic) in
    Done (Ok (mkFitted (Some (mkSelected sup ests scs rp)) (fst w) (snd w))).

  (** base.py:213-218: a constant response. *)
  Definition fit_constant : proc fitted :=
    let zeros := repeat fzero (n_coef d) in
    let! ic := lift (fit_int sol zeros) in
    let! w := lift (post (nd_of_floats [out_dim d; n_feat d] zeros) ic) in
    Done (Ok (mkFitted None (fst w) (snd w))).

  (** base.py:179-445.  [constant]: [np.unique(y).size == 1]. *)
  Definition fit (constant : bool) (rng : Rng) (s0 : S) : proc fitted :=
    if constant then fit_constant else fit_body rng s0.
End Fit.

(** ** The seed: base.py:105-114.  A Python int seeds a RandomState (shifted by
    the rank); anything else but None is stored as it is, in particular a numpy
    integer, which train_test_split then uses as the seed of every draw. *)
Inductive seed_arg (RS : Type) : Type :=
| PyInt (z : Z) | NpInt (z : Z) | Instance (r : RS) | SeedNone.
Arguments PyInt {RS}.
Arguments NpInt {RS}.
Arguments Instance {RS}.
Arguments SeedNone {RS}.

Inductive rng_state (RS : Type) : Type := Stateful (r : RS) | Reseed (z : Z).
Arguments Stateful {RS}.
Arguments Reseed {RS}.

Definition init_random {RS} (seeded : Z -> RS) (os_entropy : RS) (rank : nat)
    (a : seed_arg RS) : rng_state RS :=
  match a with
  | PyInt z => Stateful (seeded (z + Z.of_nat rank)%Z)
  | NpInt z => Reseed z
  | Instance r => Stateful r
  | SeedNone => Stateful os_entropy
  end.

(** train_test_split: [tts] draws from a RandomState; an integer random_state is
    turned into a fresh RandomState at every call. *)
Definition draw_random {RS} (seeded : Z -> RS) (tts : bool -> RS -> result (split * RS))
    (sel : bool) (st : rng_state RS) : result (split * rng_state RS) :=
  match st with
  | Stateful r => rmap (fun x => (fst x, Stateful (snd x))) (tts sel r)
  | Reseed z => rmap (fun x => (fst x, Reseed z)) (tts sel (seeded z))
  end.
