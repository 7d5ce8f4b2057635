(** Model of src/pyuoi/mpi_utils.py: arrays, collective calls and the rank
    programs of [check_valid_ndarray], [Bcast_from_root], [Gatherv_rows] and
    [load_data_MPI]; and of [np.array_split] as used in
    src/pyuoi/linear_model/base.py:235, 242, 333. *)
From Coq Require Import ZArith List Bool Arith.
From Verif Require Import Prelude F64.
Import ListNotations.

(** ** Arrays *)

(** Element types.  [OtherDtype] stands for every numpy dtype that is not a key
    of [_np2mpi] (mpi_utils.py:9-12), for instance bool. *)
Inductive dtype : Type := Float32 | Float64 | Int64 | Intc | OtherDtype (tag : nat).

Definition dtype_eqb (a b : dtype) : bool :=
  match a, b with
  | Float32, Float32 | Float64, Float64 | Int64, Int64 | Intc, Intc => true
  | OtherDtype m, OtherDtype n => m =? n
  | _, _ => false
  end.

(** mpi_utils.py:9-12 [_np2mpi]: is the dtype a key of the table? *)
Definition np2mpi (d : dtype) : bool :=
  match d with OtherDtype _ => false | _ => true end.

Inductive scalar : Type := SInt (z : Z) | SFlt (x : f64).

(** A C-contiguous ndarray: shape, dtype, elements in row-major order. *)
Record nd := mkNd { nd_shape : list nat; nd_dtype : dtype; nd_data : list scalar }.

Definition prod (l : list nat) : nat := fold_right Nat.mul 1 l.

(** The part of numpy's behaviour that the code leaves open: the contents of
    [np.empty], and what [np.empty(None)] does (a 0-d array in old versions,
    TypeError in recent ones). *)
Record np_env := mkEnv { junk : nat -> scalar; empty_none : result nd }.

Definition np_empty (env : np_env) (shape : list nat) (d : dtype) : nd :=
  mkNd shape d (map (junk env) (seq 0 (prod shape))).

(** ** Objects sent with the lower-case (pickling) methods *)
Inductive obj : Type :=
| ONone
| OShape (s : list nat)
| ODtype (d : dtype)
| OInt (n : nat)
| ONd (a : nd).

(** ** Collective calls, as posted by one rank *)
Inductive call : Type :=
| CBcastObj (root : nat) (o : obj)                        (* comm.bcast *)
| CBcastBuf (root : nat) (a : nd)                         (* comm.Bcast *)
| CGather (root : nat) (o : obj)                          (* comm.gather *)
| CReduceSum (root : nat) (n : nat)                       (* comm.Reduce, MPI.SUM *)
| CGatherv (root : nat) (send : nd)                       (* comm.Gatherv *)
           (recv : option (nd * list nat * list nat)).    (* rec, sizes, disps *)

Inductive resp : Type :=
| RNothing                       (* gather/Reduce/Gatherv on a non-root rank *)
| RObj (o : obj)
| RObjs (l : list obj)
| RInt (n : nat)
| RNd (a : nd).

(** A rank program: finished (with a value or an exception), or waiting in a
    collective call. *)
Inductive proc (A : Type) : Type :=
| Done (r : result A)
| Coll (c : call) (k : resp -> proc A).
Arguments Done {A} r.
Arguments Coll {A} c k.

Fixpoint pbind {A B} (p : proc A) (f : A -> proc B) : proc B :=
  match p with
  | Done (Ok a) => f a
  | Done (Raise e) => Done (Raise e)
  | Coll c k => Coll c (fun r => pbind (k r) f)
  end.

Notation "'let!' x ':=' p 'in' k" := (pbind p (fun x => k))
  (at level 200, x pattern, p at level 100, k at level 200, right associativity).

(** Local computation that may raise. *)
Definition lift {A} (r : result A) : proc A := Done r.

(** ** What MPI answers to rank [i] in one collective.

    [look j] is the call that rank [j] has posted for this collective, if it
    has posted it already.  [None] means that rank [i] cannot leave the
    collective: a needed contribution is missing, or the calls do not match
    (different operation, root, type or size - an erroneous MPI program). *)

Fixpoint all_some {A} (l : list (option A)) : option (list A) :=
  match l with
  | [] => Some []
  | None :: _ => None
  | Some a :: r => match all_some r with Some r' => Some (a :: r') | None => None end
  end.

Definition the_gather (root : nat) (c : call) : option obj :=
  match c with CGather root' o => if root' =? root then Some o else None | _ => None end.
Definition the_reduce (root : nat) (c : call) : option nat :=
  match c with CReduceSum root' n => if root' =? root then Some n else None | _ => None end.
Definition the_gatherv (root : nat) (c : call) : option nd :=
  match c with CGatherv root' s _ => if root' =? root then Some s else None | _ => None end.

Definition obind {A B} (o : option A) (f : A -> option B) : option B :=
  match o with Some a => f a | None => None end.

(** All ranks' contributions, extracted by [f]. *)
Definition collect {A} (n : nat) (look : nat -> option call) (f : call -> option A)
  : option (list A) :=
  all_some (map (fun j => obind (look j) f) (seq 0 n)).

(** Write [xs] into [buf] at offset [off]; [None] if it does not fit. *)
Definition overwrite (buf : list scalar) (off : nat) (xs : list scalar) : option (list scalar) :=
  if off + length xs <=? length buf
  then Some (firstn off buf ++ xs ++ skipn (off + length xs) buf)
  else None.

(** MPI_Gatherv at the root: rank [j]'s elements go to [disps[j]]; the counts
    announced by the root must be those sent. *)
Fixpoint place (d : dtype) (buf : list scalar) (sends : list nd) (sizes disps : list nat)
  : option (list scalar) :=
  match sends, sizes, disps with
  | [], [], [] => Some buf
  | s :: sends', n :: sizes', o :: disps' =>
      if (length (nd_data s) =? n) && dtype_eqb (nd_dtype s) d
      then obind (overwrite buf o (nd_data s)) (fun buf' => place d buf' sends' sizes' disps')
      else None
  | _, _, _ => None
  end.

Definition respond (n i : nat) (look : nat -> option call) : option resp :=
  match look i with
  | None => None
  | Some (CBcastObj root o) =>
      if i =? root then Some (RObj o)
      else match look root with
           | Some (CBcastObj root' o') => if root' =? root then Some (RObj o') else None
           | _ => None
           end
  | Some (CBcastBuf root a) =>
      if i =? root then Some (RNd a)
      else match look root with
           | Some (CBcastBuf root' b) =>
               if (root' =? root) && dtype_eqb (nd_dtype a) (nd_dtype b)
                  && (length (nd_data a) =? length (nd_data b))
               then Some (RNd (mkNd (nd_shape a) (nd_dtype a) (nd_data b)))
               else None
           | _ => None
           end
  | Some (CGather root o) =>
      if i =? root
      then match collect n look (the_gather root) with
           | Some l => Some (RObjs l) | None => None end
      else Some RNothing
  | Some (CReduceSum root _) =>
      if i =? root
      then match collect n look (the_reduce root) with
           | Some l => Some (RInt (fold_right Nat.add 0 l)) | None => None end
      else Some RNothing
  | Some (CGatherv root s recv) =>
      if i =? root
      then match collect n look (the_gatherv root) with
           | None => None
           | Some sends =>
               match recv with
               | Some (rec, sizes, disps) =>
                   match place (nd_dtype rec) (nd_data rec) sends sizes disps with
                   | Some data => Some (RNd (mkNd (nd_shape rec) (nd_dtype rec) data))
                   | None => None
                   end
               | None =>
                   (* no receive buffer: only empty contributions fit *)
                   if forallb (fun s => length (nd_data s) =? 0) sends
                   then Some RNothing else None
               end
           end
      else Some RNothing
  end.

(** ** The functions of mpi_utils.py *)

(** What a caller passes as [send]. *)
Inductive arg : Type := ArgNone | ArgNd (a : nd) | ArgOther.

(** mpi_utils.py:17-35 [check_valid_ndarray]. Arrays are already contiguous in
    the model, so [np.ascontiguousarray] is the identity (except that it turns
    0-d arrays into 1-d ones). *)
Definition contiguous (a : nd) : nd :=
  match nd_shape a with
  | [] => mkNd [1] (nd_dtype a) (nd_data a)
  | _ => a
  end.
Definition check_valid_ndarray (X : arg) : result (option nd) :=
  match X with
  | ArgNone => Ok None
  | ArgNd a => Ok (Some (contiguous a))
  | ArgOther => Raise ValueError
  end.

(** [np.empty(shape, dtype=dtype)] on a received shape and dtype;
    [np.dtype(None)] is float64. *)
Definition dtype_of_obj (o : obj) : result dtype :=
  match o with
  | ODtype d => Ok d
  | ONone => Ok Float64
  | _ => Raise TypeError
  end.
Definition empty_of_obj (env : np_env) (shape : obj) (d : obj) : result nd :=
  match shape with
  | OShape s => let* d := dtype_of_obj d in Ok (np_empty env s d)
  | ONone => empty_none env
  | _ => Raise TypeError
  end.

(** comm.bcast of an object. *)
Definition bcast_obj (root : nat) (o : obj) : proc obj :=
  Coll (CBcastObj root o)
       (fun r => match r with RObj o' => Done (Ok o') | _ => Done (Raise OtherError) end).

(** comm.Bcast([a, _np2mpi[np.dtype(d)]], root): KeyError for other dtypes. *)
Definition bcast_buf (root : nat) (a : nd) (d : dtype) : proc nd :=
  if np2mpi d
  then Coll (CBcastBuf root a)
            (fun r => match r with RNd b => Done (Ok b) | _ => Done (Raise OtherError) end)
  else Done (Raise KeyError).

(** mpi_utils.py:92-126 [Bcast_from_root], as executed by [rank].  The tests
    [rank == 0] of lines 115 and 123 are kept as written. *)
Definition Bcast_from_root (env : np_env) (rank root : nat) (send : arg) : proc nd :=
  match check_valid_ndarray send with
  | Raise e => Done (Raise e)
  | Ok send =>
      if rank =? 0 then
        match send with
        | None => Done (Raise AttributeError)        (* None.dtype, line 116 *)
        | Some a =>
            let! _ := bcast_obj root (OShape (nd_shape a)) in
            let! d := bcast_obj root (ODtype (nd_dtype a)) in
            let! d := lift (dtype_of_obj d) in
            bcast_buf root a d
        end
      else
        let! shape := bcast_obj root ONone in
        let! d := bcast_obj root ONone in
        let! a := lift (empty_of_obj env shape d) in
        let! d := lift (dtype_of_obj d) in
        bcast_buf root a d
  end.

(** np.cumsum shifted by one: mpi_utils.py:164. *)
Fixpoint offsets (start : nat) (sizes : list nat) : list nat :=
  match sizes with [] => [] | s :: r => start :: offsets (start + s) r end.

Definition obj_int (o : obj) : nat := match o with OInt n => n | _ => 0 end.

(** mpi_utils.py:129-171 [Gatherv_rows], as executed by [rank].  The final
    [Gatherv] has [root=0] as in line 170. Sizes are naturals ([np.prod(())] is
    the float 1.0 in numpy and mpi4py converts it). *)
Definition Gatherv_rows (env : np_env) (rank root : nat) (send : arg) : proc (option nd) :=
  match check_valid_ndarray send with
  | Raise e => Done (Raise e)
  | Ok None => Done (Raise AttributeError)
  | Ok (Some a) =>
      match nd_shape a with
      | [] => Done (Raise IndexError)
      | rows :: rest =>
          Coll (CGather root (OInt rows)) (fun rs =>
          Coll (CReduceSum root rows) (fun rt =>
          let recv :=
            if rank =? root then
              let rank_sizes := match rs with RObjs l => map obj_int l | _ => [] end in
              let tot := match rt with RInt t => t | _ => 0 end in
              let sizes := map (fun s => s * prod rest) rank_sizes in
              Some (np_empty env (tot :: rest) (nd_dtype a), sizes, offsets 0 sizes)
            else None in
          if np2mpi (nd_dtype a) then
            Coll (CGatherv 0 a recv) (fun r =>
              match r with
              | RNd filled => Done (Ok (Some filled))
              | _ => Done (Ok (match recv with
                               | Some (rec, _, _) => Some rec
                               | None => None end))
              end)
          else Done (Raise KeyError)))
      end
  end.

(** mpi_utils.py:38-89 [load_data_MPI], as executed by [rank]; [file] is what
    h5py returns on root (or the exception it raises). *)
Definition load_data_MPI (env : np_env) (file : result (nd * nd)) (rank root : nat)
  : proc (nd * nd) :=
  let! xy := lift (if rank =? root then rmap Some file else Ok None) in
  let shp a := match a with Some b => OShape (nd_shape b) | None => ONone end in
  let dty a := match a with Some b => ODtype (nd_dtype b) | None => ONone end in
  let X := option_map fst xy in
  let y := option_map snd xy in
  let! Xshape := bcast_obj root (shp X) in
  let! Xdtype := bcast_obj root (dty X) in
  let! yshape := bcast_obj root (shp y) in
  let! ydtype := bcast_obj root (dty y) in
  let! X := lift (match X with Some a => Ok a | None => empty_of_obj env Xshape Xdtype end) in
  let! y := lift (match y with Some a => Ok a | None => empty_of_obj env yshape ydtype end) in
  let! X := bcast_buf root X (nd_dtype X) in
  let! y := bcast_buf root y (nd_dtype y) in
  Done (Ok (X, y)).

(** ** np.array_split(np.arange(n), size)[rank]  (base.py:235, 242, 333).
    numpy gives the first [n mod size] pieces one element more. *)
Definition piece_len (n size rank : nat) : nat :=
  n / size + (if rank <? n mod size then 1 else 0).
Definition piece_start (n size rank : nat) : nat :=
  rank * (n / size) + Nat.min rank (n mod size).
Definition array_split_arange (n size rank : nat) : list nat :=
  seq (piece_start n size rank) (piece_len n size rank).

(** ** Semantics *)

(** Asynchronous executions.  Each rank has its program, the number of
    collectives it has left, and the calls it has posted so far. *)
Record config (A : Type) := mkConfig {
  prog : nat -> proc A;
  left_ : nat -> nat;
  posted : nat -> list call
}.
Arguments mkConfig {A}.
Arguments prog {A}.
Arguments left_ {A}.
Arguments posted {A}.

Definition upd {T} (f : nat -> T) (i : nat) (x : T) : nat -> T :=
  fun j => if j =? i then x else f j.

(** [wait i m = true]: the MPI library makes rank [i] wait in collective [m]
    until every rank has entered it, which the standard allows but does not
    require. *)
Inductive step {A} (n : nat) (wait : nat -> nat -> bool) : config A -> config A -> Prop :=
| StepPost cf i c k :
    i < n -> prog cf i = Coll c k -> length (posted cf i) = left_ cf i ->
    step n wait cf (mkConfig (prog cf) (left_ cf)
                             (upd (posted cf) i (posted cf i ++ [c])))
| StepLeave cf i c k r :
    i < n -> prog cf i = Coll c k -> length (posted cf i) = S (left_ cf i) ->
    respond n i (fun j => if j <? n then nth_error (posted cf j) (left_ cf i) else None) = Some r ->
    (wait i (left_ cf i) = true -> forall j, j < n -> left_ cf i < length (posted cf j)) ->
    step n wait cf (mkConfig (upd (prog cf) i (k r)) (upd (left_ cf) i (S (left_ cf i)))
                             (posted cf)).

Inductive steps {A} (n : nat) (wait : nat -> nat -> bool) : nat -> config A -> config A -> Prop :=
| Steps0 cf : steps n wait 0 cf cf
| StepsS m cf cf' cf'' : steps n wait m cf cf' -> step n wait cf' cf'' ->
    steps n wait (S m) cf cf''.

Definition start {A} (ps : nat -> proc A) : config A :=
  mkConfig ps (fun _ => 0) (fun _ => []).
