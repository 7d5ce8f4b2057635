(** Property theorems C10-C16 (work splitting and collective communication). *)
From Coq Require Import ZArith List Bool Arith Lia.
From Verif Require Import Prelude F64 Model_Mpi Spec_Mpi Proofs_MpiSem Proofs_Mpi.
Import ListNotations.

(** C10.  The pieces given to the ranks are the tasks 0..n-1 in order; every
    task is handled by exactly one rank; loads differ by at most one. *)
Theorem C10_partition : forall n size, 1 <= size ->
  concat (map (array_split_arange n size) (seq 0 size)) = seq 0 n.
Proof. exact array_split_concat. Qed.
Print Assumptions C10_partition.

Theorem C10_each_task_once : forall n size task, 1 <= size -> task < n ->
  exists r, r < size /\ In task (array_split_arange n size r) /\
    forall r', r' < size -> In task (array_split_arange n size r') -> r' = r.
Proof. exact array_split_once. Qed.
Print Assumptions C10_each_task_once.

Theorem C10_balanced : forall n size r r',
  length (array_split_arange n size r) <= S (length (array_split_arange n size r')).
Proof. exact array_split_balanced. Qed.
Print Assumptions C10_balanced.

Example C10_ex : map (array_split_arange 7 3) (seq 0 3) = [[0;1;2];[3;4];[5;6]] /\
  map (array_split_arange 2 4) (seq 0 4) = [[0];[1];[];[]].
Proof. split; reflexivity. Qed.

(** C11.  Gatherv_rows with root 0. *)
Theorem C11_gatherv_rows : forall env n (a : nat -> nd) rest (rows : nat -> nat),
  1 <= n ->
  (forall i, i < n -> nd_shape (a i) = rows i :: rest) ->
  (forall i, i < n -> wf_nd (a i)) ->
  (forall i, i < n -> nd_dtype (a i) = nd_dtype (a 0)) ->
  np2mpi (nd_dtype (a 0)) = true ->
  every_execution_ends n (fun i => Gatherv_rows env i 0 (ArgNd (a i)))
    (fun i => Ok (if i =? 0
                  then Some (mkNd (fold_right Nat.add 0 (map rows (seq 0 n)) :: rest)
                                  (nd_dtype (a 0))
                                  (concat (map (fun j => nd_data (a j)) (seq 0 n))))
                  else None)).
Proof.
  intros env n a rest rows H1 H2 H3 H4 H5.
  exact (runs_async _ _ _ (gatherv_root0_runs env n a rest rows H1 H2 H3 H4 H5)).
Qed.
Print Assumptions C11_gatherv_rows.

(** Three ranks with two rows, none and one row of two doubles. *)
Definition ex_env : np_env := mkEnv (fun _ => SFlt fnan) (Raise TypeError).
Definition ex_arr (i : nat) : nd :=
  match i with
  | 0 => mkNd [2; 2] Float64 [SFlt fone; SFlt ftwo; SFlt fone; SFlt fzero]
  | 1 => mkNd [0; 2] Float64 []
  | _ => mkNd [1; 2] Float64 [SFlt ftwo; SFlt ftwo]
  end.
Example C11_ex :
  (forall i, i < 3 -> nd_shape (ex_arr i) = nth i [2; 0; 1] 0 :: [2]) /\
  (forall i, i < 3 -> wf_nd (ex_arr i)) /\
  (forall i, i < 3 -> nd_dtype (ex_arr i) = nd_dtype (ex_arr 0)).
Proof.
  repeat split; intros i Hi; do 3 (destruct i as [|i]; [reflexivity|]); lia.
Qed.

(** C12.  Bcast_from_root with root 0.  [contiguous a] is [a] itself unless [a]
    is 0-d, in which case numpy makes it one-dimensional. *)
Theorem C12_bcast_from_root : forall env n (sends : nat -> arg) a,
  1 <= n -> sends 0 = ArgNd a -> wf_nd a -> np2mpi (nd_dtype a) = true ->
  (forall i, 0 < i < n -> sends i <> ArgOther) ->
  nd_shape a <> [] ->
  every_execution_ends n (fun i => Bcast_from_root env i 0 (sends i)) (fun _ => Ok a).
Proof. exact bcast_root0_ends. Qed.
Print Assumptions C12_bcast_from_root.

Theorem C12_unsupported_dtype : forall env n (sends : nat -> arg) a,
  1 <= n -> sends 0 = ArgNd a -> np2mpi (nd_dtype a) = false ->
  (forall i, 0 < i < n -> sends i <> ArgOther) ->
  every_execution_ends n (fun i => Bcast_from_root env i 0 (sends i)) (fun _ => Raise KeyError).
Proof.
  intros env n sends a H1 H2 H3 H4.
  exact (runs_async _ _ _ (bcast_root0_keyerror env n sends a H1 H2 H3 H4)).
Qed.
Print Assumptions C12_unsupported_dtype.

(** Rank 0 has nothing to send: it raises and all others hang. *)
Theorem C12_root_sends_none : forall env n (sends : nat -> arg),
  1 <= n -> sends 0 = ArgNone ->
  (forall i, 0 < i < n -> sends i <> ArgOther) ->
  every_execution_reaches n (fun i => Bcast_from_root env i 0 (sends i))
    (fun i => if i =? 0 then Some (Raise AttributeError) else None).
Proof.
  intros env n sends H1 H2 H3.
  exact (hruns_async _ _ _ (bcast_root0_none env n sends H1 H2 H3)).
Qed.
Print Assumptions C12_root_sends_none.

Example C12_ex :
  let sends i := match i with 0 => ArgNd (ex_arr 0) | 1 => ArgNone | _ => ArgNd (ex_arr 2) end in
  sends 0 = ArgNd (ex_arr 0) /\ wf_nd (ex_arr 0) /\ np2mpi (nd_dtype (ex_arr 0)) = true /\
  (forall i, 0 < i < 3 -> sends i <> ArgOther).
Proof. repeat split. intros i Hi. do 3 (destruct i as [|i]; [simpl; congruence|]). lia. Qed.

(** C13 (finding).  With a non-zero root the array of root is never looked at:
    the programs of all ranks, hence all executions, are the same whatever
    array root passes. *)
Theorem C13_root_array_ignored : forall env root (sends : nat -> arg) a b,
  root <> 0 ->
  forall i, Bcast_from_root env i root (if i =? root then ArgNd a else sends i)
          = Bcast_from_root env i root (if i =? root then ArgNd b else sends i).
Proof. exact root_array_ignored. Qed.
Print Assumptions C13_root_array_ignored.

(** With a numpy whose np.empty(None) raises [e]: all ranks but 0 raise [e] and
    rank 0 hangs. *)
Theorem C13_nonzero_root_raises : forall env n root (sends : nat -> arg) e a0,
  0 < root < n -> empty_none env = Raise e ->
  sends 0 = ArgNd a0 -> np2mpi (nd_dtype a0) = true ->
  (forall i, 0 < i < n -> sends i <> ArgOther) ->
  every_execution_reaches n (fun i => Bcast_from_root env i root (sends i))
    (fun i => if i =? 0 then None else Some (Raise e)).
Proof.
  intros env n root sends e a0 H1 H2 H3 H4 H5.
  exact (hruns_async _ _ _ (bcast_nonzero_root env n root sends e a0 H1 H2 H3 H4 H5)).
Qed.
Print Assumptions C13_nonzero_root_raises.

(** With a numpy whose np.empty(None) is an uninitialized array [z] of doubles:
    all ranks but 0 return [z], and rank 0 does not return if its own array has
    another type or size. *)
Theorem C13_nonzero_root_garbage : forall env n root (sends : nat -> arg) z a0,
  0 < root < n -> empty_none env = Ok z -> nd_dtype z = Float64 ->
  sends 0 = ArgNd a0 ->
  (nd_dtype a0 <> Float64 \/ length (nd_data a0) <> length (nd_data z)) ->
  (forall i, 0 < i < n -> sends i <> ArgOther) ->
  every_execution_reaches n (fun i => Bcast_from_root env i root (sends i))
    (fun i => if i =? 0 then None else Some (Ok z)).
Proof.
  intros env n root sends z a0 H1 H2 H3 H4 H5 H6.
  exact (hruns_async _ _ _ (bcast_nonzero_root_old env n root sends z a0 H1 H2 H3 H4 H5 H6)).
Qed.
Print Assumptions C13_nonzero_root_garbage.

Example C13_ex :
  (0 < 1 < 3) /\ empty_none ex_env = Raise TypeError /\ np2mpi (nd_dtype (ex_arr 0)) = true.
Proof. repeat split; lia. Qed.

(** C14 (finding).  With a non-zero root: rank 0 never returns, and root gets an
    uninitialized array. *)
Theorem C14_nonzero_root : forall env n root (a : nat -> nd) rest (rows : nat -> nat),
  0 < root < n ->
  (forall i, i < n -> nd_shape (a i) = rows i :: rest) ->
  (forall i, i < n -> nd_dtype (a i) = nd_dtype (a 0)) ->
  np2mpi (nd_dtype (a 0)) = true ->
  (exists i, i < n /\ nd_data (a i) <> []) ->
  every_execution_reaches n (fun i => Gatherv_rows env i root (ArgNd (a i)))
    (fun i => if i =? 0 then None
              else Some (Ok (if i =? root
                             then Some (np_empty env (fold_right Nat.add 0 (map rows (seq 0 n)) :: rest)
                                                 (nd_dtype (a 0)))
                             else None))).
Proof.
  intros env n root a rest rows H1 H2 H3 H4 H5.
  exact (hruns_async _ _ _ (gatherv_nonzero_root env n root a rest rows H1 H2 H3 H4 H5)).
Qed.
Print Assumptions C14_nonzero_root.

Example C14_ex : 0 < 2 < 3 /\ exists i, i < 3 /\ nd_data (ex_arr i) <> [].
Proof. split; [lia|]. exists 0. split; [lia|discriminate]. Qed.

(** C15.  load_data_MPI. *)
Theorem C15_load_data : forall env n root X y,
  root < n -> wf_nd X -> wf_nd y ->
  np2mpi (nd_dtype X) = true -> np2mpi (nd_dtype y) = true ->
  every_execution_ends n (fun i => load_data_MPI env (Ok (X, y)) i root) (fun _ => Ok (X, y)).
Proof.
  intros env n root X y H1 H2 H3 H4 H5.
  exact (runs_async _ _ _ (load_data_runs env n root X y H1 H2 H3 H4 H5)).
Qed.
Print Assumptions C15_load_data.

Theorem C15_read_error : forall env n root e, root < n ->
  every_execution_reaches n (fun i => load_data_MPI env (Raise e) i root)
    (fun i => if i =? root then Some (Raise e) else None).
Proof.
  intros env n root e H. exact (hruns_async _ _ _ (load_data_fails env n root e H)).
Qed.
Print Assumptions C15_read_error.

Example C15_ex : 2 < 3 /\ wf_nd (ex_arr 0) /\ wf_nd (mkNd [2] Int64 [SInt 0; SInt 1]).
Proof. repeat split. lia. Qed.

(** C16.  For any rank programs: if under one interleaving all ranks finish,
    then every interleaving ends with the same outcomes on all ranks. *)
Theorem C16_schedule_independent : forall (A : Type) n wait (ps : nat -> proc A) o m cf,
  steps n wait m (start ps) cf -> (forall i, i < n -> prog cf i = Done (o i)) ->
  every_execution_reaches n ps (fun i => Some (o i)).
Proof. intros A. exact (@one_execution_decides A). Qed.
Print Assumptions C16_schedule_independent.

(** If moreover all ranks took part in equally many collectives, this is so
    whatever additional synchronization the MPI library performs. *)
Theorem C16_any_synchronization : forall (A : Type) n wait (ps : nat -> proc A) o m cf L,
  steps n wait m (start ps) cf -> (forall i, i < n -> prog cf i = Done (o i)) ->
  (forall i, i < n -> left_ cf i = L) ->
  every_execution_ends n ps o.
Proof. intros A. exact (@one_execution_decides_all A). Qed.
Print Assumptions C16_any_synchronization.

(** A complete execution of a two-rank broadcast exists. *)
Example C16_ex : exists m cf,
  steps 2 (fun _ _ => false) m
    (start (fun i => bcast_obj 0 (if i =? 0 then OInt 7 else ONone))) cf /\
  (forall i, i < 2 -> prog cf i = Done (Ok (OInt 7))) /\ (forall i, i < 2 -> left_ cf i = 1).
Proof.
  eexists. eexists. split.
  - eapply StepsS; [eapply StepsS; [eapply StepsS; [eapply StepsS; [apply Steps0|]|]|]|].
    + eapply StepPost with (i := 0); [lia|reflexivity|reflexivity].
    + eapply StepLeave with (i := 0); [lia|reflexivity|reflexivity|reflexivity|discriminate].
    + eapply StepPost with (i := 1); [lia|reflexivity|reflexivity].
    + eapply StepLeave with (i := 1); [lia|reflexivity|reflexivity|reflexivity|discriminate].
  - split; intros i Hi; destruct i as [|[|i]]; try reflexivity; lia.
Qed.

(** C75.  An argument that is neither None nor an array is rejected before any
    communication (the program is already finished), on any rank. *)
Theorem C75_bcast_not_array : forall env rank root,
  Bcast_from_root env rank root ArgOther = Done (Raise ValueError).
Proof. exact bcast_not_array. Qed.
Print Assumptions C75_bcast_not_array.

Theorem C75_gatherv_not_array : forall env rank root,
  Gatherv_rows env rank root ArgOther = Done (Raise ValueError) /\
  Gatherv_rows env rank root ArgNone = Done (Raise AttributeError).
Proof. exact gatherv_not_array. Qed.
Print Assumptions C75_gatherv_not_array.
