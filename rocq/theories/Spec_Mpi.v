(** Specification vocabulary for the MPI properties (C10-C20): what it means
    for every interleaving of the ranks to end well, or for a rank to hang. *)
From Coq Require Import List Arith.
From Verif Require Import Prelude Model_Mpi.
Import ListNotations.

(** Whatever the interleaving and whatever the extra synchronization done by the
    MPI library: the number of steps is bounded, an execution that has not
    reached the end can always continue, at the end rank [i] has outcome [o i],
    and a rank that finishes earlier than the others has that outcome already. *)
Definition every_execution_ends {A} (n : nat) (ps : nat -> proc A) (o : nat -> result A) : Prop :=
  (exists bound, forall wait m cf, steps n wait m (start ps) cf -> m <= bound) /\
  (forall wait m cf, steps n wait m (start ps) cf ->
     (exists cf', step n wait cf cf') \/ (forall i, i < n -> prog cf i = Done (o i))) /\
  (forall wait m cf, steps n wait m (start ps) cf ->
     forall i r, i < n -> prog cf i = Done r -> r = o i).

(** In no execution does rank [i] ever finish. *)
Definition never_returns {A} (n : nat) (ps : nat -> proc A) (i : nat) : Prop :=
  forall wait m cf, steps n wait m (start ps) cf -> forall r, prog cf i <> Done r.

(** In every execution, if rank [i] finishes then with outcome [r]. *)
Definition only_outcome {A} (n : nat) (ps : nat -> proc A) (i : nat) (r : result A) : Prop :=
  forall wait m cf, steps n wait m (start ps) cf -> forall r', prog cf i = Done r' -> r' = r.

(** Every execution without superfluous waiting can be continued until each rank
    [i] with [out i = Some r] has finished with [r]; the ranks with
    [out i = None] never finish, under any interleaving. *)
Definition every_execution_reaches {A} (n : nat) (ps : nat -> proc A)
    (out : nat -> option (result A)) : Prop :=
  (exists bound, forall wait m cf, steps n wait m (start ps) cf -> m <= bound) /\
  (forall wait m cf, steps n wait m (start ps) cf ->
     forall i r, i < n -> prog cf i = Done r -> out i = Some r) /\
  (forall m cf, steps n (fun _ _ => false) m (start ps) cf ->
     (exists cf', step n (fun _ _ => false) cf cf') \/
     (forall i r, i < n -> out i = Some r -> prog cf i = Done r)).

(** A well-formed array: as many elements as the shape says. *)
Definition wf_nd (a : nd) : Prop :=
  length (nd_data a) = fold_right Nat.mul 1 (nd_shape a).
