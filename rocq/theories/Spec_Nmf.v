(** Specification vocabulary for non-negative matrix factorization (C61-C65). *)
From Coq Require Import ZArith List Bool Arith Reals.
From Verif Require Import Prelude Spec_Rescale Spec_Poisson.
Import ListNotations.
Local Open Scope R_scope.

(** Euclidean norm and cosine of the angle between two vectors with [p] entries. *)
Definition norm2 (p : nat) (a : list R) : R := sqrt (Sum p (fun j => entry a j * entry a j)).
Definition cosine (p : nat) (a b : list R) : R := Sum p (fun j => entry a j * entry b j) / (norm2 p a * norm2 p b).
(** One vector is a positive multiple of the other. *)
Definition parallel (p : nat) (a b : list R) : Prop :=
  exists s, 0 < s /\ forall j, (j < p)%nat -> entry a j = s * entry b j.

(** A basis: [k] vectors with [p] entries, none of them zero. *)
Definition basis (k p : nat) (H : list (list R)) : Prop :=
  matrix k p H /\ forall i, (i < k)%nat -> exists j, (j < p)%nat /\ mat H i j <> 0.
Definition nonnegative (H : list (list R)) : Prop := forall i j, 0 <= mat H i j.
Definition row (H : list (list R)) (i : nat) : list R := nth i H [].

(** [m] is the largest of f(0), ..., f(k-1). *)
Definition largest (k : nat) (f : nat -> R) (m : R) : Prop :=
  (exists i, (i < k)%nat /\ f i = m) /\ forall i, (i < k)%nat -> f i <= m.

(** One minus the mean, over the vectors of both bases, of the largest cosine with a vector of
    the other basis. *)
Definition is_dissimilarity (k p : nat) (H1 H2 : list (list R)) (d : R) : Prop :=
  exists m1 m2 : nat -> R,
    (forall i, (i < k)%nat -> largest k (fun j => cosine p (row H1 i) (row H2 j)) (m1 i)) /\
    (forall j, (j < k)%nat -> largest k (fun i => cosine p (row H1 i) (row H2 j)) (m2 j)) /\
    d = 1 - (Sum k m1 + Sum k m2) / (2 * INR k).

(** Sum over all pairs a < b < n. *)
Definition pair_sum (n : nat) (f : nat -> nat -> R) : R :=
  Sum n (fun a => Sum n (fun b => if (a <? b)%nat then f a b else 0)).
(** Average over all pairs. *)
Definition pair_average (n : nat) (f : nat -> nat -> R) : R := pair_sum n f / (INR n * (INR n - 1) / 2).

(** [i] is the first position of a smallest entry. *)
Definition first_smallest (l : list R) (i : nat) : Prop :=
  (i < length l)%nat /\ forall j, (j < length l)%nat -> nth i l 0 <= nth j l 0 /\ ((j < i)%nat -> nth i l 0 < nth j l 0).

(** ** Runs of the factorizations *)
Section Runs.
  Variables (M RS : Type) (nmf : nat -> M -> RS -> result M * RS).
  (** The factorizations of one sample for all ranks, in order. *)
  Inductive factorized (sample : M) : list nat -> RS -> list (nat * M) -> RS -> Prop :=
  | fact_nil st : factorized sample [] st [] st
  | fact_cons k ks st H st1 l st2 : nmf k sample st = (Ok H, st1) -> factorized sample ks st1 l st2 ->
      factorized sample (k :: ks) st ((k, H) :: l) st2.
  (** The same for all bootstrap samples. *)
  Inductive all_factorized (ks : list nat) : list M -> RS -> list (list (nat * M)) -> RS -> Prop :=
  | all_nil st : all_factorized ks [] st [] st
  | all_cons s ss st b st1 bs st2 : factorized s ks st b st1 -> all_factorized ks ss st1 bs st2 ->
      all_factorized ks (s :: ss) st (b :: bs) st2.
  (** The basis of rank [k] that is kept: the last one computed. *)
  Definition kept (k : nat) (boot : list (nat * M)) (H : M) : Prop :=
    exists l1 l2, boot = l1 ++ (k, H) :: l2 /\ ~ In k (map fst l2).
End Runs.

(** ** Clusters *)

(** Labels are -1 (noise) or 0, ..., k-1, and each of the latter is used. *)
Definition labelling (k : nat) (labels : list Z) : Prop :=
  (forall l, In l labels -> l = (-1)%Z \/ (0 <= l < Z.of_nat k)%Z) /\
  (forall c, (0 <= c < Z.of_nat k)%Z -> In c labels).
(** The rows with label [c], in order. *)
Fixpoint labelled {A} (rows : list A) (labels : list Z) (c : Z) : list A :=
  match rows, labels with
  | r :: rows, l :: labels => if (l =? c)%Z then r :: labelled rows labels c else labelled rows labels c
  | _, _ => []
  end.
(** Mean of vectors. *)
Definition mean_vector (p : nat) (H : list (list R)) : list R :=
  map (fun j => Sum (length H) (fun i => mat H i j) / INR (length H)) (seq 0 p).
(** A vector scaled to norm 1. *)
Definition scaled (p : nat) (a b : list R) : Prop :=
  length b = p /\ forall j, (j < p)%nat -> entry b j = entry a j / norm2 p a.

(** [k] rows with [p] entries. *)
Definition shape {A} (k p : nat) (H : list (list A)) : Prop := length H = k /\ Forall (fun r => length r = p) H.
