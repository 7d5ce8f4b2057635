(** Specification vocabulary for the order of the samples (C130). *)
From Coq Require Import List Permutation.
Import ListNotations.

(** [perm] lists the numbers below [n] in some order. *)
Definition reorders (n : nat) (perm : list nat) : Prop := Permutation perm (seq 0 n).
(** The data in that order: place [i] holds what was at place [perm i]. *)
Definition reordered {A} (d : A) (perm : list nat) (l : list A) : list A := map (fun i => nth i l d) perm.
(** The old numbers of the samples of a bootstrap that is given by new numbers. *)
Definition renamed (perm : list nat) (sp : list nat * list nat) : list nat * list nat :=
  (map (fun i => nth i perm 0) (fst sp), map (fun i => nth i perm 0) (snd sp)).
(** A bootstrap of [n] samples. *)
Definition within (n : nat) (sp : list nat * list nat) : Prop := forall i, In i (fst sp) \/ In i (snd sp) -> i < n.
