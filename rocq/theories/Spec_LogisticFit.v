(** Specification vocabulary for the logistic solver path (C38, C55, C91). *)
From Coq Require Import ZArith List Bool Arith Reals.
From Verif Require Import Num Spec_Rescale Spec_Poisson Spec_Logistic Model_Lbfgs Spec_Lbfgs.
Import ListNotations.

Section Any.
  Context {N : NumOps}.

  (** An objective without state. *)
  Definition stateless {St} (f : list N -> list N -> list N * list N * answer N) : objective N St :=
    fun st x g => (st, f x g).

  (** Only the last [k] entries of the reported point may differ from zero. *)
  Definition only_last (k : nat) (q : report N) : Prop :=
    forall i v, (i + k < length (r_x q))%nat -> nth_error (r_x q) i = Some v -> neqb v nzero = true.

  (** Entry [j] of the start for one class with [q] parameters: the warm start's if it has
      one, otherwise zero, except that the last entry is [last]. *)
  Definition start_entry (q : nat) (coef : option (list N)) (last : N) (j : nat) : N :=
    let cold := if Nat.eqb (S j) q then last else nzero in
    match coef with Some c => if Nat.ltb j (length c) then nth j c nzero else cold | None => cold end.

  (** Two consecutive iterates of this kind. *)
  Definition twice_only_last (k : nat) (log : list (report N)) : Prop :=
    exists i q1 q2, nth_error log i = Some q1 /\ nth_error log (S i) = Some q2 /\ only_last k q1 /\ only_last k q2.
End Any.

(** A matrix with [n] rows of length [p]. *)
Definition grid {A} (n p : nat) (X : list (list A)) : Prop := length X = n /\ Forall (fun r => length r = p) X.

(** Shape of the coefficients used as a warm start. *)
Definition warm_rows {A} (k p q : nat) (coef : option (list (list A))) : Prop :=
  match coef with Some c => grid k p c \/ grid k q c | None => True end.

(** Coefficients [cf] and intercepts [b] read off an array of [k] entries per feature and,
    if [has], [k] intercepts at the end. *)
Definition laid_out {N : NumOps} (has : bool) (k p : nat) (w : list N) (cf : list (list N)) (b : list N) : Prop :=
  grid k p cf /\ length b = k /\
  forall c, (c < k)%nat ->
    (forall j, (j < p)%nat -> nth j (nth c cf []) nzero = nth (j * k + c) w nzero) /\
    nth c b nzero = if has then nth (p * k + c) w nzero else nzero.

Local Open Scope R_scope.

(** A mask of zeros and ones for [p] features. *)
Definition zero_one (p : nat) (m : list R) : Prop := length m = p /\ forall j, (j < p)%nat -> entry m j = 0 \/ entry m j = 1.

(** Objective of an L1-penalized logistic model with coefficients [c] and intercept [b]:
    weighted mean loss for labels -1/+1, plus [lam] times the sum of absolute coefficients. *)
Definition l1_loss (n p : nat) (X : list (list R)) (s sw : list R) (lam : R) (c : list R) (b : R) : R :=
  logistic_loss n p X s sw 0 c b + lam * Sum p (fun j => Rabs (entry c j)).

(** The same for [k] classes; the rows of [C] are the coefficients of the classes, [B] the
    intercepts and [Y] the class indicators of the samples. *)
Definition packed (C : list (list R)) (B : list R) : list R := concat (map (fun rb => fst rb ++ [snd rb]) (combine C B)).
Definition indicators (k : nat) (y : list nat) : list (list R) := map (fun v => map (ind v) (seq 0 k)) y.
Definition l1_multi_loss (n p k : nat) (X Y : list (list R)) (sw : list R) (lam : R) (C : list (list R)) (B : list R) : R :=
  multi_loss n p (S p) k X Y sw 0 (packed C B) + lam * Sum k (fun c => Sum p (fun j => Rabs (mat C c j))).

(** [c] is zero wherever the mask is. *)
Definition obeys (p : nat) (mask : option (list R)) (c : list R) : Prop :=
  forall m, mask = Some m -> forall j, (j < p)%nat -> entry m j = 0 -> entry c j = 0.
Definition rows_obey (k p : nat) (mask : option (list (list R))) (C : list (list R)) : Prop :=
  forall m, mask = Some m -> forall c j, (c < k)%nat -> (j < p)%nat -> mat m c j = 0 -> mat C c j = 0.

(** A mask of zeros and ones for [k] classes. *)
Definition mask_rows (k p : nat) (mask : option (list (list R))) : Prop :=
  match mask with
  | Some m => grid k p m /\ forall c j, (c < k)%nat -> (j < p)%nat -> mat m c j = 0 \/ mat m c j = 1
  | None => True
  end.

(** The vector with the entries of [x], in order, where [fr] is true and zeros elsewhere;
    the entries of [w] where [fr] is true. *)
Definition fill (fr : list bool) (x : list R) : list R :=
  map (fun j => if nth j fr false then entry x (length (filter (fun i => nth i fr false) (seq 0 j))) else 0)
      (seq 0 (length fr)).
Definition kept (fr : list bool) (w : list R) : list R :=
  map (entry w) (filter (fun i => nth i fr false) (seq 0 (length fr))).

(** [f] computes the function [G] of [k] parameters and its gradient. *)
Definition value_and_gradient (k : nat) (G : list R -> R) (f : list R -> R * list R) : Prop :=
  forall x, length x = k -> fst (f x) = G x /\ length (snd (f x)) = k /\
    forall j, (j < k)%nat -> derivable_pt_lim (fun t => G (upd x j t)) (entry x j) (entry (snd (f x)) j).

(** Given [G], its gradient and the start [x0], [opt] minimizes [G] up to [delta]. *)
Definition minimizes_from (opt : (list R -> R * list R) -> list R -> list R) (x0 : list R) (G : list R -> R) (delta : R) : Prop :=
  forall f, value_and_gradient (length x0) G f ->
    length (opt f x0) = length x0 /\ forall x, length x = length x0 -> G (opt f x0) <= G x + delta.

(** [fr] says which of the [p] coefficients of each of [k] classes are not masked, and that
    the intercepts, if there are any, are free. *)
Definition free_entries (has : bool) (k p : nat) (masked : nat -> nat -> Prop) (fr : list bool) : Prop :=
  let q := (p + if has then 1 else 0)%nat in
  length fr = (k * q)%nat /\
  forall c j, (c < k)%nat -> (j < q)%nat -> (nth (c * q + j) fr false = false <-> (j < p)%nat /\ masked c j).

(** A mask of zeros and ones with at least one 1 (or no mask). *)
Definition some_one (p : nat) (mask : option (list R)) : Prop :=
  match mask with Some m => zero_one p m /\ exists j, (j < p)%nat /\ entry m j = 1 | None => True end.

Definition some_one_of (k p : nat) (mask : option (list (list R))) : Prop :=
  mask_rows k p mask /\ forall m, mask = Some m -> exists c j, (c < k)%nat /\ (j < p)%nat /\ mat m c j = 1.

(** The start for [k] classes. *)
Definition starts (q k : nat) (coef : option (list (list R))) (last : list R) : list R :=
  concat (map (fun c => map (start_entry (N := Rnum) q (option_map (fun m => nth c m []) coef) (entry last c)) (seq 0 q)) (seq 0 k)).
