(** Specification vocabulary for logging (C66, C67). *)
From Coq Require Import List Bool Arith String.
From Verif Require Import Model_Logging.
Import ListNotations.
Local Open Scope string_scope.

(** The logger that an estimator created by [o] uses. *)
Definition uses (o : op) : option string :=
  match o with
  | New (Some n) _ _ _ => Some n
  | New None f comm _ => Some (logger_name (base_name f) comm)
  | _ => None
  end.

(** The loggers of the estimators created in the history [h], in order. *)
Fixpoint created (h : list op) : list string :=
  match h with
  | [] => []
  | o :: r => match uses o with Some n => n :: created r | None => created r end
  end.

(** The stream to which [o] connects the logger [n]: creating an estimator without
    a logger argument connects the default logger of its class. *)
Definition connects (n : string) (o : op) : list nat :=
  match o with
  | New None f comm out => if logger_name (base_name f) comm =? n then [out] else []
  | AddHandler m out => if m =? n then [out] else []
  | _ => []
  end.

(** Number of estimators created without a logger argument whose default logger is
    [n]. *)
Definition default_users (n : string) (h : list op) : nat :=
  List.length (filter (fun o => match o with
    | New None f comm _ => logger_name (base_name f) comm =? n
    | _ => false end) h).

(** The program leaves the logging configuration alone, and sys.stdout is always
    the stream [out]. *)
Definition plain (out : nat) (o : op) : Prop :=
  match o with New _ _ _ s => s = out | AddHandler _ _ => False | _ => True end.

(** The output of the call [o] after the history [h]. *)
Definition output_of (root : logger) (h : list op) (o : op) : list line :=
  snd (step root (fst (run root begin h)) o).

(** The level of the logger [n] after a history, given in reverse: the last one set by
    a fit of an estimator using it (10 for verbose, otherwise 30) or by setLevel.
    Creating an estimator does not change it. *)
Fixpoint last_level (n : string) (reversed : list op) : nat :=
  match reversed with
  | [] => 0
  | Fit i v _ :: r => match nth_error (created (rev r)) i with
                      | Some n' => if n' =? n then (if v then 10 else 30) else last_level n r
                      | None => last_level n r
                      end
  | SetLevel n' lv :: r => if n' =? n then lv else last_level n r
  | _ :: r => last_level n r
  end.
Definition level_in (n : string) (h : list op) : nat := last_level n (rev h).
