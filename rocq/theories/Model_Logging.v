(** Model of [check_logger], src/pyuoi/utils.py:140-154, together with the part of
    Python's logging module it relies on and the way the estimators use their
    logger: src/pyuoi/linear_model/base.py:122, 199-202, 296-299, 327, 371 and
    src/pyuoi/decomposition/NMF.py:159, 172-175, 185, 222, 228.

    One process and one thread.  A logger is identified with its name.  Records
    propagate to the handlers of the root logger; user loggers with dots in their
    names (which have further ancestors), filters, logging.disable and levels set
    on handlers are left out.  A log record is its message; the formatter's time
    stamp is left out. *)
From Coq Require Import ZArith List Bool Arith String Ascii.
From Verif Require Import Prelude.
Import ListNotations.
Local Open Scope string_scope.

(** ** Names *)

(** str(r). *)
Definition digit (n : nat) : string := String (ascii_of_nat (48 + n)) "".
Fixpoint decimal (fuel n : nat) : string :=
  match fuel with
  | 0 => ""
  | S f => if Nat.ltb n 10 then digit n else decimal f (n / 10) ++ digit (n mod 10)
  end.
Definition str (n : nat) : string := decimal (S n) n.

(** str.rjust: pad with spaces on the left. *)
Fixpoint spaces (n : nat) : string :=
  match n with 0 => "" | S m => String " "%char (spaces m) end.
Definition rjust (s : string) (w : nat) : string := spaces (w - String.length s) ++ s.

(** int(np.log10(s)) for s >= 1.  Exact; with a rounded logarithm the result can
    differ for s close to a power of ten, see [rank_name]. *)
Fixpoint log10 (fuel n : nat) : nat :=
  match fuel with
  | 0 => 0
  | S f => if Nat.ltb n 10 then 0 else S (log10 f (n / 10))
  end.

(** utils.py:144-145, with [lg] for int(np.log10(s)). *)
Definition rank_name (base : string) (lg r : nat) : string :=
  base ++ " " ++ rjust (str r) (lg + 1).

(** utils.py:143-145.  [comm]: None, or rank and size. *)
Definition logger_name (base : string) (comm : option (nat * nat)) : string :=
  match comm with
  | Some (r, s) => if Nat.ltb 1 s then rank_name base (log10 s s) r else base
  | None => base
  end.

(** ** The logging module *)

(** A Logger object: its level and its handlers.  A handler is a StreamHandler,
    given by the stream it writes to. *)
Record logger := mkLogger { level : nat; handlers : list nat }.
Definition DEBUG := 10.
Definition INFO := 20.
Definition WARNING := 30.

(** logging.getLogger(name) returns the same object for the same name; a new one
    has no handlers and level NOTSET (0). *)
Definition registry := string -> logger.
Definition put (n : string) (l : logger) (g : registry) : registry :=
  fun m => if m =? n then l else g m.
Definition initial : registry := fun _ => mkLogger 0 [].

(** What is printed: stream, logger name, message. *)
Definition line := (nat * string * string)%type.

(** Logger.log: compares the level [lv] of the message with the effective level (that
    of the root logger when the logger's own level is NOTSET), then writes to all
    handlers of the logger and of the root logger. *)
Definition emit (root : logger) (g : registry) (n : string) (lv : nat) (m : string) : list line :=
  let l := g n in
  let effective := if Nat.eqb (level l) 0 then level root else level l in
  if Nat.leb effective lv
  then map (fun h => (h, n, m)) (handlers l ++ handlers root)%list
  else [].

(** ** Estimators *)

(** Classes that call [check_logger]: those of linear_model (base.py:122) and the
    matrix factorization (NMF.py:159). *)
Inductive family := LinearModel | Decomposition.
Definition base_name (f : family) : string :=
  match f with LinearModel => "uoi_linear_model" | Decomposition => "uoi_decomposition" end.

(** utils.py:140-154: the logger's name, and the registry afterwards.  [arg] is the
    argument logger, [out] the stream that is sys.stdout at that time. *)
Definition check_logger (arg : option string) (f : family) (comm : option (nat * nat))
    (out : nat) (g : registry) : string * registry :=
  match arg with
  | Some n => (n, g)
  | None =>
      let n := logger_name (base_name f) comm in
      (n, put n (mkLogger (level (g n)) (handlers (g n) ++ [out])%list) g)
  end.

(** An estimator as far as logging is concerned: its logger and whether the
    logger argument was None. *)
Record estimator := mkEst { est_logger : string; est_default : bool }.

(** What a program does with estimators: create one, fit number [i] (which sends
    [messages]), or use the logging module directly: set the level of the logger
    [n], add a handler to it, or send it a message of level [lv]. *)
Inductive op :=
| New (arg : option string) (f : family) (comm : option (nat * nat)) (out : nat)
| Fit (i : nat) (verbose : bool) (messages : list string)
| SetLevel (n : string) (lv : nat)
| AddHandler (n : string) (out : nat)
| Log (n : string) (lv : nat) (m : string).

Record process := mkProcess { loggers : registry; estimators : list estimator }.
Definition begin : process := mkProcess initial [].

(** base.py:199-202 and NMF.py:172-175, followed by the messages of the call,
    which are all sent with info. *)
Definition step (root : logger) (p : process) (o : op) : process * list line :=
  match o with
  | New arg f comm out =>
      let (n, g) := check_logger arg f comm out (loggers p) in
      (mkProcess g (estimators p ++ [mkEst n (match arg with None => true | _ => false end)])%list, [])
  | Fit i verbose messages =>
      match nth_error (estimators p) i with
      | None => (p, [])
      | Some e =>
          let n := est_logger e in
          let g := put n (mkLogger (if verbose then DEBUG else WARNING)
                                   (handlers (loggers p n))) (loggers p) in
          (mkProcess g (estimators p), flat_map (emit root g n INFO) messages)
      end
  | SetLevel n lv =>
      (mkProcess (put n (mkLogger lv (handlers (loggers p n))) (loggers p)) (estimators p), [])
  | AddHandler n out =>
      (mkProcess (put n (mkLogger (level (loggers p n)) (handlers (loggers p n) ++ [out])%list)
                      (loggers p)) (estimators p), [])
  | Log n lv m => (p, emit root (loggers p) n lv m)
  end.

Fixpoint run (root : logger) (p : process) (h : list op) : process * list line :=
  match h with
  | [] => (p, [])
  | o :: r => let (p1, l1) := step root p o in
              let (p2, l2) := run root p1 r in (p2, (l1 ++ l2)%list)
  end.
