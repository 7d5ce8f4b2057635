(** Logging: C66, C67. *)
From Coq Require Import List Bool Arith String.
From Verif Require Import Prelude Model_Logging Spec_Logging Proofs_Logging.
Import ListNotations.
Local Open Scope string_scope.

(** C66: each message of a verbose fit appears as often as there have been estimators
    created with logger=None that share the default logger. *)
Theorem C66_repeated : forall root h i n m out, nth_error (created h) i = Some n ->
  Forall (plain out) h -> handlers root = [] ->
  output_of root h (Fit i true [m]) = repeat (out, n, m) (default_users n h).
Proof. exact repeated_messages. Qed.
Print Assumptions C66_repeated.

(** In general, a message goes once to every stream that the estimator's logger has
    been connected to, and once to every handler of the root logger.  A logger given
    by the user is not connected to anything. *)
Theorem C66_streams : forall root h i n ms, nth_error (created h) i = Some n ->
  output_of root h (Fit i true ms)
  = flat_map (fun m => map (fun s => (s, n, m)) (flat_map (connects n) h ++ handlers root)%list) ms.
Proof. exact verbose_output. Qed.
Print Assumptions C66_streams.

(** Without verbose nothing is printed. *)
Theorem C66_quiet : forall root h i ms, output_of root h (Fit i false ms) = [].
Proof. exact quiet_output. Qed.
Print Assumptions C66_quiet.

(** A fit overwrites the level of its logger, also of a logger given by the user:
    afterwards the user's own messages to it are printed from level DEBUG (10) on if the
    fit was verbose, otherwise from WARNING (30) on, whatever level the user had set. *)
Theorem C66_level : forall root h i n v ms lv m, nth_error (created h) i = Some n ->
  output_of root (h ++ [Fit i v ms])%list (Log n lv m)
  = if Nat.leb (if v then 10 else 30) lv
    then map (fun s => (s, n, m)) (flat_map (connects n) h ++ handlers root)%list else [].
Proof. exact level_overwritten. Qed.
Print Assumptions C66_level.

(** The user's messages after any history: the last level set counts, or that of the
    root logger if there is none.  Constructors never change a level. *)
Theorem C66_messages : forall root h n lv m,
  output_of root h (Log n lv m)
  = if Nat.leb (if Nat.eqb (level_in n h) 0 then level root else level_in n h) lv
    then map (fun s => (s, n, m)) (flat_map (connects n) h ++ handlers root)%list else [].
Proof. exact log_output. Qed.
Print Assumptions C66_messages.

(** Three linear models, the second with the user's logger: the messages of the
    first are printed twice.  The user's logger loses its level. *)
Example C66_ex :
  let h := [AddHandler "mine" 7; SetLevel "mine" 10;
            New None LinearModel None 1; New (Some "mine") LinearModel None 1;
            New None LinearModel (Some (0, 1)) 1; New None Decomposition None 1] in
  created h = ["uoi_linear_model"; "mine"; "uoi_linear_model"; "uoi_decomposition"] /\
  output_of (mkLogger 30 []) h (Fit 0 true ["a"])
    = [(1, "uoi_linear_model", "a"); (1, "uoi_linear_model", "a")] /\
  default_users "uoi_linear_model" h = 2 /\
  output_of (mkLogger 30 []) h (Log "mine" 20 "hello") = [(7, "mine", "hello")] /\
  output_of (mkLogger 30 []) (h ++ [Fit 1 false []])%list (Log "mine" 20 "hello") = [].
Proof. repeat split. Qed.
Example C66_plain_ex :
  Forall (plain 1) [New None LinearModel None 1; Fit 0 true ["a"]; New None LinearModel None 1].
Proof. repeat constructor. Qed.

(** C67. *)
Theorem C67_names : forall base s r1 r2, 1 < s -> r1 < s -> r2 < s ->
  (logger_name base (Some (r1, s)) = logger_name base (Some (r2, s)) <-> r1 = r2) /\
  String.length (logger_name base (Some (r1, s))) = String.length (logger_name base (Some (r2, s))).
Proof. exact names_distinct. Qed.
Print Assumptions C67_names.

(** The names stay different for any value of int(np.log10(size)), and of equal
    length if only 10 ^ (int(np.log10(size)) + 1) >= size: rounding of the logarithm
    does no harm. *)
Theorem C67_rounding : forall base lg s r1 r2,
  (rank_name base lg r1 = rank_name base lg r2 -> r1 = r2) /\
  (s <= 10 ^ (lg + 1) -> r1 < s -> r2 < s ->
   String.length (rank_name base lg r1) = String.length (rank_name base lg r2)).
Proof.
  intros base lg s r1 r2. split; [apply rank_name_inj|]. intros Hs H1 H2.
  now rewrite !(rank_name_length base lg s).
Qed.
Print Assumptions C67_rounding.

(** A rank of a parallel run never shares the logger of a serial estimator, and the
    two families of estimators never share one. *)
Theorem C67_serial : forall base s r, 1 < s -> logger_name base (Some (r, s)) <> logger_name base None.
Proof.
  intros base s r Hs E. pose proof (name_long base s r Hs) as L. rewrite E in L.
  exact (Nat.lt_irrefl _ L).
Qed.
Print Assumptions C67_serial.

Theorem C67_families : forall c1 c2,
  logger_name (base_name LinearModel) c1 <> logger_name (base_name Decomposition) c2.
Proof. exact families_differ. Qed.
Print Assumptions C67_families.

Example C67_ex :
  logger_name "uoi" (Some (7, 100)) = "uoi   7" /\ logger_name "uoi" (Some (99, 100)) = "uoi  99" /\
  logger_name "uoi" (Some (0, 1)) = "uoi".
Proof. repeat split. Qed.
