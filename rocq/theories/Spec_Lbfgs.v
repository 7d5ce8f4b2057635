(** Specification vocabulary for the optimizer (C45-C54, C86-C88). *)
From Coq Require Import ZArith List Bool Arith Reals.
From Verif Require Import Num Spec_Rescale Model_Lbfgs.
Import ListNotations.
Local Open Scope R_scope.

(** ** Objective functions *)

(** The coordinates selected by [z] are zero. *)
Definition vanishes (z : nat -> bool) (x : list R) : Prop := forall i, z i = true -> entry x i = 0.
Definition nowhere : nat -> bool := fun _ => false.

(** At every point with [n] coordinates of which those in [z] are zero, the callable [f]
    computes the value [F x] and the gradient [G x] (zero in [z]) and leaves x alone; it
    may do anything else. *)
Definition computes {St} (n : nat) (z : nat -> bool) (f : objective Rnum St) (F : list R -> R) (G : list R -> list R) : Prop :=
  forall st x g, length x = n -> vanishes z x ->
    snd (f st x g) = (x, G x, Value (F x)) /\ length (G x) = n /\ vanishes z (G x).

Definition dot (n : nat) (a b : list R) : R := Sum n (fun i => entry a i * entry b i).
Definition norm (n : nat) (a : list R) : R := sqrt (dot n a a).

(** Sum of the absolute values of the coordinates b, ..., e-1. *)
Definition l1 (b e : nat) (x : list R) : R := Sum (e - b) (fun i => Rabs (entry x (b + i))).

(** The range of penalized coordinates chosen by orthantwise_start and orthantwise_end
    (negative: up to the end) for [n] variables. *)
Definition range_start {N} (O : options N) : nat := Z.to_nat (o_start O).
Definition range_end {N} (O : options N) (n : nat) : nat := if (o_end O <? 0)%Z then n else Z.to_nat (o_end O).
Definition penalized_coord {N} (O : options N) (n i : nat) : Prop := (range_start O <= i < range_end O n)%nat.

(** The objective that is minimized. *)
Definition penalized (O : options Rnum) (n : nat) (F : list R -> R) (x : list R) : R :=
  F x + o_c O * l1 (range_start O) (range_end O n) x.

(** [v] is a subgradient of F + c |x| at [x], where [g] is the gradient of F. *)
Definition subgradient (c : R) (pen : nat -> Prop) (n : nat) (x g v : list R) : Prop :=
  length v = n /\
  forall i, (i < n)%nat ->
    (~ pen i -> entry v i = entry g i) /\
    (pen i -> (0 < entry x i -> entry v i = entry g i + c) /\
              (entry x i < 0 -> entry v i = entry g i - c) /\
              (entry x i = 0 -> Rabs (entry v i - entry g i) <= c)).

(** The subgradient that is smallest in every coordinate (hence in norm). *)
Definition least_subgradient (c : R) (pen : nat -> Prop) (n : nat) (x g v : list R) : Prop :=
  subgradient c pen n x g v /\
  forall w, subgradient c pen n x g w -> forall i, (i < n)%nat -> Rabs (entry v i) <= Rabs (entry w i).

(** ** Observing a run *)

(** Counting the calls of the objective and of the progress callback. *)
Definition count_calls {N : NumOps} {St} (f : objective N St) : objective N (St * (nat * nat)) :=
  fun st x g => let r := f (fst st) x g in ((fst r, (S (fst (snd st)), snd (snd st))), snd r).
Definition count_reports {N : NumOps} {St} (h : observer N St) : observer N (St * (nat * nat)) :=
  fun st r => let a := h (fst st) r in ((fst a, (fst (snd st), S (snd (snd st)))), snd a).

(** Recording what is reported to the progress callback, that is, all accepted steps. *)
Definition keep_log {N : NumOps} {St} (f : objective N St) : objective N (St * list (report N)) :=
  fun st x g => let r := f (fst st) x g in ((fst r, snd st), snd r).
Definition write_log {N : NumOps} {St} (progress : option (observer N St)) : observer N (St * list (report N)) :=
  fun st r =>
    match progress with
    | None => ((fst st, snd st ++ [r]), NoReply)
    | Some h => let a := h (fst st) r in ((fst a, snd st ++ [r]), snd a)
    end.
Definition recorded {N : NumOps} {St} (O : options N) (f : objective N St) (progress : option (observer N St))
    (fuel lsfuel : nat) (st : St) (x0 : list N) : option (St * list (report N) * outcome N) :=
  fmin_lbfgs O (keep_log f) (Some (write_log progress)) fuel lsfuel (st, []) x0.

(** All consecutive elements of x, l are related. *)
Fixpoint chain {A} (rel : A -> A -> Prop) (x : A) (l : list A) : Prop :=
  match l with [] => True | y :: r => rel x y /\ chain rel y r end.

(** ** Conditions on a step from x to y *)

(** Change along the step according to the derivative [v]. *)
Definition along (n : nat) (v x y : list R) : R := Sum n (fun i => entry v i * (entry y i - entry x i)).

Definition sufficient_decrease (n : nat) (F : list R -> R) (v : list R) (ftol : R) (x y : list R) : Prop :=
  F y <= F x + ftol * along n v x y.
Definition curvature (n : nat) (G : list R -> list R) (t : R) (x y : list R) : Prop :=
  t * along n (G x) x y <= along n (G y) x y.
Definition strong_curvature (n : nat) (G : list R -> list R) (t : R) (x y : list R) : Prop :=
  Rabs (along n (G y) x y) <= t * Rabs (along n (G x) x y).

(** The documented condition of each line search. *)
Definition step_condition (O : options Rnum) (alg : algorithm) (n : nat) (F : list R -> R) (G : list R -> list R)
    (x y : list R) : Prop :=
  along n (G x) x y <= 0 /\
  sufficient_decrease n F (G x) (o_ftol O) x y /\
  match alg with
  | Armijo => True
  | Wolfe => curvature n G (o_wolfe O) x y
  | StrongWolfe => strong_curvature n G (o_wolfe O) x y
  | MoreThuente => strong_curvature n G (o_gtol O) x y
  end.

(** In OWL-QN mode: sufficient decrease of the penalized objective for the pseudo-gradient,
    without crossing zero in a penalized coordinate. *)
Definition owl_condition (O : options Rnum) (n : nat) (F : list R -> R) (G : list R -> list R) (x y : list R) : Prop :=
  (exists v, least_subgradient (o_c O) (penalized_coord O n) n x (G x) v /\
             sufficient_decrease n (penalized O n F) v (o_ftol O) x y /\
             (forall i, (i < n)%nat -> penalized_coord O n i -> entry v i * (entry y i - entry x i) <= 0 /\
                (entry x i = 0 -> entry y i <> 0 -> entry y i * entry v i < 0))) /\
  (forall i, (i < n)%nat -> penalized_coord O n i -> 0 <= entry x i * entry y i).

(** ** Stationary points *)

(** The gradient test of the optimizer: some subgradient of the penalized objective has
    norm at most epsilon * max(1, |x|). *)
Definition nearly_stationary (O : options Rnum) (n : nat) (G : list R -> list R) (x : list R) : Prop :=
  exists v, least_subgradient (o_c O) (penalized_coord O n) n x (G x) v /\
            norm n v <= o_epsilon O * Rmax 1 (norm n x).

(** The first-order condition for convex functions: F lies above its tangents. *)
Definition above_tangents (n : nat) (F : list R -> R) (G : list R -> list R) : Prop :=
  forall x y, length x = n -> length y = n -> F x + along n (G x) x y <= F y.

Definition distance (n : nat) (x y : list R) : R := sqrt (Sum n (fun i => (entry y i - entry x i) * (entry y i - entry x i))).

(** The progress callback never asks to stop. *)
Definition never_stops {N : NumOps} {St} (progress : option (observer N St)) : Prop :=
  forall h st q, progress = Some h -> match snd (h st q) with Code k => k = 0%Z | _ => True end.

(** The progress callback never answers [k]. *)
Definition never_says {N : NumOps} {St} (k : Z) (progress : option (observer N St)) : Prop :=
  forall h st q, progress = Some h -> snd (h st q) <> Code k.

(** ** The L-BFGS direction as textbooks state it *)
Section Direction.
  Context {N : NumOps}.
  (** The two-loop recursion for correction pairs (s, y), newest first, applied to [q];
      [gamma] is the initial scaling. *)
  Fixpoint two_loop (pairs : list (list N * list N)) (gamma : N) (q : list N) : list N :=
    match pairs with
    | [] => vecscale q gamma
    | (s, y) :: older =>
      let ys := vecdot y s in
      let a := ndiv (vecdot s q) ys in
      let r := two_loop older gamma (vecadd q y (nopp a)) in
      vecadd r s (nsub a (ndiv (vecdot y r) ys))
    end.
  (** The direction obtained from [q] (the negative gradient). *)
  Definition bfgs_direction (pairs : list (list N * list N)) (q : list N) : list N :=
    match pairs with
    | [] => q
    | (s, y) :: _ => two_loop pairs (ndiv (vecdot y s) (vecdot y y)) q
    end.

  (** Points with gradients, newest first, and the differences of consecutive ones. *)
  Fixpoint differences (t : list (list N * list N)) : list (list N * list N) :=
    match t with
    | (x1, g1) :: ((x0, g0) :: _) as r => (vecdiff x1 x0, vecdiff g1 g0) :: differences r
    | _ => []
    end.

  (** The move from the newest point of [t] with step length [step], using the last [m]
      differences. *)
  Definition next_point (O : options N) (n : nat) (t : list (list N * list N)) (step : N) : list N :=
    match t with
    | [] => []
    | (x, g) :: _ =>
      let pairs := firstn (Z.to_nat (o_m O)) (differences t) in
      let b := range_start O in
      let e := range_end O n in
      if neqb (o_c O) nzero then vecadd x (bfgs_direction pairs (vecncpy g)) step
      else
        let pg := owlqn_pseudo_gradient x g (o_c O) b e in
        let d := bfgs_direction pairs (vecncpy pg) in
        let d := match pairs with [] => d | _ => constrain b e d pg end in
        owlqn_project (vecadd x d step) (map2 (fun u v => if neqb u nzero then nopp v else u) x pg) b e
    end.

  (** Every report continues the trajectory [t] (newest first). *)
  Fixpoint follows (O : options N) (n : nat) (t : list (list N * list N)) (log : list (report N)) : Prop :=
    match log with
    | [] => True
    | q :: r => r_x q = next_point O n t (r_step q) /\ follows O n ((r_x q, r_g q) :: t) r
    end.
End Direction.

(** The callable leaves its argument x alone. *)
Definition leaves_x {N : NumOps} {St} (f : objective N St) : Prop := forall st x g, fst (fst (snd (f st x g))) = x.

(** ** Options *)

(** The line search that is documented to be used: 'wolfe' for L1 problems. *)
Definition searches (O : options Rnum) (alg : algorithm) : Prop :=
  0 < o_c O /\ alg = Wolfe \/ o_c O = 0 /\ line_search_algo (o_line_search O) = Some alg.

(** The documented ranges of the parameters, for [n] variables. *)
Definition documented (O : options Rnum) (alg : algorithm) (n : nat) : Prop :=
  (0 < n)%nat /\ 0 <= o_epsilon O /\ (0 <= o_past O)%Z /\ 0 <= o_delta O /\
  0 <= o_min_step O <= o_max_step O /\ 0 <= o_ftol O /\
  (alg = Wolfe \/ alg = StrongWolfe -> o_ftol O < o_wolfe O < 1) /\
  0 <= o_gtol O /\ 0 <= o_xtol O /\ (0 < o_max_linesearch O)%Z /\
  (0 <= o_start O <= Z.of_nat n)%Z /\ (o_end O <= Z.of_nat n)%Z.

Definition with_m {N : NumOps} (O : options N) (m : Z) : options N :=
  mkOptions (o_c O) (o_start O) (o_end O) m (o_epsilon O) (o_past O) (o_delta O) (o_max_iterations O)
    (o_line_search O) (o_max_linesearch O) (o_min_step O) (o_max_step O) (o_ftol O) (o_wolfe O) (o_gtol O) (o_xtol O).
Definition with_line_search {N : NumOps} (O : options N) s : options N :=
  mkOptions (o_c O) (o_start O) (o_end O) (o_m O) (o_epsilon O) (o_past O) (o_delta O) (o_max_iterations O)
    s (o_max_linesearch O) (o_min_step O) (o_max_step O) (o_ftol O) (o_wolfe O) (o_gtol O) (o_xtol O).

(** The past/delta criterion at iteration [k] for the objective values [fs] (that of x0
    first). *)
Definition delta_fires (O : options Rnum) (fs : list R) (k : nat) : Prop :=
  let past := Z.to_nat (o_past O) in
  (0 < past <= k)%nat /\ Rabs ((nth (k - past) fs 0 - nth k fs 0) / nth k fs 0) < o_delta O.

(** What fmin_lbfgs makes of a non-zero value returned by the progress callback. *)
Definition stop_outcome {N : NumOps} (x : list N) (k : Z) (out : outcome N) : Prop :=
  (k = 2 /\ out = Returned x None)%Z \/
  ((k = -1001 \/ k = -998 \/ k = -997) /\ out = Returned x (Some k))%Z \/
  (k = -1022 /\ out = Raises Prelude.MemoryError)%Z \/
  (k = -2048 /\ out = Raises Prelude.AllZeroLBFGSError)%Z \/
  ((-1024 <= k <= -994 /\ k <> -1001 /\ k <> -998 /\ k <> -997 /\ k <> -1022) /\ out = Raises Prelude.LBFGSError)%Z \/
  ((k = 1 \/ k < -2048 \/ -2048 < k < -1024 \/ -994 < k < 0 \/ 2 < k) /\ out = Raises Prelude.KeyError)%Z.

(** The line searches that check the curvature. *)
Definition curved (O : options Rnum) (alg : algorithm) : Prop :=
  match alg with Armijo => False | Wolfe => True | StrongWolfe => True | MoreThuente => (o_gtol O : R) < 1 end.

(** A strict descent along which the derivative grows: the difference s of the points and
    the difference y of the gradients satisfy s.y > 0. *)
Definition strict_step (n : nat) (G : list R -> list R) (x y : list R) : Prop :=
  along n (G x) x y < 0 /\ along n (G x) x y < along n (G y) x y.
