(** The optimizer: C45-C54, C86-C90.  [F] and [G] are the objective and its gradient (or
    whatever the callable computes), [n] the number of variables. *)
From Coq Require Import String ZArith List Bool Arith Reals Lra Lia Floats.SpecFloat.
From Verif Require Import Prelude F64 Num Spec_Rescale Model_Lbfgs Spec_Lbfgs Proofs_Rescale Proofs_Lbfgs
  Proofs_LbfgsTrace Proofs_LbfgsVec Proofs_LbfgsReal Proofs_LbfgsTop Proofs_LbfgsDir Proofs_LbfgsDescent Proofs_LbfgsCurv
  Proofs_LbfgsMain Proofs_LbfgsOpts Proofs_LbfgsStop Proofs_LbfgsNan Proofs_LbfgsEx.
Import ListNotations.
Local Open Scope R_scope.

(** The runs used by the examples: F(x) = x^2/2 in one variable; with penalty 1 from x0 = 2
    (two steps, to 1 and to 0), without a penalty from x0 = 1 (one step, to 0). *)
Example objective_ex : computes 1 nowhere sq_f sq_F (fun x => x).
Proof. exact sq_computes. Qed.
Example penalized_run_ex : recorded owl_O sq_f None 2 1 tt [2] = Some (tt, [owl_q1; owl_q2], Returned [0] None).
Proof. exact owl_run. Qed.
Example plain_run_ex : recorded pl_O sq_f None 1 1 tt [1] = Some (tt, [pl_q], Returned [0] None).
Proof. exact pl_run. Qed.

(** C45: the objective never increases, whatever the callable computes. *)
Theorem C45_iterates_decrease : forall (St : Type) n z (O : options Rnum) (f : objective Rnum St) progress F G fuel lsfuel st x0 st' log out,
  computes n z f F G -> length x0 = n -> vanishes z x0 ->
  (0 < o_c O -> forall i, (i < n)%nat -> penalized_coord O n i) ->
  recorded O f progress fuel lsfuel st x0 = Some (st', log, out) ->
  chain (fun u v => penalized O n F v <= penalized O n F u) x0 (map r_x log) /\
  penalized O n F (last (map r_x log) x0) <= penalized O n F x0.
Proof. intros. eapply iterates_decrease; eassumption. Qed.
Print Assumptions C45_iterates_decrease.

Theorem C45_never_worse : forall (St : Type) n z (O : options Rnum) (f : objective Rnum St) progress F G fuel lsfuel st x0 st' x w,
  computes n z f F G -> length x0 = n -> vanishes z x0 ->
  (0 < o_c O -> forall i, (i < n)%nat -> penalized_coord O n i) ->
  fmin_lbfgs O f progress fuel lsfuel st x0 = Some (st', Returned x w) ->
  penalized O n F x <= penalized O n F x0.
Proof. intros. eapply never_worse; eassumption. Qed.
Print Assumptions C45_never_worse.

Example C45_ex : penalized owl_O 1 sq_F [0] < penalized owl_O 1 sq_F [1] < penalized owl_O 1 sq_F [2].
Proof.
  unfold penalized, sq_F, l1, range_start, range_end, owl_O, sq_options, entry, Sum.
  cbn [o_c o_start o_end Z.to_nat Z.ltb Z.compare Nat.sub seq map fold_right nth Nat.add].
  rewrite Rabs_R0, !Rabs_right by lra. lra.
Qed.

(** C46: bounds on the calls; in particular a run with max_iterations > 0 terminates. *)
Theorem C46_calls : forall (N : NumOps) (St : Type) (O : options N) (f : objective N St) progress fuel lsfuel st x0,
  (0 < o_max_iterations O)%Z -> (o_max_iterations O <= Z.of_nat fuel)%Z -> (o_max_linesearch O <= Z.of_nat lsfuel)%Z ->
  exists st' calls reports out,
    fmin_lbfgs O (count_calls f) (option_map count_reports progress) fuel lsfuel (st, (0%nat, 0%nat)) x0 = Some ((st', (calls, reports)), out) /\
    fmin_lbfgs O f progress fuel lsfuel st x0 = Some (st', out) /\
    (Z.of_nat calls <= 1 + o_max_iterations O * Z.max 0 (o_max_linesearch O))%Z /\
    (Z.of_nat reports <= o_max_iterations O)%Z.
Proof. intros. apply calls_bounded; assumption. Qed.
Print Assumptions C46_calls.

Theorem C46_search : forall (N : NumOps) (St : Type) (P : params N) (f : objective N St) fuel b e (s : state N (St * (nat * nat))),
  (0 < p_max_linesearch P)%Z -> (p_max_linesearch P <= Z.of_nat fuel)%Z ->
  exists r, run_line_search P (count_calls f) fuel b e s = Some r /\
    (Z.of_nat (fst (snd (pt_st (s_pt r)))) <= Z.of_nat (fst (snd (pt_st (l_pt s)))) + p_max_linesearch P)%Z.
Proof. intros. apply search_bounded; assumption. Qed.
Print Assumptions C46_search.

(** A run in binary64 arithmetic: three calls of the objective, two reports. *)
Example C46_ex :
  let id (x : f64) := x in
  fmin_lbfgs (quartic_options id id) (count_calls (quartic_f id id)) (Some (count_reports (fun st _ => (st, NoReply)))) 3 20
    (tt, (0, 0)%nat) [fzero; fzero] =
  Some ((tt, (3, 2)%nat), Returned (N := Fnum id id) [fzero; quartic_x] (Some LBFGSERR_MAXIMUMITERATION)).
Proof. cbv zeta. vm_cast_no_check (eq_refl (Some ((tt, (3, 2)%nat), Returned (N := Fnum (fun x => x) (fun x => x)) [fzero; quartic_x] (Some LBFGSERR_MAXIMUMITERATION)))). Qed.

(** C47: the documented conditions hold at every accepted step; what is returned is the
    last accepted point (x0 if there is none), also when a later line search failed. *)
Theorem C47_accepted : forall (St : Type) n z (O : options Rnum) (f : objective Rnum St) progress F G fuel lsfuel st x0 alg st' log out,
  computes n z f F G -> length x0 = n -> vanishes z x0 ->
  o_c O = 0 -> line_search_algo (o_line_search O) = Some alg ->
  recorded O f progress fuel lsfuel st x0 = Some (st', log, out) ->
  chain (step_condition O alg n F G) x0 (map r_x log) /\
  forall x w, out = Returned x w -> x = last (map r_x log) x0.
Proof. intros. eapply steps_accepted; eassumption. Qed.
Print Assumptions C47_accepted.

Example C47_ex : o_c pl_O = 0 /\ line_search_algo (o_line_search pl_O) = Some Wolfe /\ map r_x [pl_q] = [[0]].
Proof. repeat split. Qed.

(** C48: steps stay in the orthant and satisfy sufficient decrease along the least
    subgradient. *)
Theorem C48_steps : forall (St : Type) n z (O : options Rnum) (f : objective Rnum St) progress F G fuel lsfuel st x0 st' log out,
  computes n z f F G -> length x0 = n -> vanishes z x0 -> 0 < o_c O ->
  recorded O f progress fuel lsfuel st x0 = Some (st', log, out) ->
  chain (owl_condition O n F G) x0 (map r_x log).
Proof. intros. eapply steps_orthant; eassumption. Qed.
Print Assumptions C48_steps.

Theorem C48_least_subgradient : forall n c b e x g, 0 <= c -> length x = n -> length g = n ->
  least_subgradient c (fun i => (b <= i < e)%nat) n x g (owlqn_pseudo_gradient (N := Rnum) x g c b e).
Proof. exact pseudo_least_range. Qed.
Print Assumptions C48_least_subgradient.

Theorem C48_zero_iff_optimal : forall n c b e x g, 0 <= c -> length x = n -> length g = n ->
  ((forall i, (i < n)%nat -> entry (owlqn_pseudo_gradient (N := Rnum) x g c b e) i = 0) <->
   (forall i, (i < n)%nat ->
       (~ (b <= i < e)%nat -> entry g i = 0) /\
       ((b <= i < e)%nat -> (0 < entry x i -> entry g i = - c) /\ (entry x i < 0 -> entry g i = c) /\
                            (entry x i = 0 -> Rabs (entry g i) <= c)))).
Proof. exact pseudo_zero. Qed.
Print Assumptions C48_zero_iff_optimal.

Theorem C48_trial_points : forall n b e x (pg d : list R) (t : R) i, length x = n ->
  length pg = n -> length d = n -> (i < n)%nat -> (b <= i < e)%nat ->
  let trial := owlqn_project (N := Rnum) (vecadd (N := Rnum) x d t)
                 (map2 (fun u v => if neqb (n := Rnum) u nzero then nopp v else u) x pg) b e in
  0 <= entry x i * entry trial i /\ (entry x i = 0 -> entry trial i * entry pg i <= 0) /\
  (entry trial i = 0 \/ entry trial i = entry x i + t * entry d i).
Proof. intros. eapply trial_orthant; eassumption. Qed.
Print Assumptions C48_trial_points.

Theorem C48_stationary_minimizes : forall n (O : options Rnum) F G x, 0 <= o_c O -> (range_end O n <= n)%nat ->
  above_tangents n F G -> length x = n -> length (G x) = n ->
  (forall i, (i < n)%nat -> entry (owlqn_pseudo_gradient (N := Rnum) x (G x) (o_c O) (range_start O) (range_end O n)) i = 0) ->
  forall w, length w = n -> penalized O n F x <= penalized O n F w.
Proof. exact stationary_minimizes. Qed.
Print Assumptions C48_stationary_minimizes.

Example C48_ex :
  above_tangents 1 sq_F (fun x => x) /\
  entry (owlqn_pseudo_gradient (N := Rnum) [0] [1 / 2] (o_c owl_O) (range_start owl_O) (range_end owl_O 1)) 0 = 0 /\
  entry (owlqn_pseudo_gradient (N := Rnum) [2] [2] 1 0 1) 0 = 3.
Proof.
  split; [|split].
  - intros x y _ _. unfold sq_F, along, Sum. cbn [seq map fold_right].
    pose proof (Rle_0_sqr (entry y 0 - entry x 0)) as H. unfold Rsqr in H. nra.
  - ev. reflexivity.
  - ev. lra.
Qed.

(** C49: parameters outside the documented ranges raise LBFGSError before the objective is
    called; otherwise it is called.  The memory size is not checked. *)
Theorem C49_invalid_rejected : forall (St : Type) (O : options Rnum) alg (f : objective Rnum St) progress fuel lsfuel st (x0 : list R),
  searches O alg -> ~ documented O alg (length x0) ->
  fmin_lbfgs O f progress fuel lsfuel st x0 = Some (st, Raises LBFGSError).
Proof. intros. eapply invalid_rejected; eassumption. Qed.
Print Assumptions C49_invalid_rejected.

Theorem C49_valid_called : forall (St : Type) (O : options Rnum) alg (f : objective Rnum St) progress fuel lsfuel st (x0 : list R) st' calls reports out,
  searches O alg -> documented O alg (length x0) -> (0 <= o_m O)%Z ->
  fmin_lbfgs O (count_calls f) (option_map count_reports progress) fuel lsfuel (st, (0%nat, 0%nat)) x0 = Some ((st', (calls, reports)), out) ->
  (1 <= calls)%nat.
Proof. intros. eapply valid_called; eassumption. Qed.
Print Assumptions C49_valid_called.

Theorem C49_memory_negative : forall (St : Type) (O : options Rnum) alg (f : objective Rnum St) progress fuel lsfuel st (x0 : list R),
  searches O alg -> documented O alg (length x0) -> (o_m O < 0)%Z ->
  fmin_lbfgs O f progress fuel lsfuel st x0 = Some (st, Raises MemoryError).
Proof. intros. eapply memory_negative; eassumption. Qed.
Print Assumptions C49_memory_negative.

(** With m = 0 the process computes a remainder modulo zero wherever a run with m > 0 makes
    at least two steps. *)
Theorem C49_memory_zero : forall (N : NumOps) (St : Type) (O : options N) (f : objective N St) progress m fuel lsfuel st x0 st' log out,
  (0 < m)%Z -> recorded (with_m O m) f progress fuel lsfuel st x0 = Some (st', log, out) -> (2 <= length log)%nat ->
  exists st1, fmin_lbfgs (with_m O 0) f progress fuel lsfuel st x0 = Some (st1, Crash).
Proof. intros. eapply memory_zero; eassumption. Qed.
Print Assumptions C49_memory_zero.

Example C49_ex : searches owl_O Wolfe /\ documented owl_O Wolfe 1 /\ ~ documented owl_O Wolfe 0 /\ with_m owl_O 2 = owl_O.
Proof.
  split; [|split; [|split]].
  - left. split; [cbn; lra|reflexivity].
  - unfold documented, owl_O, sq_options. cbn [o_epsilon o_past o_delta o_min_step o_max_step o_ftol o_wolfe o_gtol o_xtol o_max_linesearch o_start o_end].
    repeat split; try lra; try lia.
  - intros [H _]. lia.
  - reflexivity.
Qed.

(** C50: every accepted point is the one the textbook recursion gives for the last m
    correction pairs. *)
Theorem C50_recursion : forall (N : NumOps) (St : Type) (O : options N) n (f : objective N St) progress fuel lsfuel st x0 st' log out,
  leaves_x f -> recorded O f progress fuel lsfuel st x0 = Some (st', log, out) -> n = length x0 ->
  follows O n [(x0, snd (fst (snd (f st x0 (repeat nzero n)))))] log.
Proof. intros. eapply recorded_follows; eassumption. Qed.
Print Assumptions C50_recursion.

Example C50_ex : follows (N := Rnum) owl_O 1 [([2], [2])] [owl_q1; owl_q2].
Proof. exact (recorded_follows owl_O 1 sq_f None (fun _ _ _ => eq_refl) 2 1 tt [2] tt _ _ owl_run eq_refl). Qed.

(** C51 *)
Theorem C51_descent : forall n pairs g,
  Forall (fun p => length (fst p) = n /\ length (snd p) = n /\ 0 < dot n (snd p) (fst p)) pairs ->
  length g = n -> (exists i, (i < n)%nat /\ entry g i <> 0) ->
  dot n g (bfgs_direction (N := Rnum) pairs (vecncpy (N := Rnum) g)) < 0.
Proof. exact direction_descends. Qed.
Print Assumptions C51_descent.

Theorem C51_secant : forall n s y older,
  length s = n -> length y = n -> 0 < dot n y s ->
  Forall (fun p => length (fst p) = n /\ length (snd p) = n /\ 0 < dot n (snd p) (fst p)) older ->
  bfgs_direction (N := Rnum) ((s, y) :: older) y = s.
Proof. intros n s y older H1 H2 H3 H4. exact (direction_secant n s y older (conj H1 (conj H2 H3)) H4). Qed.
Print Assumptions C51_secant.

Example C51_ex : 0 < dot 2 [1; 2] [1; 1] /\ bfgs_direction (N := Rnum) [([1; 1], [1; 2])] [1; 2] = [1; 1].
Proof.
  assert (D : 0 < dot 2 [1; 2] [1; 1]) by (unfold dot, Sum, entry; cbn; lra).
  split; [exact D|]. apply (direction_secant 2 [1; 1] [1; 2] []); [|constructor]. repeat split. exact D.
Qed.

(** C52: a successful stop by the past/delta criterion is a KeyError. *)
Theorem C52_delta : forall (St : Type) n z (O : options Rnum) (f : objective Rnum St) progress F G fuel lsfuel st (x0 : list R) st' log out i q,
  computes n z f F G -> length x0 = n -> vanishes z x0 -> never_stops progress ->
  recorded O f progress fuel lsfuel st x0 = Some (st', log, out) ->
  nth_error log i = Some q -> ~ nearly_stationary O n G (r_x q) ->
  delta_fires O (map (penalized O n F) (x0 :: map r_x log)) (S i) ->
  out = Raises KeyError /\ length log = S i.
Proof. intros. eapply delta_keyerror; eassumption. Qed.
Print Assumptions C52_delta.

Example C52_delta_ex :
  recorded de_O sq_f None 1 1 tt [4] = Some (tt, [de_q], Raises KeyError) /\
  delta_fires de_O (map (penalized de_O 1 sq_F) ([4] :: map r_x [de_q])) 1 /\
  ~ nearly_stationary de_O 1 (fun x => x) [3].
Proof.
  split; [exact de_run|]. split.
  - unfold delta_fires, penalized, sq_F, de_O, sq_options, l1, range_start, range_end, entry, Sum.
    cbn [o_past o_delta o_c o_start o_end map r_x de_q Z.to_nat Z.ltb Z.compare Pos.to_nat Pos.iter_op Nat.sub seq fold_right nth Nat.add].
    split; [lia|]. rewrite ?Rmult_0_l, ?Rplus_0_r. change (Pos.to_nat 1) with 1%nat. cbv iota.
    match goal with |- Rabs ?a < _ => replace a with (7 / 9) by field end. rewrite Rabs_right; lra.
  - intros (v & [[_ H] _] & Hn). destruct (H 0%nat ltac:(lia)) as [_ H1].
    destruct (H1 ltac:(unfold penalized_coord, range_start, range_end; cbn; lia)) as [H2 _].
    assert (E : entry v 0 = 3) by (rewrite H2; unfold entry; cbn; lra).
    unfold norm, dot, Sum in Hn. cbn [seq map fold_right] in Hn. rewrite E in Hn. change (entry [3] 0) with 3 in Hn.
    replace (3 * 3 + 0) with (3 * 3) in Hn by ring. rewrite sqrt_square in Hn by lra. rewrite Rmax_right in Hn by lra.
    cbn [o_epsilon de_O sq_options] in Hn. lra.
Qed.

(** A non-zero value of the progress callable ends the run with the outcome of the table
    [stop_outcome]. *)
Theorem C52_callback : forall (N : NumOps) (St : Type) (O : options N) (f : objective N St) h reply_of fuel lsfuel st (x0 : list N) st' log out i q k,
  (forall st q, snd (h st q) = reply_of q) ->
  recorded O f (Some h) fuel lsfuel st x0 = Some (st', log, out) ->
  nth_error log i = Some q -> reply_of q = Code k -> k <> 0%Z ->
  length log = S i /\ stop_outcome (r_x q) k out.
Proof. intros. eapply progress_stop; eassumption. Qed.
Print Assumptions C52_callback.

Example C52_callback_ex :
  let id (x : f64) := x in
  let run k := option_map snd (fmin_lbfgs (quartic_options id id) (quartic_f id id) (Some (fun st _ => (st, Code k))) 3 20 tt [fzero; fzero]) in
  run 1%Z = Some (Raises KeyError) /\ run (-1)%Z = Some (Raises KeyError) /\ run (-1010)%Z = Some (Raises LBFGSError) /\
  run 2%Z = Some (Returned (N := Fnum id id) [fzero; fopp fone] None) /\ run (-2048)%Z = Some (Raises AllZeroLBFGSError).
Proof.
  cbv zeta. split; [|split; [|split; [|split]]].
  - vm_cast_no_check (eq_refl (Some (@Raises (Fnum (fun x => x) (fun x => x)) KeyError))).
  - vm_cast_no_check (eq_refl (Some (@Raises (Fnum (fun x => x) (fun x => x)) KeyError))).
  - vm_cast_no_check (eq_refl (Some (@Raises (Fnum (fun x => x) (fun x => x)) LBFGSError))).
  - vm_cast_no_check (eq_refl (Some (@Returned (Fnum (fun x => x) (fun x => x)) [fzero; fopp fone] None))).
  - vm_cast_no_check (eq_refl (Some (@Raises (Fnum (fun x => x) (fun x => x)) AllZeroLBFGSError))).
Qed.

(** C53: orthantwise_c > 0 always runs with 'wolfe', with a warning exactly if another
    search than 'wolfe' or 'default' was requested. *)
Theorem C53_wolfe : forall (N : NumOps) (St : Type) (O : options N) (f : objective N St) progress fuel lsfuel st x0, nltb nzero (o_c O) = true ->
  fmin_lbfgs O f progress fuel lsfuel st x0 = fmin_lbfgs (with_line_search O "wolfe") f progress fuel lsfuel st x0 /\
  (snd (choose_line_search O) = true <-> o_line_search O <> "wolfe"%string /\ o_line_search O <> "default"%string).
Proof. intros. apply l1_uses_wolfe. assumption. Qed.
Print Assumptions C53_wolfe.

(** Negative penalties (and NaN) are refused. *)
Theorem C53_negative : forall (N : NumOps) (St : Type) (O : options N) (f : objective N St) progress fuel lsfuel st x0, nleb nzero (o_c O) = false ->
  fmin_lbfgs O f progress fuel lsfuel st x0 = Some (st, Raises AssertionError).
Proof. intros. apply negative_c. assumption. Qed.
Print Assumptions C53_negative.

(** Without a penalty unknown names raise KeyError. *)
Theorem C53_unknown : forall (N : NumOps) (St : Type) (O : options N) (f : objective N St) progress fuel lsfuel st x0,
  nleb nzero (o_c O) = true -> nltb nzero (o_c O) = false ->
  ~ In (o_line_search O) ["default"; "morethuente"; "armijo"; "wolfe"; "strongwolfe"]%string ->
  fmin_lbfgs O f progress fuel lsfuel st x0 = Some (st, Raises KeyError).
Proof. intros. apply unknown_name; assumption. Qed.
Print Assumptions C53_unknown.

Example C53_ex :
  let id (x : f64) := x in
  let N := Fnum id id in
  nltb nzero (o_c (default_options (N := N) fone "armijo")) = true /\ snd (choose_line_search (default_options (N := N) fone "armijo")) = true /\
  nleb nzero (o_c (default_options (N := N) (fopp fone) "wolfe")) = false /\ nleb nzero (o_c (default_options (N := N) fnan "wolfe")) = false /\
  ~ In "brent"%string ["default"; "morethuente"; "armijo"; "wolfe"; "strongwolfe"]%string.
Proof.
  cbv zeta. repeat split; try reflexivity. intros [C|[C|[C|[C|[C|C]]]]]; try discriminate C. exact C.
Qed.

(** C54: coordinates in which x0 and the gradient are zero stay zero, in every report and
    in the result; reports give the true values and are numbered from 1. *)
Theorem C54_stays_zero : forall (St : Type) n z (O : options Rnum) (f : objective Rnum St) progress F G fuel lsfuel st x0 st' log out,
  computes n z f F G -> length x0 = n -> vanishes z x0 ->
  recorded O f progress fuel lsfuel st x0 = Some (st', log, out) ->
  Forall (fun q => length (r_x q) = n /\ vanishes z (r_x q) /\ r_g q = G (r_x q) /\ r_fx q = penalized O n F (r_x q)) log /\
  map r_k log = map Z.of_nat (seq 1 (length log)) /\
  forall x w, out = Returned x w -> length x = n /\ vanishes z x /\ x = last (map r_x log) x0.
Proof. intros. eapply stays_zero; eassumption. Qed.
Print Assumptions C54_stays_zero.

Example C54_ex :
  computes 2 (Nat.eqb 1) (fun (st : unit) x g => (st, (x, [entry x 0; 0], Value (N := Rnum) (sq_F x)))) sq_F (fun x => [entry x 0; 0]) /\
  vanishes (Nat.eqb 1) [2; 0].
Proof.
  split.
  - intros st x g Hx _. split; [reflexivity|]. split; [reflexivity|]. intros i Hi. apply Nat.eqb_eq in Hi. subst. reflexivity.
  - intros i Hi. apply Nat.eqb_eq in Hi. subst. reflexivity.
Qed.

(** C86: exceptions raised by the callables are lost. *)
Theorem C86_objective : forall (St : Type) (O : options Rnum) alg (f : objective Rnum St) progress fuel lsfuel st (x0 : list R),
  searches O alg -> documented O alg (length x0) -> (0 <= o_m O)%Z -> o_c O = 0 ->
  (forall st x g, snd (f st x g) = (x, g, Raised)) ->
  exists st', fmin_lbfgs O f progress fuel lsfuel st x0 = Some (st', Returned x0 None).
Proof. intros. eapply raising_objective; eassumption. Qed.
Print Assumptions C86_objective.

(** A raising call of the objective counts as the value zero with whatever it has written
    into x and g before. *)
Theorem C86_zero : forall (N : NumOps) (St : Type) (O : options N) (f : objective N St) progress fuel lsfuel st x0,
  fmin_lbfgs O f progress fuel lsfuel st x0 =
  fmin_lbfgs O (fun st x g => let a := f st x g in (fst a, (fst (snd a), match snd (snd a) with Raised => Value nzero | v => v end)))
    progress fuel lsfuel st x0.
Proof. intros. apply raising_value. Qed.
Print Assumptions C86_zero.

Theorem C86_progress : forall (N : NumOps) (St : Type) (O : options N) (f : objective N St) h fuel lsfuel st x0,
  fmin_lbfgs O f (Some h) fuel lsfuel st x0 =
  fmin_lbfgs O f (Some (fun st q => let a := h st q in (fst a, match snd a with Failed => NoReply | r => r end))) fuel lsfuel st x0.
Proof. intros. apply raising_progress. Qed.
Print Assumptions C86_progress.

Example C86_ex : searches pl_O Wolfe /\ documented pl_O Wolfe 1 /\ o_c pl_O = 0.
Proof.
  split; [|split].
  - right. split; reflexivity.
  - unfold documented, pl_O, sq_options. cbn [o_epsilon o_past o_delta o_min_step o_max_step o_ftol o_wolfe o_gtol o_xtol o_max_linesearch o_start o_end].
    repeat split; try lra; try lia.
  - reflexivity.
Qed.

(** C87: with a search that checks the curvature every step is a strict descent with
    positive curvature, and none of the internal errors can occur. *)
Theorem C87_curved_steps : forall (St : Type) n z (O : options Rnum) (f : objective Rnum St) progress F G fuel lsfuel st x0 alg st' log out,
  computes n z f F G -> length x0 = n -> vanishes z x0 ->
  o_c O = 0 -> line_search_algo (o_line_search O) = Some alg -> curved O alg ->
  recorded O f progress fuel lsfuel st x0 = Some (st', log, out) ->
  chain (strict_step n G) x0 (map r_x log).
Proof. intros. eapply steps_curved; eassumption. Qed.
Print Assumptions C87_curved_steps.

Theorem C87_no_internal_error : forall (St : Type) n z (O : options Rnum) (f : objective Rnum St) progress F G fuel lsfuel st x0 alg st' x code,
  computes n z f F G -> length x0 = n -> vanishes z x0 ->
  o_c O = 0 -> curved O alg -> never_stops progress ->
  lbfgs (to_params O alg) f progress fuel lsfuel st x0 = Some (Done st' x code) ->
  code <> LBFGSERR_INVALIDPARAMETERS /\ code <> LBFGSERR_INCREASEGRADIENT /\ code <> LBFGSERR_LOGICERROR.
Proof. intros. eapply curved_codes; eassumption. Qed.
Print Assumptions C87_no_internal_error.

Example C87_ex : curved pl_O Wolfe /\ strict_step 1 (fun x => x) [1] [0].
Proof. split; [exact Logic.I|]. unfold strict_step, along, Sum, entry. cbn. lra. Qed.

(** C88: a result without a warning is nearly stationary, and for a function above its
    tangents its value is nearly minimal. *)
Theorem C88_stationary : forall (St : Type) n z (O : options Rnum) (f : objective Rnum St) progress F G fuel lsfuel st (x0 : list R) st' x,
  computes n z f F G -> length x0 = n -> vanishes z x0 -> never_says 2 progress ->
  fmin_lbfgs O f progress fuel lsfuel st x0 = Some (st', Returned x None) ->
  0 <= o_c O /\ (range_end O n <= n)%nat /\ length x = n /\ nearly_stationary O n G x.
Proof. intros. eapply returned_stationary; eassumption. Qed.
Print Assumptions C88_stationary.

Theorem C88_gap : forall (St : Type) n z (O : options Rnum) (f : objective Rnum St) progress F G fuel lsfuel st (x0 : list R) st' x w,
  computes n z f F G -> length x0 = n -> vanishes z x0 -> never_says 2 progress ->
  above_tangents n F G -> length w = n ->
  fmin_lbfgs O f progress fuel lsfuel st x0 = Some (st', Returned x None) ->
  penalized O n F x - penalized O n F w <= o_epsilon O * Rmax 1 (norm n x) * distance n x w.
Proof. intros St n z O f progress F G fuel lsfuel st x0 st' x w H1 H2 H3 H4 H5 H6 H7. exact (returned_gap n z O f progress F G fuel lsfuel st x0 H1 H2 H3 st' x w H4 H5 H6 H7). Qed.
Print Assumptions C88_gap.

Example C88_ex : fmin_lbfgs owl_O sq_f None 2 1 tt [2] = Some (tt, Returned [0] None) /\ never_says (N := Rnum) (St := unit) 2 None.
Proof. split; [rewrite recording_faithful, owl_run; reflexivity|]. intros h st q C; discriminate C. Qed.

(** C89: with an unpenalized variable OWL-QN can return a point that is worse than x0
    (binary64 arithmetic; only the first of two variables is penalized and stays zero). *)
Theorem C89_unpenalized_worse : forall exp64 ln64 : f64 -> f64,
  fmin_lbfgs (quartic_options exp64 ln64) (quartic_f exp64 ln64) None 3 20 tt [fzero; fzero] =
    Some (tt, Returned (N := Fnum exp64 ln64) [fzero; quartic_x] (Some LBFGSERR_MAXIMUMITERATION)) /\
  snd (snd (quartic_f exp64 ln64 tt [fzero; fzero] [fzero; fzero])) = Value (N := Fnum exp64 ln64) fzero /\
  exists v, snd (snd (quartic_f exp64 ln64 tt [fzero; quartic_x] [fzero; fzero])) = Value (N := Fnum exp64 ln64) v /\ fltb fzero v = true.
Proof. exact quartic_worse. Qed.
Print Assumptions C89_unpenalized_worse.

(** C90: the backtracking searches accept NaN.  With the default limits the optimizer never
    returns if the objective has NaN value and gradient at the first trial point and at
    points with NaN coordinates. *)
Theorem C90_nan_forever : forall (exp64 ln64 : f64 -> f64) (St : Type) k (f : objective (Fnum exp64 ln64) St) progress sname alg,
  never_stops progress ->
  alg = Armijo /\ sname = "armijo"%string \/ alg = Wolfe /\ sname = "wolfe"%string \/ alg = StrongWolfe /\ sname = "strongwolfe"%string ->
  nan_at exp64 ln64 f (nans (S k)) ->
  forall fuel lsfuel st (x0 g0 : list (Fnum exp64 ln64)) v0 st0, length x0 = S k -> length g0 = S k ->
  f st x0 (repeat nzero (S k)) = (st0, (x0, g0, Value v0)) ->
  let norm := vec2norm g0 in
  let x1 := vecadd x0 (vecncpy g0) (vec2norminv (vecncpy g0)) in
  nleb (ndiv norm (if nltb (vec2norm x0) none then none else vec2norm x0)) (ndiv none (nofZ 100000)) = false ->
  nleb (vec2norminv (vecncpy g0)) nzero = false -> nltb nzero (vecdot g0 (vecncpy g0)) = false ->
  nan_at exp64 ln64 f x1 ->
  fmin_lbfgs (default_options (N := Fnum exp64 ln64) nzero sname) f progress fuel lsfuel st x0 = None.
Proof. intros. eapply nan_runs_forever; eassumption. Qed.
Print Assumptions C90_nan_forever.

(** An instance: value and gradient are 1 at x0 = 1 and NaN everywhere else. *)
Example C90_ex :
  let id (x : f64) := x in
  let f : objective (Fnum id id) unit := fun st x g =>
    (st, match x with [a] => if feqb a fone then (x, [fone], Value (N := Fnum id id) fone) else (x, nans 1, Value (N := Fnum id id) fnan)
         | _ => (x, nans (length x), Value (N := Fnum id id) fnan) end) in
  forall fuel lsfuel, fmin_lbfgs (default_options (N := Fnum id id) nzero "armijo") f None fuel lsfuel tt [fone] = None.
Proof.
  cbv zeta. intros fuel lsfuel.
  eapply (C90_nan_forever (fun x => x) (fun x => x) unit 0 _ None "armijo" Armijo) with (g0 := [fone]) (v0 := fone) (st0 := tt).
  - intros h st q C; discriminate C.
  - left. split; reflexivity.
  - intros st g. reflexivity.
  - reflexivity.
  - reflexivity.
  - reflexivity.
  - vm_compute. reflexivity.
  - vm_compute. reflexivity.
  - vm_compute. reflexivity.
  - intros st g. reflexivity.
Qed.

(** OWL-QN and More-Thuente never accept a NaN value. *)
Theorem C90_nan_rejected : forall (exp64 ln64 : f64 -> f64) (St : Type) (O : options (Fnum exp64 ln64)) (f : objective (Fnum exp64 ln64) St) progress fuel lsfuel st x0 st' log out,
  nleb (o_c O) nzero = false \/ o_line_search O = "default"%string \/ o_line_search O = "morethuente"%string ->
  recorded O f progress fuel lsfuel st x0 = Some (st', log, out) ->
  Forall (fun q : report (Fnum exp64 ln64) => r_fx q <> fnan) log.
Proof. intros. eapply reported_not_nan; eassumption. Qed.
Print Assumptions C90_nan_rejected.
