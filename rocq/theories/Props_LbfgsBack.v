(** C107: the default line search can turn back to where it started. *)
From Coq Require Import String ZArith List Bool Arith Reals Lra Lia Floats.SpecFloat.
From Verif Require Import Prelude F64 Num Spec_Rescale Proofs_Rescale Model_Lbfgs Proofs_Poisson Spec_Lbfgs Spec_LbfgsBack
  Proofs_LbfgsVec Proofs_LbfgsReal Proofs_LbfgsBack.
Import ListNotations.
Local Open Scope R_scope.

(** The first evaluation after x0 is at y = x0 - G x0 / |G x0|.  If the objective flattens out on
    the way there (but not enough to satisfy the curvature condition), the next one is not
    beyond y: it is at the smallest step allowed, min_step, from x0. *)
Theorem C107_turns_back : forall (St : Type) n z (O : options Rnum) (f : objective Rnum St) F G fuel lsfuel st x0 y w st' seen out,
  computes n z f F G -> length x0 = n -> vanishes z x0 -> searches O MoreThuente -> documented O MoreThuente n ->
  (0 <= o_m O)%Z -> (2 <= o_max_linesearch O)%Z -> o_ftol O <= 1 / 3 ->
  o_epsilon O * Rmax 1 (norm n x0) < norm n (G x0) ->
  o_min_step O < 1 / norm n (G x0) < o_max_step O ->
  steepest n x0 (G x0) (1 / norm n (G x0)) y ->
  flattens O n F G (1 / norm n (G x0)) x0 y ->
  steepest n x0 (G x0) (o_min_step O) w ->
  fmin_lbfgs O (see f) None fuel lsfuel (st, []) x0 = Some ((st', seen), out) ->
  exists rest, seen = x0 :: y :: w :: rest.
Proof.
  intros St n z O f F G fuel lsfuel st x0 y w st' seen out H1 H2 H3 H4 H5 H6 H7 H8 H9 [H10 H11] H12 H13 H14 H15.
  exact (turns_back n z O f F G fuel lsfuel st x0 y H1 H2 H3 H4 H5 H6 H7 H8 H9 H10 H11 H12 H13 st' seen out w H14 H15).
Qed.
Print Assumptions C107_turns_back.

(** The default options but for gtol. *)
Definition with_gtol {N : NumOps} (zero g : N) : options N :=
  let O := default_options (N := N) zero "default" in
  mkOptions (o_c O) (o_start O) (o_end O) (o_m O) (o_epsilon O) (o_past O) (o_delta O) (o_max_iterations O)
    (o_line_search O) (o_max_linesearch O) (o_min_step O) (o_max_step O) (o_ftol O) (o_wolfe O) g (o_xtol O).

(** F(x) = 1 / (1 + x) + x / 16, which is convex for x > -1 with its minimum at 3, in binary64. *)
Definition hill {exp64 ln64} : objective (Fnum exp64 ln64) unit := fun st x _ =>
  let N := Fnum exp64 ln64 in
  let u : f64 := nth 0 x fzero in
  let w := nadd (n := N) (f64_of_Z 1) u in
  let c := fdiv (f64_of_Z 1) (f64_of_Z 16) in
  (st, (x, [nsub (n := N) c (ndiv (n := N) (f64_of_Z 1) (nmul (n := N) w w))],
        Value (N := N) (nadd (n := N) (ndiv (n := N) (f64_of_Z 1) w) (nmul (n := N) u c)))).

(** Minimized from 0 with gtol = 1/10: the evaluations are at 0, at 1, at about 1e-20, and then
    at NaN, and the call fails.  With the default gtol, 0.9, it returns 3 to within 1/1000, in 9 evaluations and without a
    warning. *)
Theorem C107_fails : forall exp64 ln64 : f64 -> f64,
  let N := Fnum exp64 ln64 in
  match fmin_lbfgs (with_gtol (N := N) fzero (fdiv (f64_of_Z 1) (f64_of_Z 10))) (see hill) None 30 60 (tt, []) [fzero] with
  | Some ((_, [[a]; [b]; [c]; [d]; [e]]), Raises LBFGSError) =>
      SFeqb a fzero && SFeqb b (f64_of_Z 1) && SFltb fzero c && SFltb c (fdiv (f64_of_Z 1) (f64_of_Z 10000000000000000000)) && is_nan64 d && is_nan64 e
  | _ => false
  end = true /\
  match fmin_lbfgs (default_options (N := N) fzero "default") (see hill) None 30 60 (tt, []) [fzero] with
  | Some ((_, seen), Returned [x] None) =>
      SFltb (fdiv (f64_of_Z 2999) (f64_of_Z 1000)) x && SFltb x (fdiv (f64_of_Z 3001) (f64_of_Z 1000)) && (length seen =? 9)%nat
  | _ => false
  end = true.
Proof.
  intros exp64 ln64 N. split; vm_compute; reflexivity.
Qed.
Print Assumptions C107_fails.

(** The same objective over the reals meets the hypotheses of C107_turns_back. *)
Definition hill_F (x : list R) : R := 1 / (1 + entry x 0) + entry x 0 / 16.
Definition hill_G (x : list R) : list R := [1 / 16 - 1 / ((1 + entry x 0) * (1 + entry x 0))].
Definition hill_f : objective Rnum unit := fun st x _ => (st, (x, hill_G x, Value (N := Rnum) (hill_F x))).
Definition hill_O : options Rnum := with_gtol (N := Rnum) 0 (1 / 10).
Definition clear (i : nat) : bool := false.

Example C107_ex_hypotheses :
  computes 1 clear hill_f hill_F hill_G /\ vanishes clear [0] /\ searches hill_O MoreThuente /\ documented hill_O MoreThuente 1 /\
  (0 <= o_m hill_O)%Z /\ (2 <= o_max_linesearch hill_O)%Z /\ o_ftol hill_O <= 1 / 3 /\
  o_epsilon hill_O * Rmax 1 (norm 1 [0]) < norm 1 (hill_G [0]) /\
  o_min_step hill_O < 1 / norm 1 (hill_G [0]) < o_max_step hill_O /\
  steepest 1 [0] (hill_G [0]) (1 / norm 1 (hill_G [0])) [1] /\
  flattens hill_O 1 hill_F hill_G (1 / norm 1 (hill_G [0])) [0] [1] /\
  steepest 1 [0] (hill_G [0]) (o_min_step hill_O) [15 / 16 * o_min_step hill_O].
Proof.
  assert (G0 : entry (hill_G [0]) 0 = - (15 / 16)) by (unfold hill_G, entry; cbn; field).
  assert (G1 : entry (hill_G [1]) 0 = - (3 / 16)) by (unfold hill_G, entry; cbn; field).
  assert (D : forall a b, dot 1 a b = entry a 0 * entry b 0) by (intros; unfold dot, Sum; cbn; ring).
  assert (E : norm 1 (hill_G [0]) = 15 / 16).
  { unfold norm. rewrite D, G0. replace (- (15 / 16) * - (15 / 16)) with (15 / 16 * (15 / 16)) by ring. apply sqrt_square. lra. }
  assert (E0 : norm 1 [0] = 0).
  { unfold norm. rewrite D. unfold entry. cbn. rewrite Rmult_0_l. apply sqrt_0. }
  split; [|split; [|split; [|split; [|split; [|split; [|split; [|split; [|split; [|split; [|split]]]]]]]]]].
  - intros st x g _ _. split; [reflexivity|]. split; [reflexivity|]. intros i Hi. discriminate.
  - intros i Hi. discriminate.
  - right. split; [reflexivity|]. reflexivity.
  - unfold documented, hill_O, with_gtol, default_options. cbn. repeat split; try lia; try lra; destruct H as [H|H]; discriminate H.
  - cbn. lia.
  - cbn. lia.
  - cbn. lra.
  - rewrite E, E0, Rmax_left by lra. cbn. lra.
  - rewrite E. cbn. lra.
  - split; [reflexivity|]. intros i Hi. assert (i = 0%nat) by lia. subst i. rewrite E, G0. unfold entry. cbn. field.
  - unfold flattens. cbv zeta. rewrite E, !D, G0, G1. unfold hill_F, entry. cbn [nth]. change (o_gtol hill_O : R) with (1 / 10).
    assert (Q : 1 / 4 <= sqrt (- (15 / 16) * - (15 / 16) * (- (3 / 16) * - (15 / 16)))).
    { rewrite <- (sqrt_square (1 / 4)) by lra. apply sqrt_le_1; lra. }
    repeat split; lra.
  - split; [reflexivity|]. intros i Hi. assert (i = 0%nat) by lia. subst i. rewrite G0. unfold entry. cbn [nth]. ring.
Qed.
