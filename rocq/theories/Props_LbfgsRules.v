(** C118: the trial steps of the default line search. *)
From Coq Require Import String ZArith List Bool Arith Reals Lra Lia Psatz Floats.SpecFloat.
From Verif Require Import Prelude F64 Num Spec_Rescale Proofs_Rescale Model_Lbfgs Proofs_Poisson Spec_Lbfgs Spec_LbfgsBack Spec_LbfgsRules
  Proofs_LbfgsVec Proofs_LbfgsReal Proofs_LbfgsRules5.
Import ListNotations.
Local Open Scope R_scope.

(** The objective is evaluated at x0 and then at the steps the rules prescribe, one after the other. *)
Theorem C118_trials : forall (St : Type) n z (O : options Rnum) (f : objective Rnum St) F G fuel lsfuel st x0 h h' st' seen out ts ys first x y b W PW t,
  computes n z f F G -> length x0 = n -> vanishes z x0 -> searches O MoreThuente -> documented O MoreThuente n -> (0 <= o_m O)%Z ->
  o_ftol O < 1 -> 4 * o_ftol O <= o_gtol O -> o_epsilon O * Rmax 1 (norm n x0) < norm n (G x0) ->
  descent_line n F G x0 h h' ->
  follows (o_ftol O) (o_gtol O) (o_xtol O) (o_min_step O) (o_max_step O) h h' (1 / norm n (G x0)) ts first x y b W PW t ->
  (Z.of_nat (length ts) < o_max_linesearch O)%Z ->
  Forall2 (steepest n x0 (G x0)) ts ys ->
  fmin_lbfgs O (see f) None fuel lsfuel (st, []) x0 = Some ((st', seen), out) ->
  exists rest, seen = x0 :: ys ++ rest.
Proof.
  intros St n z O f F G fuel lsfuel st x0 h h' st' seen out ts ys first x y b W PW t H1 H2 H3 H4 H5 H6 H7 H8 H9 H10 H11 H12 H13 H14.
  exact (rules_seen n z O f F G fuel lsfuel st x0 h h' H1 H2 H3 H4 H5 H6 H7 H8 H9 H10 st' seen out ts ys first x y b W PW t H11 H12 H13 H14).
Qed.
Print Assumptions C118_trials.

(** After a step that is not acceptable the rules determine the next one, whatever the function:
    the interpolating curves they speak of have the minima asked for. *)
Theorem C118_defined : forall mu eta xtol lo hi (h h' : R -> R) t0 ts first x y b width old t,
  h' 0 < 0 -> 0 <= mu < 1 -> 4 * mu <= eta -> 0 <= lo ->
  follows mu eta xtol lo hi h h' t0 ts first x y b width old t ->
  lo < t < hi -> ~ acceptable mu eta h h' t -> downhill h' x b t ->
  exists first' x' y' b' u,
    let s := tilt mu h h' first' x t in
    (first' = true <-> first = true /\ ~ settled mu eta h h' t) /\
    chooses (fun r => h r - s * r) (fun r => h' r - s) x y b t (least x y b) (most x y b t) x' y' b' u /\
    forall x2 y2 b2 u2, chooses (fun r => h r - s * r) (fun r => h' r - s) x y b t (least x y b) (most x y b t) x2 y2 b2 u2 ->
      (x2, y2, b2, u2) = (x', y', b', u).
Proof.
  intros mu eta xtol lo hi h h' t0 ts first x y b width old t H1 H2 H3 H4 H5 H6 H7 H8.
  exact (next_defined mu eta xtol lo hi h h' t0 H1 H2 H3 H4 ts first x y b width old t H5 H6 H7 H8).
Qed.
Print Assumptions C118_defined.

(** Once a minimum is enclosed, the next step is strictly inside the interval, except perhaps if the trial
    was flat, or flatter than the best step with no minimum of the cubic beyond it. *)
Theorem C118_inside : forall mu eta xtol lo hi (h h' : R -> R) t0 ts first x y b width old t first' x' y' u,
  h' 0 < 0 -> 0 <= mu < 1 -> 4 * mu <= eta -> 0 <= lo ->
  follows mu eta xtol lo hi h h' t0 ts first x y b width old t ->
  lo < t < hi -> ~ acceptable mu eta h h' t -> downhill h' x b t ->
  let s := tilt mu h h' first' x t in
  (first' = true <-> first = true /\ ~ settled mu eta h h' t) ->
  chooses (fun r => h r - s * r) (fun r => h' r - s) x y b t (least x y b) (most x y b t) x' y' true u ->
  h' t <> 0 -> (h t <= h x -> 0 <= h' t * h' x -> Rabs (h' t) < Rabs (h' x) -> exists e, lowest h h' x t e /\ beyond x t e) ->
  Rmin x' y' < halved x' y' true old u < Rmax x' y'.
Proof.
  intros mu eta xtol lo hi h h' t0 ts first x y b width old t first' x' y' u H1 H2 H3 H4 H5 H6 H7 H8.
  exact (next_inside mu eta xtol lo hi h h' t0 H1 H2 H3 H4 ts first x y b width old t H5 H6 H7 H8 first' x' y' u).
Qed.
Print Assumptions C118_inside.

(** In that exception the rules lead out of the interval: back to the best step before, which has just
    been given up.  The last step is evaluated once more, and the call returns x0 with the
    warning that rounding errors prevented any progress, though there are none. *)
Theorem C118_gives_up : forall (St : Type) n z (O : options Rnum) (f : objective Rnum St) F G fuel lsfuel st x0 h h' st' seen out ts ys first x y W PW t w,
  computes n z f F G -> length x0 = n -> vanishes z x0 -> searches O MoreThuente -> documented O MoreThuente n -> (0 <= o_m O)%Z ->
  o_ftol O < 1 -> 4 * o_ftol O <= o_gtol O -> o_epsilon O * Rmax 1 (norm n x0) < norm n (G x0) ->
  descent_line n F G x0 h h' ->
  follows (o_ftol O) (o_gtol O) (o_xtol O) (o_min_step O) (o_max_step O) h h' (1 / norm n (G x0)) ts first x y true W PW t ->
  (Z.of_nat (length ts) + 1 < o_max_linesearch O)%Z ->
  o_min_step O < t < o_max_step O -> ~ acceptable (o_ftol O) (o_gtol O) h h' t ->
  first = false \/ h t <= enough (o_ftol O) h h' t ->
  deceptive h h' x t -> Rabs (y - t) < 66 / 100 * PW ->
  Forall2 (steepest n x0 (G x0)) ts ys -> steepest n x0 (G x0) t w ->
  fmin_lbfgs O (see f) None fuel lsfuel (st, []) x0 = Some ((st', seen), out) ->
  seen = x0 :: ys ++ [w] /\ out = Returned x0 (Some LBFGSERR_ROUNDING_ERROR).
Proof.
  intros St n z O f F G fuel lsfuel st x0 h h' st' seen out ts ys first x y W PW t w H1 H2 H3 H4 H5 H6 H7 H8 H9 H10 H11 H12 H13 H14 H15 H16 H17 H18 H19 H20.
  exact (rules_back n z O f F G fuel lsfuel st x0 h h' H1 H2 H3 H4 H5 H6 H7 H8 H9 H10 st' seen out ts ys first x y W PW t w H11 H12 H13 H14 H15 H16 H17 H18 H19 H20).
Qed.
Print Assumptions C118_gives_up.

(** F(x) = 6 x^2 - 3 x + x^2 (1 - x)^2 q(x), q(x) = 84 (4 x - 1)^2 - 28 x - 3, in binary64. *)
Definition bumpy {exp64 ln64} : objective (Fnum exp64 ln64) unit := fun st x _ =>
  let N := Fnum exp64 ln64 in
  let u : N := nth 0 x fzero in let c (k : Z) : N := f64_of_Z k in
  let m (a b : N) : N := nmul (n := N) a b in let p (a b : N) : N := nadd (n := N) a b in let s (a b : N) : N := nsub (n := N) a b in
  let v := s (c 1%Z) u in let w := s (m (c 4%Z) u) (c 1%Z) in
  let q := s (s (m (c 84%Z) (m w w)) (m (c 28%Z) u)) (c 3%Z) in
  let q' := s (m (c 672%Z) w) (c 28%Z) in
  (st, (x, [p (p (s (m (c 12%Z) u) (c 3%Z)) (m (m (m (m (c 2%Z) u) v) (s v u)) q)) (m (m (m u v) (m u v)) q')],
        Value (N := N) (p (s (m (c 6%Z) (m u u)) (m (c 3%Z) u)) (m (m (m u v) (m u v)) q)))).

(** Minimized from 0 with the default options: the evaluations are at 0, at 1 and twice at 1/4, and 0 is returned
    with that warning, though F(1/4) < F(0). *)
Theorem C118_gives_up64 : forall exp64 ln64 : f64 -> f64,
  let N := Fnum exp64 ln64 in
  let quarter := fdiv (f64_of_Z 1) (f64_of_Z 4) in
  match fmin_lbfgs (default_options (N := N) fzero "default") (see bumpy) None 30 60 (tt, []) [fzero] with
  | Some ((_, [[a]; [b]; [c]; [d]]), Returned [r] (Some w)) =>
      SFeqb a fzero && SFeqb b (f64_of_Z 1) && SFeqb c quarter && SFeqb d quarter && SFeqb r fzero && (w =? LBFGSERR_ROUNDING_ERROR)%Z
  | _ => false
  end = true /\
  match bumpy (exp64 := exp64) (ln64 := ln64) tt [fzero] [], bumpy (exp64 := exp64) (ln64 := ln64) tt [quarter] [] with
  | (_, (_, Value a)), (_, (_, Value b)) => SFltb b a
  | _, _ => false
  end = true.
Proof.
  intros exp64 ln64 N quarter. split; vm_compute; reflexivity.
Qed.
Print Assumptions C118_gives_up64.

(** The same objective over the reals. *)
Definition ex_q (x : R) : R := 84 * (4 * x - 1) ^ 2 - 28 * x - 3.
Definition ex_val (x : R) : R := 6 * x ^ 2 - 3 * x + x ^ 2 * (1 - x) ^ 2 * ex_q x.
Definition ex_slope (x : R) : R :=
  12 * x - 3 + 2 * x * (1 - x) * (1 - 2 * x) * ex_q x + x ^ 2 * (1 - x) ^ 2 * (672 * (4 * x - 1) - 28).
Definition ex_F (x : list R) : R := ex_val (entry x 0).
Definition ex_G (x : list R) : list R := [ex_slope (entry x 0)].
Definition ex_f : objective Rnum unit := fun st x _ => (st, (x, ex_G x, Value (N := Rnum) (ex_F x))).
Definition ex_O : options Rnum := default_options (N := Rnum) 0 "default".
Definition ex_h (t : R) : R := ex_val (3 * t).
Definition ex_h' (t : R) : R := 3 * ex_slope (3 * t).

(** The slope is the derivative of the value. *)
Example C118_ex_slope : forall x, derivable_pt_lim ex_val x (ex_slope x).
Proof.
  intro x. unfold ex_val, ex_slope, ex_q.
  set (l := fun a b y : R => a * y + b).
  assert (D : exists d, derivable_pt_lim (fun y => l 6 (-3) y * l 1 0 y + (l 1 0 y * l (-1) 1 y) * (l 1 0 y * l (-1) 1 y) * (l 336 (-84) y * l 4 (-1) y + l (-28) (-3) y)) x d /\
    d = 12 * x - 3 + 2 * x * (1 - x) * (1 - 2 * x) * (84 * (4 * x - 1) ^ 2 - 28 * x - 3) + x ^ 2 * (1 - x) ^ 2 * (672 * (4 * x - 1) - 28)).
  { eexists. split; [repeat first [apply slope_lin | apply slope_add | apply slope_mul]|]. unfold l. ring. }
  destruct D as (d & D & E). refine (slope_ext _ _ _ _ _ _ E D). intro y. unfold l. ring.
Qed.

(** After the first trial, 1/3, the rules give 1/12. *)
Example C118_ex_follows :
  follows (o_ftol ex_O) (o_gtol ex_O) (o_xtol ex_O) (o_min_step ex_O) (o_max_step ex_O) ex_h ex_h' (1 / 3) [1 / 3; 1 / 12]
    true 0 (1 / 3) true (1 / 3) (o_max_step ex_O - o_min_step ex_O) (1 / 12).
Proof.
  assert (V0 : ex_h 0 = 0) by (unfold ex_h, ex_val, ex_q; field). assert (S0 : ex_h' 0 = -9) by (unfold ex_h', ex_slope, ex_q; field).
  assert (V1 : ex_h (1 / 3) = 3) by (unfold ex_h, ex_val, ex_q; field). assert (S1 : ex_h' (1 / 3) = 27) by (unfold ex_h', ex_slope, ex_q; field).
  set (hi := o_max_step ex_O : R). set (lo := o_min_step ex_O : R).
  assert (Hlo : 0 < lo < 1 / 100) by (unfold lo, ex_O, default_options; cbn; lra). assert (Hhi : 100 < hi) by (unfold hi, ex_O, default_options; cbn; lra).
  assert (E : Rmin hi (Rmax lo (1 / 3)) = 1 / 3) by (rewrite (Rmax_right lo (1 / 3)) by lra; apply Rmin_right; lra).
  assert (T : forall b, tilt (o_ftol ex_O) ex_h ex_h' b 0 (1 / 3) = 0).
  { intro b. unfold tilt. destruct b; [|reflexivity]. destruct Rlt_dec; [|reflexivity]. destruct Rle_dec; [lra|reflexivity]. }
  pose proof (follows_first (o_ftol ex_O) (o_gtol ex_O) (o_xtol ex_O) lo hi ex_h ex_h' (1 / 3)) as Hf. rewrite E in Hf.
  assert (Ew : 1 / 3 = Rabs (1 / 3 - 0)) by (rewrite Rabs_right; lra).
  rewrite Ew at 4.
  refine (follows_next _ _ _ _ _ _ _ _ [1 / 3] true 0 0 false (hi - lo) (2 * (hi - lo)) (1 / 3) true 0 (1 / 3) true (1 / 12) (1 / 12) Hf _ _ _ _ _ _ _).
  - lra.
  - unfold acceptable, enough. rewrite V0, V1, S0. intros [A _]. revert A. cbn. lra.
  - cbn. lra.
  - unfold settled, enough. rewrite V0, V1, S0. split; [intros _; split; [reflexivity|]|reflexivity]. intros [A _]. revert A. cbn. lra.
  - rewrite T. exists (1 / 12), true.
    assert (L : lowest (fun r => ex_h r - 0 * r) (fun r => ex_h' r - 0) 0 (1 / 3) (1 / 12)).
    { exists 0, 54. rewrite V0, V1, S0, S1. repeat split; lra. }
    assert (V : vertex (fun r => ex_h r - 0 * r) (fun r => ex_h' r - 0) 0 (1 / 3) (1 / 12)).
    { exists 54. rewrite V0, V1, S0. repeat split; lra. }
    split; [|split].
    + assert (P := pick_higher (fun r => ex_h r - 0 * r) (fun r => ex_h' r - 0) 0 0 false (1 / 3) (least 0 0 false) (most 0 0 false (1 / 3)) (1 / 12) (1 / 12)).
      destruct (Rlt_dec (Rabs (1 / 12 - 0)) (Rabs (1 / 12 - 0))) as [N|_]; [lra|]. replace ((1 / 12 + 1 / 12) / 2) with (1 / 12) in P by field. apply P; [lra|exact L|exact V].
    + unfold keep. destruct Rlt_dec as [_|N]; [reflexivity|]. exfalso. apply N. lra.
    + cbn [andb]. unfold capped, least, most. destruct Rlt_dec; [|lra].
      rewrite (Rmin_right (1 / 3 + 4 * (1 / 3 - 0)) (1 / 12)) by lra. rewrite (Rmax_right 0 (1 / 12)) by lra. rewrite Rmin_right by lra. reflexivity.
  - unfold halved. destruct Rle_dec as [N|_]; [rewrite Rabs_right in N by lra; lra|]. rewrite (Rmax_right lo (1 / 12)), Rmin_right by lra. reflexivity.
  - intros _. rewrite (Rmin_left 0 (1 / 3)), (Rmax_right 0 (1 / 3)) by lra. split; [lra|]. cbn. lra.
Qed.


(** The call ends as in binary64. *)
Example C118_ex_gives_up : forall fuel lsfuel st' seen out,
  fmin_lbfgs ex_O (see ex_f) None fuel lsfuel (tt, []) [0] = Some ((st', seen), out) ->
  seen = [[0]; [1]; [1 / 4]; [1 / 4]] /\ out = Returned [0] (Some LBFGSERR_ROUNDING_ERROR).
Proof.
  intros fuel lsfuel st' seen out H.
  assert (D : forall a b, dot 1 a b = entry a 0 * entry b 0) by (intros; unfold dot, Sum; cbn; ring).
  assert (G0 : ex_slope 0 = - 3) by (unfold ex_slope, ex_q; field).
  assert (E : norm 1 (ex_G [0]) = 3).
  { unfold norm. rewrite D. unfold ex_G, entry. cbn [nth]. rewrite G0. replace (- 3 * - 3) with (3 * 3) by ring. apply sqrt_square. lra. }
  assert (E0 : norm 1 [0] = 0) by (unfold norm; rewrite D; unfold entry; cbn; rewrite Rmult_0_l; apply sqrt_0).
  assert (V0 : ex_h 0 = 0) by (unfold ex_h, ex_val, ex_q; field). assert (S0 : ex_h' 0 = - 9) by (unfold ex_h', ex_slope, ex_q; field).
  assert (V2 : ex_h (1 / 12) = - (93 / 128)) by (unfold ex_h, ex_val, ex_q; field).
  assert (S2 : ex_h' (1 / 12) = - (549 / 64)) by (unfold ex_h', ex_slope, ex_q; field).
  assert (Hst : forall t, steepest 1 [0] (ex_G [0]) t [3 * t]).
  { intro t. split; [reflexivity|]. intros i Hi. assert (i = 0%nat) by lia. subst i. unfold ex_G, entry. cbn [nth]. rewrite G0. ring. }
  apply (C118_gives_up unit 1 nowhere ex_O ex_f ex_F ex_G fuel lsfuel tt [0] ex_h ex_h' st' seen out [1 / 3; 1 / 12] [[1]; [1 / 4]]
    true 0 (1 / 3) (1 / 3) (o_max_step ex_O - o_min_step ex_O) (1 / 12) [1 / 4]); try exact H.
  - intros st x g _ _. split; [reflexivity|]. split; [reflexivity|]. intros i Hi. discriminate.
  - reflexivity.
  - intros i Hi. discriminate.
  - right. split; reflexivity.
  - unfold documented, ex_O, default_options. cbn. repeat split; try lia; try lra; destruct H0 as [Q|Q]; discriminate Q.
  - cbn. lia.
  - cbn. lra.
  - cbn. lra.
  - rewrite E, E0, Rmax_left by lra. cbn. lra.
  - intros t y [Hy1 Hy2]. specialize (Hy2 0%nat ltac:(lia)). unfold ex_G in Hy2. unfold ex_F. rewrite D. unfold ex_G. unfold entry in *. cbn [nth] in *.
    rewrite G0 in *. replace (nth 0 y 0) with (3 * t) by lra. unfold ex_h, ex_h'. split; [reflexivity|ring].
  - rewrite E. exact C118_ex_follows.
  - cbn. lia.
  - cbn. lra.
  - unfold acceptable. rewrite S0, S2. intros [_ A]. rewrite !Rabs_left in A by lra. revert A. cbn. lra.
  - right. unfold enough. rewrite V0, V2, S0. cbn. lra.
  - unfold deceptive. rewrite V0, V2, S0, S2. rewrite !Rabs_left by lra. split; [lra|]. split; [lra|]. split; [lra|]. split.
    + intros e (a & b & L1 & L2 & L3 & _) _. rewrite V0, V2, S0, S2 in *. assert (a = - (81 / 4)) by lra. assert (b = 81 / 16) by lra. subst a b. nra.
    + destruct Rlt_dec as [_|N]; lra.
  - rewrite Rabs_right by lra. cbn. lra.
  - constructor; [|constructor; [|constructor]].
    + refine (eq_ind _ (fun v => steepest 1 [0] (ex_G [0]) (1 / 3) [v]) (Hst (1 / 3)) _ _). field.
    + replace (1 / 4) with (3 * (1 / 12)) by field. apply Hst.
  - replace (1 / 4) with (3 * (1 / 12)) by field. apply Hst.
Qed.
