(** C109: how the default line search shortens its steps. *)
From Coq Require Import String ZArith List Bool Arith Reals Lra Lia.
From Verif Require Import Prelude Num Spec_Rescale Proofs_Rescale Model_Lbfgs Proofs_Poisson Spec_Lbfgs Spec_LbfgsBack Spec_LbfgsTrial
  Proofs_LbfgsVec Proofs_LbfgsReal Proofs_LbfgsTrial.
Import ListNotations.
Local Open Scope R_scope.

(** The first search: as long as the sufficient decrease fails, the objective is evaluated
    after the shorter step, and nowhere in between. *)
Theorem C109_trials : forall (St : Type) n z (O : options Rnum) (f : objective Rnum St) F G fuel lsfuel st x0 st' seen out ys t y,
  computes n z f F G -> length x0 = n -> vanishes z x0 -> searches O MoreThuente -> documented O MoreThuente n ->
  (0 <= o_m O)%Z -> o_ftol O < 1 -> o_xtol O < 1 ->
  o_epsilon O * Rmax 1 (norm n x0) < norm n (G x0) ->
  o_min_step O < 1 / norm n (G x0) < o_max_step O - o_min_step O ->
  backs O n F G x0 ys t y -> (Z.of_nat (length ys) < o_max_linesearch O)%Z ->
  fmin_lbfgs O (see f) None fuel lsfuel (st, []) x0 = Some ((st', seen), out) ->
  exists rest, seen = x0 :: ys ++ rest.
Proof.
  intros St n z O f F G fuel lsfuel st x0 st' seen out ys t y H1 H2 H3 H4 H5 H6 H7 H8 H9 [H10 H11] H12 H13 H14.
  exact (backs_seen n z O f F G fuel lsfuel st x0 H1 H2 H3 H4 H5 H6 H7 H8 H9 H10 H11 st' seen out ys t y H12 H13 H14).
Qed.
Print Assumptions C109_trials.

(** There is exactly one shorter step; it is at most 0.66 times the one before, or min_step. *)
Theorem C109_next : forall n (O : options Rnum) F G x0 t y,
  length x0 = n -> length (G x0) = n -> documented O MoreThuente n -> o_ftol O < 1 -> 0 < norm n (G x0) ->
  0 < t -> steepest n x0 (G x0) t y -> insufficient O n F G x0 t y ->
  exists t', shorter O n F G x0 t y t' /\ (forall u, shorter O n F G x0 t y u -> u = t') /\ 0 < t' <= Rmax (o_min_step O) (66 / 100 * t).
Proof. intros n O F G x0 t y H1 H2 H3 H4 H5 H6 H7 H8. exact (next_exists n O F G x0 H1 H2 H3 H4 H5 t y H6 H7 H8). Qed.
Print Assumptions C109_next.

(** So the number of trials that are too long is at most logarithmic in M / |G x0|, if M bounds
    the curvature. *)
Theorem C109_count : forall n (O : options Rnum) F G x0 M ys t y,
  length x0 = n -> length (G x0) = n -> documented O MoreThuente n -> o_ftol O < 1 -> 0 < norm n (G x0) -> 0 < M -> smooth n F G M ->
  backs O n F G x0 ys t y -> o_min_step O < t -> insufficient O n F G x0 t y ->
  2 * (1 - o_ftol O) / M < (66 / 100) ^ (length ys - 1) * (1 / norm n (G x0)).
Proof. intros n O F G x0 M ys t y H1 H2 H3 H4 H5 H6 H7 H8 H9 H10. exact (count_bound n O F G x0 H1 H2 H3 H4 H5 M ys t y H6 H7 H8 H9 H10). Qed.
Print Assumptions C109_count.

(** F(x) = 2 x^2 from 1/4 with the default options: the first trial, at -3/4, is too far; the next is at 0. *)
Definition steep_F (x : list R) : R := 2 * (entry x 0 * entry x 0).
Definition steep_G (x : list R) : list R := [4 * entry x 0].
Definition steep_f : objective Rnum unit := fun st x _ => (st, (x, steep_G x, Value (N := Rnum) (steep_F x))).
Definition usual : options Rnum := default_options (N := Rnum) 0 "default".

Example C109_ex_hypotheses : let quarter := [1 / 4] in
  computes 1 nowhere steep_f steep_F steep_G /\ vanishes nowhere quarter /\ searches usual MoreThuente /\ documented usual MoreThuente 1 /\
  (0 <= o_m usual)%Z /\ o_ftol usual < 1 /\ o_xtol usual < 1 /\ smooth 1 steep_F steep_G 4 /\
  o_epsilon usual * Rmax 1 (norm 1 quarter) < norm 1 (steep_G quarter) /\
  o_min_step usual < 1 / norm 1 (steep_G quarter) < o_max_step usual - o_min_step usual /\
  insufficient usual 1 steep_F steep_G quarter 1 [- (3 / 4)] /\
  backs usual 1 steep_F steep_G quarter [[- (3 / 4)]; [0]] (1 / 4) [0].
Proof.
  cbv zeta.
  assert (D : forall a b, dot 1 a b = entry a 0 * entry b 0) by (intros; unfold dot, Sum; cbn; ring).
  assert (G0 : entry (steep_G [1 / 4]) 0 = 1) by (unfold steep_G, entry; cbn; field).
  assert (G1 : entry (steep_G [- (3 / 4)]) 0 = - 3) by (unfold steep_G, entry; cbn; field).
  assert (E : norm 1 (steep_G [1 / 4]) = 1) by (unfold norm; rewrite D, G0, Rmult_1_r; apply sqrt_1).
  assert (E0 : norm 1 [1 / 4] = 1 / 4).
  { unfold norm. rewrite D. unfold entry. cbn [nth]. apply sqrt_square. lra. }
  assert (F0 : steep_F [1 / 4] = 1 / 8) by (unfold steep_F, entry; cbn [nth]; lra).
  assert (F1 : steep_F [- (3 / 4)] = 9 / 8) by (unfold steep_F, entry; cbn [nth]; lra).
  assert (I : insufficient usual 1 steep_F steep_G [1 / 4] 1 [- (3 / 4)]).
  { unfold insufficient. rewrite D, G0, F0, F1. change (o_ftol usual : R) with (1 / 10000). lra. }
  split; [|split; [|split; [|split; [|split; [|split; [|split; [|split; [|split; [|split; [|split]]]]]]]]]].
  - intros st x g _ _. split; [reflexivity|]. split; [reflexivity|]. intros i Hi. discriminate.
  - intros i Hi. discriminate.
  - right. split; [reflexivity|]. reflexivity.
  - unfold documented, usual, default_options. cbn. repeat split; try lia; try lra; destruct H as [H|H]; discriminate H.
  - cbn. lia.
  - change (o_ftol usual : R) with (1 / 10000). lra.
  - cbn. lra.
  - intros x y _ _. unfold along, distance, steep_F, steep_G. rewrite sqrt_sqrt by (apply Sum_nonneg; intros i Hi; apply Rle_0_sqr).
    unfold Sum. cbn [seq map fold_right entry nth]. unfold entry. cbn [nth]. right. field.
  - rewrite E, E0, Rmax_left by lra. cbn. lra.
  - rewrite E. cbn. lra.
  - exact I.
  - change [[- (3 / 4)]; [0]] with ([[- (3 / 4)]] ++ [[0]]). apply (backs_next usual 1 steep_F steep_G [1 / 4] [[- (3 / 4)]] 1 [- (3 / 4)]).
    + replace 1 with (1 / norm 1 (steep_G [1 / 4])) at 2 by (rewrite E; field). apply backs_first. split; [reflexivity|]. intros i Hi. assert (i = 0%nat) by lia. subst i.
      rewrite E, G0. unfold entry. cbn [nth]. field.
    + cbn. lra.
    + exact I.
    + unfold shorter. cbv zeta. rewrite !D, G0, G1, F0, F1. exists (1 / 4), (1 / 4). destruct Rle_dec; [lra|].
      split; [exists 0, 2; repeat split; lra|]. split; [exists 2; repeat split; lra|]. destruct Rlt_dec; [lra|].
      rewrite Rmin_right by lra. rewrite Rmax_right; [field|]. cbn. lra.
    + split; [reflexivity|]. intros i Hi. assert (i = 0%nat) by lia. subst i. rewrite G0. unfold entry. cbn [nth]. field.
Qed.
