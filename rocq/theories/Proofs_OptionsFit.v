(** What the options of UoI_Poisson and UoI_Lasso do to a fit (C70). *)
From Coq Require Import String List Bool Arith Lia ZArith Reals.
From Verif Require Import Prelude F64 Num Model_Scores Model_Intersection Model_Mpi Spec_Mpi Model_Fit Spec_Fit
  Model_Rescale Spec_Rescale Proofs_Rescale Proofs_FitSerial Proofs_FitProps Proofs_FitDist Proofs_FitFind
  Model_Options Spec_Options Proofs_Options.
Import ListNotations.
Local Open Scope nat_scope.

Section Fits.
  Context {S E Rng : Type}.
  Variables (env : np_env) (d : dims) (sol : nat -> solver S E)
            (draw : bool -> Rng -> result (split * Rng)) (post : nd -> nd -> result (nd * nd)).
  Hypothesis Hnb : 1 <= n_boots_sel d.
  Hypothesis Hshape : forall i, shapes_ok d (sol i).

  (** If scoring never succeeds, no rank returns. *)
  Lemma no_score n R s0 F : 1 <= n_boots_est d ->
    (forall i e mask sp v, score (sol i) e mask sp <> Ok v) ->
    (forall i e sp v, null_score (sol i) e sp <> Ok v) ->
    ~ returned env d sol draw post n false R s0 F.
  Proof.
    intros Hb Hs Hn H. destruct (returned_step env d sol draw post Hnb Hshape n R s0 F H)
      as (sel & ns & coef & ic & _ & _ & _ & _ & Ha & _ & _ & _ & _ & sps & r1 & c & sps2 & r2 & _ & _ & _ & _ & _ & _ & Ht).
    destruct ns as [|ns]; [specialize (Ha 0 ltac:(lia)); discriminate|].
    destruct (Ht 0 0 ltac:(lia) ltac:(lia)) as (i & boots & row & _ & _ & He & _).
    unfold est_task in He. destruct (lookup _ boots) as [sp|]; [|discriminate]. cbn [bind] in He.
    assert (N : forall v, est_null d (sol i) sp <> Ok v).
    { intros v. unfold est_null. destruct (null_fit (sol i) (fst sp)) as [e|]; [|discriminate]. cbn [bind].
      destruct (null_score (sol i) e sp) as [x|] eqn:Ex; [destruct (Hn _ _ _ _ Ex)|discriminate]. }
    assert (M : forall mask v, est_masked d (sol i) mask sp <> Ok v).
    { intros mask v. unfold est_masked. destruct (est_fit (sol i) mask (fst sp)) as [e|]; [|discriminate]. cbn [bind].
      destruct (if shared d then assign_masked _ _ _ else assign_row _ _) as [rw|]; [|discriminate]. cbn [bind].
      destruct (score (sol i) e mask sp) as [x|] eqn:Ex; [destruct (Hs _ _ _ _ _ Ex)|discriminate]. }
    destruct (s_supports sel) as [b|l|p rows]; [discriminate| |].
    - destruct (nth _ l false); [|destruct (N _ He)]. destruct (shared d); [discriminate|destruct (M _ _ He)].
    - destruct (existsb _ _); [destruct (M _ _ He)|destruct (N _ He)].
  Qed.

  (** If the sweep never succeeds, no rank returns. *)
  Lemma no_sweep n R s0 F : 1 <= n_reg d ->
    (forall i s regs tr v, sweep (sol i) s regs tr <> Ok v) ->
    ~ returned env d sol draw post n false R s0 F.
  Proof.
    intros Hr Hs H. destruct (returned_step env d sol draw post Hnb Hshape n R s0 F H)
      as (sel & ns & coef & ic & _ & _ & _ & _ & _ & _ & _ & _ & _ & sps & r1 & c & sps2 & r2 & _ & _ & _ & Hc & _).
    destruct Hc as (_ & _ & _ & Hc). destruct (Hc 0 0 ltac:(lia) ltac:(lia)) as (i & s & regs & s' & rows & q & _ & Hq & _).
    exact (Hs _ _ _ _ _ Hq).
  Qed.

  Lemma no_sweep_serial rng s e : (forall sel rr, is_ok (draw sel rr) = true) ->
    (forall s regs tr, sweep (sol 0) s regs tr = Raise e) ->
    fit env d (sol 0) draw post 1 0 false rng s = Done (Raise e).
  Proof.
    intros Hd Hs. unfold fit. rewrite (serial_eq env d (sol 0)) by auto. unfold serial_result. f_equal.
    destruct (draws_ok draw Hd true (n_boots_sel d) rng) as (sps & r1 & Ed & Hl). rewrite Ed. cbn [bind fst snd].
    destruct (n_boots_sel d) as [|nb] eqn:En; [lia|]. cbn [seq sel_loop].
    assert (E0 : sel_boot d 1 0 = 0) by (unfold sel_boot; now rewrite many_1 by lia).
    rewrite E0, lookup_numbered by lia. cbn [bind]. rewrite Hs. reflexivity.
  Qed.
End Fits.

Lemma acc_never S E Rng env d (sol : nat -> solver S E) (draw : bool -> Rng -> result (split * Rng)) post
    (N : NumOps) (to : N -> f64) (target : nat) (y : list N) (pred : nat -> E -> list nat -> result (list N)) (ic : nat -> E -> N) n R s0 F :
  1 <= n_boots_sel d -> 1 <= n_boots_est d -> (forall i, shapes_ok d (sol i)) ->
  (forall i e mask sp, score (sol i) e mask sp = rmap to (poisson_score (N := N) "acc" target y (pred i e) (ic i e) mask sp)) ->
  (forall i e sp, null_score (sol i) e sp = rmap to (poisson_score (N := N) "acc" target y (pred i e) (ic i e) (repeat false (n_coef d)) sp)) ->
  ~ returned env d sol draw post n false R s0 F.
Proof.
  intros H1 H2 H3 Hs Hn. apply no_score; auto.
  - intros i e mask sp v. rewrite Hs. unfold poisson_score. cbn. destruct (pred i e _); discriminate.
  - intros i e sp v. rewrite Hn. unfold poisson_score. cbn. destruct (pred i e _); discriminate.
Qed.
Lemma acc_raises {N : NumOps} target (y : list N) pred ic support sp yp : pred (target_rows target sp) = Ok yp ->
  poisson_score "acc" target y pred ic support sp = Raise ValueError.
Proof. intro H. unfold poisson_score. rewrite H. reflexivity. Qed.

Lemma map2_map2_nth {A} (f g : A -> A -> A) (x m s : list A) j z p :
  List.length m = p -> List.length s = p -> List.length x = p -> j < p ->
  nth j (map2 f (map2 g x m) s) z = f (g (nth j x z) (nth j m z)) (nth j s z).
Proof.
  intros Lm Ls Lx Hj. assert (L : j < List.length (map2 g x m)) by (rewrite map2_length; lia).
  rewrite (map2_nth f _ s j z z z L) by lia. now rewrite (map2_nth g x m j z z z) by lia.
Qed.

(** Standardization by UoI_Poisson whatever its argument. *)
Lemma poisson_standardizes pyc a o (m s x c : list R) b p : construct pyc UoI_Poisson a = Ok o ->
  List.length m = p -> List.length s = p -> List.length x = p -> List.length c = p ->
  (forall j, j < p -> entry (poisson_design (N := Rnum) o (mkScaler (N := Rnum) m s) x) j
                      = ((entry x j - entry m j) / entry s j)%R) /\
  (forall j, j < p -> entry (fst (poisson_rescale (N := Rnum) o (mkScaler (N := Rnum) m s) c b)) j
                      = (entry c j / entry s j)%R).
Proof.
  intros H Lm Ls Lx Lc.
  assert (T : attr_true o "standardize" = true).
  { unfold attr_true. now rewrite (proj1 (poisson_reach pyc a o H)). }
  unfold poisson_design, poisson_rescale, centering_transform, poisson_post. rewrite T.
  unfold transform. cbn [mean_ scale_ fst]. split; intros j Hj; unfold entry.
  - exact (map2_map2_nth Rdiv Rminus x m s j 0%R p Lm Ls Lx Hj).
  - assert (L1 : j < List.length c) by lia. assert (L2 : j < List.length s) by lia.
    exact (map2_nth Rdiv c s j 0%R 0%R 0%R L1 L2).
Qed.

(** Lasso with an unknown solver. *)
Lemma unknown_solver S E Rng env d (sol : nat -> solver S E) (draw : bool -> Rng -> result (split * Rng)) post pyc a o s :
  construct pyc UoI_Lasso a = Ok o -> a "solver"%string = PStr s -> s <> "cd"%string -> s <> "pyc"%string ->
  1 <= n_boots_sel d -> 1 <= n_reg d -> (forall i, shapes_ok d (sol i)) ->
  (forall n R s0 F, ~ returned env d (fun i => lasso_solver o (sol i)) draw post n false R s0 F) /\
  (forall rng s0, (forall sel rr, is_ok (draw sel rr) = true) ->
     fit env d (lasso_solver o (sol 0)) draw post 1 0 false rng s0 = Done (Raise AttributeError)) /\
  (forall n i rng s0, fit env d (lasso_solver o (sol i)) draw post n i true rng s0
                      = fit env d (sol i) draw post n i true rng s0).
Proof.
  intros H Hs N1 N2 Hb Hr Hsh.
  assert (Eo : o_sel o = None).
  { destruct (lasso_solver_cases pyc a o s H Hs) as [[? _]|[[? _]|(_ & _ & ?)]]; congruence. }
  assert (Hsh' : forall i, shapes_ok d (lasso_solver o (sol i))).
  { intro i. split; [|exact (proj2 (Hsh i))]. intros s1 regs tr s' rows. cbn. rewrite Eo. discriminate. }
  split; [|split].
  - intros n R s0 F. apply no_sweep; auto. intros i s1 regs tr v. cbn. rewrite Eo. discriminate.
  - intros rng s0 Hd. apply (no_sweep_serial env d (fun i => lasso_solver o (sol i)) draw post Hb); auto.
    intros. cbn. now rewrite Eo.
  - reflexivity.
Qed.
