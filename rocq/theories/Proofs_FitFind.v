(** Degenerate uses of [fit] and concrete runs: proofs for C19 and C71-C73, and the
    solvers used in the examples of Props_Fit. *)
From Coq Require Import ZArith List Bool Arith Lia.
From Verif Require Import Prelude F64 F64Order Model_Intersection Spec_Intersection Proofs_Intersection
  Model_Mpi Spec_Mpi Proofs_MpiSem Proofs_Mpi Model_Fit Spec_Fit Proofs_FitMpi Proofs_FitRuns
  Proofs_FitSerial Proofs_Fit Proofs_FitProps Proofs_FitDist.
Import ListNotations.

(** * C71: a numpy integer as random_state *)
Lemma reseed_drawn {RS} (seeded : Z -> RS) tts sel z : forall r sps r',
  drawn (draw_random seeded tts) sel r sps r' -> r = Reseed z ->
  r' = Reseed z /\ forall x, In x sps -> rmap fst (tts sel (seeded z)) = Ok x.
Proof.
  induction 1 as [r|r sp r1 sps r2 Hd Hs IH]; intros ->.
  - split; [reflexivity|]. intros x [].
  - unfold draw_random in Hd. destruct (tts sel (seeded z)) as [[sp0 rr]|] eqn:Et; [|discriminate].
    simpl in Hd. injection Hd as <- <-. destruct (IH eq_refl) as (-> & Hsp). split; [reflexivity|].
    intros x [<-|Hx]; [reflexivity|auto].
Qed.

(** A Python int or a RandomState: successive draws of one generator. *)
Lemma stateful_drawn {RS} (seeded : Z -> RS) tts sel : forall r sps r',
  drawn (draw_random seeded tts) sel (Stateful r) sps r' <->
  exists r1, r' = Stateful r1 /\ drawn tts sel r sps r1.
Proof.
  intros r sps r'. split.
  - intro H. remember (Stateful r) as st eqn:Est. revert r Est.
    induction H as [st|st sp r1 sps r2 Hd Hs IH]; intros r ->.
    + exists r. split; [reflexivity|constructor].
    + simpl in Hd. destruct (tts sel r) as [[sp0 rr]|] eqn:Et; [|discriminate].
      simpl in Hd. injection Hd as <- <-. destruct (IH rr eq_refl) as (r3 & -> & H3).
      exists r3. split; [reflexivity|]. econstructor; eauto.
  - intros (r1 & -> & H). induction H as [r|r sp r1 sps r2 Hd Hs IH]; [constructor|].
    apply drawn_more with (r1 := Stateful r1); [|exact IH].
    simpl. rewrite Hd. reflexivity.
Qed.
Theorem py_seed {RS} (seeded : Z -> RS) entropy tts sel z rank sps r' :
  drawn (draw_random seeded tts) sel (init_random seeded entropy rank (PyInt z)) sps r' <->
  exists r1, r' = Stateful r1 /\ drawn tts sel (seeded (z + Z.of_nat rank)%Z) sps r1.
Proof. simpl. apply stateful_drawn. Qed.

Lemma filter_const {A} (p : A -> bool) l b : (forall x, In x l -> p x = b) ->
  length (filter p l) = if b then length l else 0.
Proof.
  induction l as [|x l IH]; simpl; intro H; [now destruct b|].
  rewrite (H x) by auto. assert (IH' := IH (fun y Hy => H y (or_intror Hy))).
  destruct b; simpl; congruence.
Qed.

Section Seed.
  Context {S E RS : Type}.
  Variable env : np_env.
  Variable d : dims.
  Variable sol : solver S E.
  Variable seeded : Z -> RS.
  Variable tts : bool -> RS -> result (split * RS).
  Variable post : nd -> nd -> result (nd * nd).
  Variable Inv : S -> Prop.

  Theorem np_seed n (R : nat -> rng_state RS) s0 F G z entropy :
    1 <= n_boots_sel d -> shapes_ok d sol -> preserved sol Inv -> from_reset d sol Inv G ->
    (forall i, Inv (s0 i)) -> 1 <= n -> n <= n_boots_sel d ->
    R 0 = init_random seeded entropy 0 (NpInt z) ->
    returned env d (fun _ => sol) (draw_random seeded tts) post n false R s0 F ->
    exists sel c, f_sel F = Some sel /\ intersect d c = Ok (s_supports sel) /\
      length (c_data c) = n_boots_sel d /\
      (forall b b', b < n_boots_sel d -> b' < n_boots_sel d ->
         nth b (c_data c) [] = nth b' (c_data c) []) /\
      (forall t r mask, (1 <= t <= Z.of_nat (n_boots_sel d))%Z ->
         (is_support c t r mask <-> is_support c 1 r mask)).
  Proof.
    intros Hnb Hsh Hp HG Hs0 Hn Hle HR H.
    destruct (boots_independent env d sol _ post Hnb Hsh Inv Hp n R s0 F G Hn Hle HG Hs0 H)
      as (sel & sps & r1 & c & H0 & Hd & Hl & Hi & Hlc & _ & _ & Hc).
    simpl in HR. destruct (reseed_drawn _ _ _ z _ _ _ Hd HR) as (_ & Hsp).
    assert (Heq : forall b b', b < n_boots_sel d -> b' < n_boots_sel d ->
         nth b (c_data c) [] = nth b' (c_data c) []).
    { intros b b' Hb Hb'. pose proof (Hc b Hb) as E1. pose proof (Hc b' Hb') as E2.
      pose proof (Hsp (nth b sps ([], [])) ltac:(apply nth_In; lia)) as Q1.
      pose proof (Hsp (nth b' sps ([], [])) ltac:(apply nth_In; lia)) as Q2.
      rewrite Q1 in Q2. injection Q2 as Q2. rewrite Q2 in E1. congruence. }
    exists sel, c. split; [exact H0|]. split; [exact Hi|]. split; [exact Hlc|]. split; [exact Heq|].
    intros t r mask Ht.
    assert (Hts : forall j, times_selected c r j = 0 \/ times_selected c r j = n_boots_sel d).
    { intro j. unfold times_selected. rewrite Hlc.
      rewrite (filter_const _ _ (nonzero64 (coef_at c 0 r j))).
      - rewrite seq_length. destruct (nonzero64 _); auto.
      - intros b Hb. apply in_seq in Hb. unfold coef_at. rewrite (Heq b 0) by lia. reflexivity. }
    unfold is_support. split; intros [Hm1 Hm2]; (split; [exact Hm1|]); intros j Hj;
      rewrite (Hm2 j Hj); destruct (Hts j) as [->| ->]; lia.
  Qed.
End Seed.

Lemma median_zero l : Forall (fun x => nonzero64 x = false) l -> l <> [] ->
  nonzero64 (np_median l) = false.
Proof.
  intros Hz Hne. destruct (nonzero64 (np_median l)) eqn:Em; auto. exfalso.
  assert (Hnn : existsb is_nan64 l = false).
  { destruct (existsb is_nan64 l) eqn:Ey; auto. apply existsb_exists in Ey as (x & Hx & Hx2).
    rewrite Forall_forall in Hz. specialize (Hz x Hx). apply is_nan_eq in Hx2. subst x. discriminate. }
  pose proof (median_nonzero _ Hnn Hne Em) as G.
  assert (count nonzero64 l = 0).
  { clear -Hz. induction Hz as [|x l Hx Hl IH]; simpl; auto. now rewrite Hx, IH. }
  destruct l; [now apply Hne|simpl in *; lia].
Qed.

(** * C72, C73 *)
Section Degenerate.
  Context {S E Rng : Type}.
  Variable env : np_env.
  Variable d : dims.
  Variable sol : nat -> solver S E.
  Variable draw : bool -> Rng -> result (split * Rng).
  Variable post : nd -> nd -> result (nd * nd).
  Hypothesis Hnb : 1 <= n_boots_sel d.
  Hypothesis Hshape : forall i, shapes_ok d (sol i).

  Theorem single_coefficient n R s0 F : n <= n_boots_sel d -> n_coef d = 1 -> 2 <= n_reg d ->
    ~ returned env d sol draw post n false R s0 F.
  Proof.
    intros Hle Hc Hr H.
    assert (Hm : many d n = false) by (unfold many; apply Nat.ltb_ge; exact Hle).
    assert (Hloop : loops_give d sol n s0 (fun _ _ _ => False)).
    { intros sps keys i x Hi _ _ Hx. destruct (sel_tasks d n i) as [|t ts].
      - simpl in Hx. injection Hx as <-. constructor.
      - exfalso. cbn [sel_loop] in Hx.
        destruct (lookup _ _) as [sp|]; cbn [bind] in Hx; [|discriminate].
        destruct (sweep _ _ _ _) as [y|]; cbn [bind] in Hx; [|discriminate].
        unfold store_sweep in Hx. rewrite Hm, Hc in Hx.
        assert (E1 : (1 <? n_reg d) = true) by (apply Nat.ltb_lt; lia). rewrite E1 in Hx. discriminate. }
    apply (facts_returned env d sol draw post Hnb Hshape n R s0 _ F Hloop) in H.
    destruct H as (sps & r1 & allrows & sup & ns & sps2 & r2 & outs & x & _ & Hall & _).
    unfold sel_count in Hall. rewrite Hm in Hall. destruct (n_boots_sel d); [lia|].
    inversion Hall; subst. assumption.
  Qed.

  (** One threshold and one regularization parameter: only the zero model. *)
  Theorem single_candidate n R s0 F : shared d = true -> glm d = false \/ out_dim d = 1 ->
    length (thresholds d) = 1 -> n_reg d = 1 -> 2 <= n_coef d -> 1 <= n_boots_est d ->
    returned env d sol draw post n false R s0 F ->
    exists sel, f_sel F = Some sel /\ s_supports sel = Arr1 [false] /\
      (forall b k, b < n_boots_est d -> k < n_coef d ->
         nonzero64 (at3 (s_estimates sel) b 0 k) = false) /\
      (keeps_zeros post -> forall k, k < n_coef d ->
         nonzero64 (num (nth k (nd_data (f_coef F)) (SFlt fzero))) = false).
  Proof.
    intros Hsh Hg Ht Hr Hc Hbe H.
    destruct (returned_step env d sol draw post Hnb Hshape _ _ _ _ H)
      as (sel & ns & coef & ic & H0 & _ & _ & _ & H4 & _ & H6 & _ & Hpost & sps & r1 & c & sps2 & r2 & _ & _ & _ & Hsc & Hi & Hns & Htask).
    exists sel. split; [exact H0|].
    destruct Hsc as (Hc1 & Hc2 & _).
    assert (Hx : intersect d c = intersection c (Some (thresholds d))).
    { unfold intersect. destruct (glm d) eqn:Eg; [|reflexivity]. apply glm_unshared. left.
      destruct Hg; [discriminate|lia]. }
    rewrite Hx in Hi. destruct (thresholds d) as [|t [|]] eqn:Et; simpl in Ht; try lia.
    destruct (degenerate_single_row c t (row_of c t 0)) as (l & El & _ & Hl);
      [congruence|lia|now apply is_support_row|].
    rewrite El in Hi. injection Hi as Hi. rewrite <- Hi in *. simpl in Hns. injection Hns as Hns.
    assert (Hf : forall j, j < length l -> nth j l false = false).
    { intros j Hj. destruct (nth j l false) eqn:En; auto. exfalso.
      destruct (Htask 0 j ltac:(lia) ltac:(lia)) as (i & boots & row & _ & Hlk & He & _).
      unfold est_task in He.
      rewrite Nat.add_comm, Nat.div_add, Nat.div_small in He by lia.
      change (0 + 0) with 0 in He. rewrite Hlk in He. cbn [bind] in He.
      rewrite Nat.mod_add, Nat.mod_small, En, Hsh in He by lia. discriminate. }
    assert (Hl1 : l = [false]).
    { destruct Hl as [->|[->| ->]]; [reflexivity| |].
      - discriminate (Hf 0 ltac:(simpl; lia)).
      - discriminate (Hf 1 ltac:(simpl; lia)). }
    split; [now rewrite Hl1|]. subst l. simpl in Hns. subst ns.
    assert (Hzero : forall b k, b < n_boots_est d -> k < n_coef d ->
                      nonzero64 (at3 (s_estimates sel) b 0 k) = false).
    2: { split; [exact Hzero|]. intros Hkz k Hk. apply (Hkz _ _ _ _ k Hpost).
      unfold nd_of_floats. cbn [nd_data]. rewrite (map_nth SFlt). simpl num. rewrite (H6 k Hk).
      apply median_zero; [|destruct (n_boots_est d); [lia|discriminate]].
      apply Forall_forall. intros x Hin. apply in_map_iff in Hin as (b & <- & Hb). apply in_seq in Hb.
      pose proof (np_argmax_lt _ _ (H4 b ltac:(lia))) as G. rewrite map_length, seq_length in G.
      replace (index_at (s_rp_max_idx sel) b) with 0 by lia. apply Hzero; [lia|exact Hk]. }
    intros b k Hb Hk. destruct (Htask b 0 Hb ltac:(lia)) as (i & boots & row & _ & _ & He & Ha).
    rewrite Ha by assumption. destruct (nonzero64 (nth k row fnan)) eqn:Ez; auto.
    pose proof (est_task_support d (sol i) (or_introl Hsh) _ _ _ _ _ _ He k Hk Ez) as G.
    simpl in G. congruence.
  Qed.
End Degenerate.

(** * Solvers for the examples *)

(** Two features, two parameters, two bootstraps for each step. *)
Definition ex_dims : dims := mkDims 2 1 2 2 2 [1%Z; 2%Z] true false.
Definition ex_draw (sel : bool) (r : nat) : result (split * nat) := Ok (([r], [Datatypes.S r]), Datatypes.S r).
(** The second feature is selected by parameter 1 only if the first training row
    is even; estimates are all one, scores are the number of features, except
    that the first bootstrap does not like the second feature. *)
Definition ex_row (r : nat) (train : list nat) : list f64 :=
  [fone; if (r =? 0) || Nat.even (hd 0 train) then fone else fzero].
Definition ex_solver : solver unit (list f64) :=
  mkSolver _ _ (fun s => s)
    (fun s regs train => Ok (s, map (fun r => ex_row r train) regs))
    (fun mask train => Ok (repeat fone (count (fun b => b) mask)))
    (fun e => e)
    (fun train => Ok [])
    (fun e mask sp => Ok (f64_of_Z (Z.of_nat (count (fun b => b) mask))))
    (fun e sp => Ok fzero)
    (fun c => Ok (nd_of_floats [1] [fone])).
Definition ex_post (c ic : nd) : result (nd * nd) := Ok (c, ic).
Definition ex_np : np_env := mkEnv (fun _ => SFlt fnan) (Raise TypeError).

Lemma ex_shapes : shapes_ok ex_dims ex_solver.
Proof.
  split.
  - simpl. intros s regs train s' rows H. injection H as <- <-. rewrite map_length. split; [reflexivity|].
    apply Forall_forall. intros x Hx. apply in_map_iff in Hx as (r & <- & _). reflexivity.
  - simpl. intros c a H. injection H as <-. repeat split. discriminate.
Qed.
Lemma ex_keeps : keeps_zeros ex_post.
Proof. intros c ic c' ic' k H. injection H as <- <-. auto. Qed.
Lemma ex_preserved : preserved ex_solver (fun _ => True).
Proof. split; auto. Qed.
Lemma ex_independent : state_independent ex_solver (fun _ => True) (fun r tr => Ok (ex_row r tr)).
Proof.
  intros s regs tr _. simpl. induction regs as [|r regs IH]; simpl; auto. now rewrite <- IH.
Qed.
Lemma ex_from_reset : from_reset ex_dims ex_solver (fun _ => True)
  (fun tr => Ok (map (fun r => ex_row r tr) (seq 0 2))).
Proof. intros s tr _. reflexivity. Qed.

Definition ok_fit (p : proc fitted) : fitted :=
  match p with Done (Ok F) => F | _ => mkFitted None (nd_of_floats [0] []) (nd_of_floats [0] []) end.
Definition ex_fitted : fitted := ok_fit (fit ex_np ex_dims ex_solver ex_draw ex_post 1 0 false 0 tt).
Lemma ex_serial : fit ex_np ex_dims ex_solver ex_draw ex_post 1 0 false 0 tt = Done (Ok ex_fitted).
Proof. vm_compute. reflexivity. Qed.
Lemma ex_coef : nd_data (f_coef ex_fitted) = [SFlt fone; SFlt fone].
Proof. vm_compute. reflexivity. Qed.
Lemma ex_supports : option_map s_supports (f_sel ex_fitted)
  = Some (Arr2 2 [[true; false]; [true; true]]).
Proof. vm_compute. reflexivity. Qed.

Lemma serial_returned {S E Rng} env d (sol : nat -> solver S E) draw post (R : nat -> Rng) s0 F :
  fit env d (sol 0) draw post 1 0 false (R 0) (s0 0) = Done (Ok F) ->
  returned env d sol draw post 1 false R s0 F.
Proof.
  intro H. exists (fun _ _ => false), 0, (start (fun i => fit env d (sol i) draw post 1 i false (R i) (s0 i))), 0.
  split; [lia|]. split; [constructor|]. exact H.
Qed.

(** * C19: a warm starting solver *)

(** A solver that stops early when it is warm started: the second feature is
    found only from a cold start. *)
Definition warm_solver : solver bool (list f64) :=
  mkSolver _ _ (fun _ => false)
    (base_sweep (fun warm r train => Ok (true, [fone; if (warm : bool) then fzero else fone])))
    (est_fit ex_solver) (est_coef ex_solver) (null_fit ex_solver) (score ex_solver)
    (null_score ex_solver) (fit_int ex_solver).
Definition warm_dims : dims := mkDims 2 1 1 1 2 [1%Z] true false.

Lemma base_sweep_shape {S} f (P : list f64 -> Prop) : 
  (forall s r tr s' row, f s r tr = Ok (s', row) -> P row) ->
  forall regs s tr s' rows, base_sweep (S := S) f s regs tr = Ok (s', rows) ->
  length rows = length regs /\ Forall P rows.
Proof.
  intro Hf. induction regs as [|r regs IH]; intros s tr s' rows H.
  - injection H as _ <-. split; [reflexivity|constructor].
  - cbn [base_sweep] in H. destruct (f s r tr) as [[s1 row]|] eqn:E1; cbn [bind] in H; [|discriminate].
    destruct (base_sweep f (fst (s1, row)) regs tr) as [[s2 rows2]|] eqn:E2; cbn [bind] in H; [|discriminate].
    injection H as _ <-. destruct (IH _ _ _ _ E2) as [I1 I2]. simpl. split; [now rewrite I1|].
    constructor; [exact (Hf _ _ _ _ _ E1)|exact I2].
Qed.
Lemma warm_shapes : shapes_ok warm_dims warm_solver.
Proof.
  split.
  - intros s regs train s' rows H. apply (base_sweep_shape _ (fun r => length r = 2)) in H; auto.
    intros s0 r tr s1 row H0. injection H0 as _ <-. reflexivity.
  - apply ex_shapes.
Qed.
Lemma warm_preserved : preserved warm_solver (fun _ => True).
Proof. split; auto. Qed.
Lemma warm_from_reset : from_reset warm_dims warm_solver (fun _ => True)
  (fun tr => Ok [[fone; fone]; [fone; fzero]]).
Proof. intros s tr _. reflexivity. Qed.

Definition warm_serial : fitted :=
  ok_fit (fit ex_np warm_dims warm_solver ex_draw ex_post 1 0 false 0 false).
Definition warm_two : fitted :=
  match outcome warm_dims (fun _ => warm_solver) ex_draw ex_post 2 (fun _ => 0) (fun _ => false) 0 with
  | Some (Ok F) => F | _ => warm_serial end.

Theorem warm_start_differs :
  fit ex_np warm_dims warm_solver ex_draw ex_post 1 0 false 0 false = Done (Ok warm_serial) /\
  every_execution_ends 2
    (fun i => fit ex_np warm_dims warm_solver ex_draw ex_post 2 i false 0 false) (fun _ => Ok warm_two) /\
  option_map s_supports (f_sel warm_serial) = Some (Arr2 2 [[true; false]; [true; true]]) /\
  option_map s_supports (f_sel warm_two) = Some (Arr2 2 [[true; true]]).
Proof.
  split; [vm_compute; reflexivity|]. split; [|split; vm_compute; reflexivity].
  apply runs_async.
  apply (outcome_runs ex_np warm_dims (fun _ => warm_solver) ex_draw ex_post (fun _ => warm_shapes) 2
           (le_n 2) (fun _ => 0) (fun _ => false) 0 warm_two).
  vm_compute. reflexivity.
Qed.

(** A rank whose solver fails. *)
Definition bad_solver : solver unit (list f64) :=
  mkSolver _ _ (fun s => s) (fun _ _ _ => Raise ValueError)
    (est_fit ex_solver) (est_coef ex_solver) (null_fit ex_solver) (score ex_solver)
    (null_score ex_solver) (fit_int ex_solver).
Lemma bad_shapes : shapes_ok ex_dims bad_solver.
Proof. split; [discriminate|apply ex_shapes]. Qed.

(** A scoring function that gives NaN to supports of one feature (C24). *)
Definition nan_solver : solver unit (list f64) :=
  mkSolver _ _ (reset ex_solver) (sweep ex_solver) (est_fit ex_solver) (est_coef ex_solver)
    (null_fit ex_solver)
    (fun e mask sp => Ok (if count (fun b => b) mask =? 1 then fnan else ftwo))
    (null_score ex_solver) (fit_int ex_solver).
(** One feature (C72). *)
Definition one_dims : dims := mkDims 1 1 2 2 2 [1%Z; 2%Z] true false.
Definition one_solver : solver unit (list f64) :=
  mkSolver _ _ (fun s => s) (fun s regs train => Ok (s, map (fun r => [fone]) regs))
    (est_fit ex_solver) (est_coef ex_solver) (null_fit ex_solver) (score ex_solver)
    (null_score ex_solver) (fit_int ex_solver).
Lemma one_shapes : shapes_ok one_dims one_solver.
Proof.
  split; [|apply ex_shapes].
  simpl. intros s regs train s' rows H. injection H as <- <-. rewrite map_length. split; [reflexivity|].
  apply Forall_forall. intros x Hx. apply in_map_iff in Hx as (r & <- & _). reflexivity.
Qed.
(** A solver that selects nothing (C73). *)
Definition none_solver : solver unit (list f64) :=
  mkSolver _ _ (fun s => s) (fun s regs train => Ok (s, map (fun r => [fzero; fzero]) regs))
    (est_fit ex_solver) (est_coef ex_solver) (null_fit ex_solver) (score ex_solver)
    (null_score ex_solver) (fit_int ex_solver).
