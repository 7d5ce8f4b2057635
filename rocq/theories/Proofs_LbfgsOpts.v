(** Options, stopping and exceptions of fmin_lbfgs. *)
From Coq Require Import String ZArith List Bool Arith Reals Lra Lia.
From Verif Require Import Prelude Num Spec_Rescale Proofs_Rescale Model_Lbfgs Proofs_Poisson Spec_Lbfgs
  Proofs_Lbfgs Proofs_LbfgsTrace Proofs_LbfgsVec Proofs_LbfgsReal Proofs_LbfgsTop Proofs_LbfgsDir Proofs_LbfgsDescent
  Proofs_LbfgsCurv Proofs_LbfgsMain.
Import ListNotations.
Local Open Scope R_scope.

Lemma searches_used (O : options Rnum) alg : 0 <= (o_c O : R) -> used O alg <-> searches O alg.
Proof.
  intros Hc. unfold used, searches, choose_line_search, nzero. rn. destruct (Rltb 0 (o_c O)) eqn:E.
  - apply Rltb_t in E. assert (W : line_search_algo "wolfe" = Some Wolfe) by reflexivity. split.
    + intros H. left. split; [exact E|]. revert H.
      destruct (String.eqb_spec (o_line_search O) "wolfe") as [El|El]; destruct (String.eqb_spec (o_line_search O) "default") as [Ed|Ed];
        cbn [andb orb negb fst]; rewrite ?El; intros H; rewrite W in H; congruence.
    + intros [[_ ->]|[C _]]; [|rr; lra].
      destruct (String.eqb_spec (o_line_search O) "wolfe") as [El|El]; destruct (String.eqb_spec (o_line_search O) "default") as [Ed|Ed];
        cbn [andb orb negb fst]; rewrite ?El; exact W.
  - apply Rltb_f in E. cbn [andb fst]. split; [intros H; right; split; [rr; lra|exact H]|]. intros [[C _]|[_ H]]; [rr; lra|exact H].
Qed.

Lemma checked_documented (O : options Rnum) alg n : searches O alg ->
  (exists b e, checked (to_params O alg) n b e) <-> documented O alg n.
Proof.
  intros Hs. assert (Hc : 0 <= (o_c O : R)) by (destruct Hs as [[H _]|[H _]]; rr; lra). split.
  - intros (b & e & C). destruct C as [C1 C2 C3 C4 C5 C6 C7 C8 C9 C10 C11 C12 [C13 [C14 C14']] [C15 C15'] C16].
    unfold nzero, none in *. rnin C2. rnin C4. rnin C5. rnin C6. rnin C7. rnin C9. rnin C10.
    cbn [to_params p_epsilon p_past p_delta p_min_step p_max_step p_ftol p_wolfe p_gtol p_xtol p_max_linesearch p_c p_start p_end p_linesearch] in *.
    apply Rltb_f in C2, C4, C5, C6, C7, C9, C10.
    assert (W : alg = Wolfe \/ alg = StrongWolfe -> (o_ftol O : R) < o_wolfe O < 1).
    { intros W. destruct (C8 W) as [W1 W2]. rnin W1. rnin W2. apply Rleb_f in W1, W2. split; assumption. }
    unfold documented. split; [exact C1|]. split; [exact C2|]. split; [exact C3|]. split; [exact C4|].
    split; [split; assumption|]. split; [exact C7|]. split; [exact W|]. split; [exact C9|]. split; [exact C10|].
    split; [exact C11|]. split; [lia|].
    destruct (o_end O <? 0)%Z eqn:E; [apply Z.ltb_lt in E; lia|]. apply Z.ltb_ge in E. lia.
  - intros (D1 & D2 & D3 & D4 & D5 & D6 & D7 & D8 & D9 & D10 & D11 & D12).
    exists (Z.to_nat (o_start O)), (if (o_end O <? 0)%Z then n else Z.to_nat (o_end O)).
    constructor; unfold nzero, none; rn;
      cbn [to_params p_epsilon p_past p_delta p_min_step p_max_step p_ftol p_wolfe p_gtol p_xtol p_max_linesearch p_c p_start p_end p_linesearch];
      try (apply Rltb_f; rr; lra); try assumption.
    + intros W. specialize (D7 W). split; apply Rleb_f; rr; lra.
    + split; [lia|]. split; [reflexivity|lia].
    + split; [reflexivity|]. destruct (o_end O <? 0)%Z eqn:E; [lia|]. apply Z.ltb_ge in E. lia.
    + intros Ho. destruct Hs as [[_ H]|[H _]]; [exact H|]. exfalso. unfold owl, nnonzero, nzero in Ho. rnin Ho.
      cbn [to_params p_c] in Ho. destruct (Reqb (o_c O) 0) eqn:E; [discriminate|]. apply Reqb_f in E. apply E. exact H.
Qed.

Lemma fmin_unfold {St} (O : options Rnum) alg (f : objective Rnum St) progress fuel lsfuel st x0 : searches O alg ->
  fmin_lbfgs O f progress fuel lsfuel st x0 = minimize (to_params O alg) f progress fuel lsfuel st x0.
Proof.
  intros Hs. assert (Hc : 0 <= (o_c O : R)) by (destruct Hs as [[H _]|[H _]]; rr; lra).
  pose proof (proj2 (searches_used O alg Hc) Hs) as U. unfold used in U. unfold fmin_lbfgs. rewrite U.
  assert (E : nleb nzero (o_c O) = true) by (unfold nzero; rn; apply Rleb_t; exact Hc). rewrite E. reflexivity.
Qed.

(** ** C49 *)
Lemma check_error {N : NumOps} (P : params N) k code : check_params P k = inl code -> forall x : list N, conclude x code = Raises LBFGSError.
Proof.
  unfold check_params. cbv zeta. intros Ec x.
  repeat match type of Ec with (if ?q then _ else _) = _ => destruct q end; try discriminate Ec; injection Ec as <-; reflexivity.
Qed.

Lemma invalid_rejected {St} (O : options Rnum) alg (f : objective Rnum St) progress fuel lsfuel st (x0 : list R) :
  searches O alg -> ~ documented O alg (length x0) ->
  fmin_lbfgs O f progress fuel lsfuel st x0 = Some (st, Raises LBFGSError).
Proof.
  intros Hs Hd. rewrite (fmin_unfold O alg) by exact Hs. unfold minimize, lbfgs. rr.
  destruct (check_params (to_params O alg) (Z.of_nat (length x0))) as [code|[b e]] eqn:E.
  - exact (f_equal (fun o => Some (st, o)) (check_error _ _ _ E x0)).
  - exfalso. apply Hd, (checked_documented O alg _ Hs). exists b, e. now apply check_ok.
Qed.

Lemma valid_called {St} (O : options Rnum) alg (f : objective Rnum St) progress fuel lsfuel st (x0 : list R) st' calls reports out :
  searches O alg -> documented O alg (length x0) -> (0 <= o_m O)%Z ->
  fmin_lbfgs O (count_calls f) (option_map count_reports progress) fuel lsfuel (st, (0%nat, 0%nat)) x0 = Some ((st', (calls, reports)), out) ->
  (1 <= calls)%nat.
Proof.
  intros Hs Hd Hm H. rewrite (fmin_unfold O alg) in H by exact Hs. apply minimize_cases in H.
  destruct H as [(code & E & _)|(b & e & Hck & H)].
  { exfalso. apply (checked_documented O alg _ Hs) in Hd. destruct Hd as (b & e & C). apply check_ok in C. rr. congruence. }
  destruct H as [(C & _)|(_ & H)]; [cbn in C; lia|]. cbv zeta in H.
  set (P := to_params O alg) in *. set (f' := count_calls f) in *.
  set (s := init_state P f' b e (st, (0%nat, 0%nat)) x0) in *.
  assert (Es : snd (pt_st (l_pt s)) = (1%nat, 0%nat)) by reflexivity.
  destruct H as [(_ & H & _)|(l & en & Hr & H & _)]; [rewrite <- H in Es; cbn [snd] in Es; injection Es as -> ->; lia|].
  pose proof (run_calls P f' (option_map count_reports progress) (fun t => fst (snd t)) (fun t => snd (snd t))) as Q.
  specialize (Q ltac:(reflexivity) ltac:(reflexivity)).
  assert (Q1 : forall h t r, option_map count_reports progress = Some h -> fst (snd (fst (h t r))) = fst (snd t)).
  { intros h t r Eh. destruct progress; [|discriminate]. injection Eh as <-. reflexivity. }
  assert (Q2 : forall h t r, option_map count_reports progress = Some h -> snd (snd (fst (h t r))) = S (snd (snd t))).
  { intros h t r Eh. destruct progress; [|discriminate]. injection Eh as <-. reflexivity. }
  specialize (Q Q1 Q2 b e s l en (ck_ls _ _ _ _ Hck) Hr). cbv beta in Q. rewrite Es in Q. cbn [fst snd] in Q. rewrite <- H in Q. cbn [fst snd] in Q.
  exact Q.
Qed.

Lemma memory_negative {St} (O : options Rnum) alg (f : objective Rnum St) progress fuel lsfuel st (x0 : list R) :
  searches O alg -> documented O alg (length x0) -> (o_m O < 0)%Z ->
  fmin_lbfgs O f progress fuel lsfuel st x0 = Some (st, Raises MemoryError).
Proof.
  intros Hs Hd Hm. rewrite (fmin_unfold O alg) by exact Hs. unfold minimize, lbfgs. rr.
  apply (checked_documented O alg _ Hs) in Hd. destruct Hd as (b & e & C). apply check_ok in C. rewrite C.
  assert (E : (p_m (to_params O alg) <? 0)%Z = true) by (apply Z.ltb_lt; exact Hm). rewrite E. reflexivity.
Qed.

(** With m = 0 the first update of the history is undefined: where a run with another
    memory size makes a second step, the run with m = 0 crashes. *)
Section Zero.
  Context {N : NumOps} {St : Type}.
  Variables (O : options N) (alg : algorithm) (m : Z).
  Variable f0 : objective N St.
  Variable progress0 : option (observer N St).
  Hypothesis Hm : (0 < m)%Z.
  Hypothesis HM : (0 < o_max_linesearch O)%Z.
  Let f := keep_log f0.
  Let progress := Some (write_log progress0).
  Let P0 := to_params (with_m O 0) alg.
  Let P1 := to_params (with_m O m) alg.

  Lemma zero_search fuel b e s0 s1 : l_pt s0 = l_pt s1 -> l_pg s0 = l_pg s1 -> l_d s0 = l_d s1 -> l_step s0 = l_step s1 ->
    run_line_search P0 f fuel b e s0 = run_line_search P1 f fuel b e s1.
  Proof.
    intros E1 E2 E3 E4. unfold run_line_search. rewrite E1, E2, E3, E4.
    change (owl P0) with (owl P1). change (p_linesearch P0) with (p_linesearch P1). reflexivity.
  Qed.

  Lemma zero_after b e s0 s1 r s' : l_pg s0 = l_pg s1 -> l_k s0 = l_k s1 -> l_pf s0 = l_pf s1 ->
    after_step P1 progress b e s1 r = Next s' -> 
    exists st, after_step P0 progress b e s0 r = Exit (Undefined st) /\
               exists q, st = fst (call_progress progress (pt_st (s_pt r)) q).
  Proof.
    intros E1 E2 E3. unfold after_step. rewrite E1, E2, E3.
    change (owl P0) with (owl P1). change (p_c P0) with (p_c P1). change (p_past P0) with (p_past P1).
    change (p_delta P0) with (p_delta P1). change (p_max_iterations P0) with (p_max_iterations P1).
    change (converged P0) with (converged P1). change (Nat.eqb (Z.to_nat (p_m P0)) 0) with true. cbv zeta.
    set (a := call_progress progress _ _). intros H.
    destruct (negb (snd a =? 0)%Z); [discriminate|]. destruct (converged P1 _ _); [discriminate|].
    match type of H with (if ?c then _ else _) = _ => destruct c end; [discriminate|].
    match type of H with (if ?c then _ else _) = _ => destruct c end; [discriminate|].
    eexists. split; [reflexivity|]. eexists. reflexivity.
  Qed.

  Lemma zero_main fuel lsfuel b e (s0 s1 : state N (St * list (report N))) en : l_pt s0 = l_pt s1 -> l_pg s0 = l_pg s1 -> l_d s0 = l_d s1 -> l_step s0 = l_step s1 ->
    l_k s0 = l_k s1 -> l_pf s0 = l_pf s1 -> snd (pt_st (l_pt s1)) = [] ->
    main_loop P1 f progress fuel lsfuel b e s1 = Some en -> (2 <= length (snd (end_state en)))%nat ->
    exists st, main_loop P0 f progress fuel lsfuel b e s0 = Some (Undefined st) /\ length (snd st) = 1%nat.
  Proof.
    intros E1 E2 E3 E4 E5 E6 E7 H Hl. destruct fuel as [|fuel]; [discriminate|]. cbn [main_loop] in *. unfold iterate in *.
    rewrite (zero_search lsfuel b e s0 s1 E1 E2 E3 E4).
    destruct (run_line_search P1 f lsfuel b e s1) as [r|] eqn:E; [|discriminate].
    pose proof E as E'. apply search_end in E'; [|exact HM]. destruct E' as (k & Ev & _ & _). apply evals_log in Ev. rewrite E7 in Ev.
    destruct (s_ret r <? 0)%Z; [injection H as <-; cbn [end_state] in Hl; rewrite Ev in Hl; cbn in Hl; lia|].
    destruct (after_step P1 progress b e s1 r) as [s'|en'] eqn:Ea.
    - destruct (zero_after b e s0 s1 r s' E2 E5 E6 Ea) as (st & Ea' & q & Eq). rewrite Ea'. exists st. split; [reflexivity|].
      rewrite Eq. unfold progress. rewrite write_log_spec, Ev. reflexivity.
    - injection H as <-. apply after_step_exit in Ea. destruct Ea as (gn & Ea & _). rewrite Ea in Hl. unfold progress in Hl.
      rewrite write_log_spec, Ev in Hl. cbn in Hl. lia.
  Qed.
End Zero.

Lemma memory_zero {N : NumOps} {St} (O : options N) (f : objective N St) progress m fuel lsfuel st x0 st' log out :
  (0 < m)%Z -> recorded (with_m O m) f progress fuel lsfuel st x0 = Some (st', log, out) -> (2 <= length log)%nat ->
  exists st1, fmin_lbfgs (with_m O 0) f progress fuel lsfuel st x0 = Some (st1, Crash).
Proof.
  intros Hm H Hl. rewrite recording_faithful. unfold recorded, fmin_lbfgs in *.
  change (o_c (with_m O 0)) with (o_c (with_m O m)). change (choose_line_search (with_m O 0)) with (choose_line_search (with_m O m)).
  destruct (negb _); [injection H as _ <- _; cbn in Hl; lia|].
  destruct (line_search_algo _) as [alg|]; [|injection H as _ <- _; cbn in Hl; lia].
  unfold minimize, lbfgs in *.
  change (check_params (to_params (with_m O 0) alg)) with (check_params (to_params (with_m O m) alg)).
  destruct (check_params (to_params (with_m O m) alg) (Z.of_nat (length x0))) as [code|[b e]] eqn:Ec; [injection H as _ <- _; cbn in Hl; lia|].
  apply check_ok in Ec. pose proof (ck_ls _ _ _ _ Ec) as HM.
  destruct (p_m (to_params (with_m O m) alg) <? 0)%Z eqn:Em; [cbn in Em; lia|].
  change (p_m (to_params (with_m O 0) alg) <? 0)%Z with false. cbv zeta in *.
  set (s1 := init_state (to_params (with_m O m) alg) (keep_log f) b e (st, []) x0) in *.
  set (s0 := init_state (to_params (with_m O 0) alg) (keep_log f) b e (st, []) x0) in *.
  change (l_pt s0) with (l_pt s1). change (l_pg s0) with (l_pg s1).
  change (owl (to_params (with_m O 0) alg)) with (owl (to_params (with_m O m) alg)).
  change (converged (to_params (with_m O 0) alg)) with (converged (to_params (with_m O m) alg)).
  destruct (converged _ _ _).
  - exfalso. cbv beta iota in H. assert (E : (st', log) = pt_st (l_pt s1)) by congruence. apply (f_equal snd) in E. cbn in E. rewrite E in Hl. cbn in Hl. lia.
  - destruct (main_loop (to_params (with_m O m) alg) (keep_log f) (Some (write_log progress)) fuel lsfuel b e s1) as [en|] eqn:El; [|discriminate].
    assert (Hl' : (2 <= length (snd (end_state en)))%nat).
    { destruct en; injection H as H _; cbn [end_state]; rewrite H; exact Hl. }
    destruct (zero_main O alg m f progress HM fuel lsfuel b e s0 s1 en eq_refl eq_refl eq_refl eq_refl eq_refl eq_refl eq_refl El Hl')
      as (st1 & Hs & _). rewrite Hs. eexists. reflexivity.
Qed.

(** ** C53 *)
Lemma l1_uses_wolfe {N : NumOps} {St} (O : options N) (f : objective N St) progress fuel lsfuel st x0 : nltb nzero (o_c O) = true ->
  fmin_lbfgs O f progress fuel lsfuel st x0 = fmin_lbfgs (with_line_search O "wolfe") f progress fuel lsfuel st x0 /\
  (snd (choose_line_search O) = true <-> o_line_search O <> "wolfe"%string /\ o_line_search O <> "default"%string).
Proof.
  intros Hc. assert (C : forall s, fst (choose_line_search (with_line_search O s)) = "wolfe"%string).
  { intros s. unfold choose_line_search. cbn [with_line_search o_line_search o_c]. rewrite Hc.
    destruct (String.eqb_spec s "wolfe") as [E|E]; destruct (String.eqb_spec s "default") as [E'|E']; cbn [andb orb negb fst]; auto. }
  assert (E : fst (choose_line_search O) = "wolfe"%string) by (destruct O; apply C). split.
  - unfold fmin_lbfgs. rewrite E, C. reflexivity.
  - unfold choose_line_search. rewrite Hc.
    destruct (String.eqb_spec (o_line_search O) "wolfe") as [Ew|Ew]; destruct (String.eqb_spec (o_line_search O) "default") as [Ed|Ed];
      cbn [andb orb negb snd]; split; intros H; try discriminate; auto; destruct H; contradiction.
Qed.

Lemma negative_c {N : NumOps} {St} (O : options N) (f : objective N St) progress fuel lsfuel st x0 : nleb nzero (o_c O) = false ->
  fmin_lbfgs O f progress fuel lsfuel st x0 = Some (st, Raises AssertionError).
Proof. intros H. unfold fmin_lbfgs. rewrite H. reflexivity. Qed.

Lemma unknown_name {N : NumOps} {St} (O : options N) (f : objective N St) progress fuel lsfuel st x0 :
  nleb nzero (o_c O) = true -> nltb nzero (o_c O) = false ->
  ~ In (o_line_search O) ["default"; "morethuente"; "armijo"; "wolfe"; "strongwolfe"]%string ->
  fmin_lbfgs O f progress fuel lsfuel st x0 = Some (st, Raises KeyError).
Proof.
  intros H1 H2 Hn. unfold fmin_lbfgs, choose_line_search. rewrite H1, H2. cbn [negb andb fst].
  assert (E : line_search_algo (o_line_search O) = None); [|rewrite E; reflexivity].
  unfold line_search_algo. cbn [In] in Hn.
  repeat match goal with |- context [String.eqb ?a ?b] => destruct (String.eqb_spec a b); [exfalso; apply Hn; subst; auto 10|] end. reflexivity.
Qed.

(** ** C86: exceptions are swallowed *)
Lemma zeros_dot n (x : list R) : length x = n -> dot n (repeat 0 n) x = 0.
Proof.
  intros Hx. apply dot_zero_l. intros i Hi. apply nth_repeat.
Qed.

Lemma raising_objective {St} (O : options Rnum) alg (f : objective Rnum St) progress fuel lsfuel st (x0 : list R) :
  searches O alg -> documented O alg (length x0) -> (0 <= o_m O)%Z -> o_c O = 0 ->
  (forall st x g, snd (f st x g) = (x, g, Raised)) ->
  exists st', fmin_lbfgs O f progress fuel lsfuel st x0 = Some (st', Returned x0 None).
Proof.
  intros Hs Hd Hm Hc Hf. rewrite (fmin_unfold O alg) by exact Hs. unfold minimize, lbfgs. rr.
  apply (checked_documented O alg _ Hs) in Hd. destruct Hd as (b & e & C). pose proof C as C'. apply check_ok in C. rewrite C.
  assert (E : (p_m (to_params O alg) <? 0)%Z = false) by (apply Z.ltb_ge; exact Hm). rewrite E. cbv zeta.
  rewrite (not_owl (length x0) O alg b e C' Hc).
  set (s := init_state (to_params O alg) f b e st x0).
  assert (Ex : pt_x (l_pt s) = x0) by (unfold s, init_state, call_eval; cbn [l_pt pt_x]; rewrite Hf; reflexivity).
  assert (Eg : pt_g (l_pt s) = repeat 0 (length x0)) by (unfold s, init_state, call_eval; cbn [l_pt pt_g]; rewrite Hf; reflexivity).
  assert (Ev : converged (to_params O alg) (vec2norm (pt_x (l_pt s))) (vec2norm (pt_g (l_pt s))) = true).
  { unfold converged. rr. rewrite Eg. rewrite (vec2norm_norm (length x0) (repeat 0 (length x0))) by apply repeat_length.
    assert (Z0 : norm (length x0) (repeat 0 (length x0)) = 0).
    { unfold norm. rewrite zeros_dot by apply repeat_length. apply sqrt_0. }
    rn. apply Rleb_t. rr. rewrite Z0. unfold Rdiv. rewrite Rmult_0_l.
    pose proof (ck_epsilon _ _ _ _ C') as He. unfold nzero in He. rnin He. apply Rltb_f in He. exact He. }
  rewrite Ev. exists (pt_st (l_pt s)). cbn [conclude]. rr. rewrite Ex. reflexivity.
Qed.

Definition quiet {N : NumOps} {St} (h : observer N St) : observer N St :=
  fun st q => let a := h st q in (fst a, match snd a with Failed => NoReply | r => r end).
Lemma raising_progress {N : NumOps} {St} (O : options N) (f : objective N St) h fuel lsfuel st x0 :
  fmin_lbfgs O f (Some h) fuel lsfuel st x0 = fmin_lbfgs O f (Some (quiet h)) fuel lsfuel st x0.
Proof.
  rewrite (sim_fmin O (fun s => s) f f (Some (quiet h)) (Some h) fuel lsfuel st x0).
  - destruct (fmin_lbfgs O f (Some (quiet h)) fuel lsfuel st x0) as [[]|]; reflexivity.
  - intros. split; reflexivity.
  - intros s q. unfold call_progress, quiet. cbn [fst snd]. split; [reflexivity|]. destruct (snd (h s q)); reflexivity.
Qed.

Definition zeroed {N : NumOps} {St} (f : objective N St) : objective N St :=
  fun st x g => let a := f st x g in (fst a, (fst (snd a), match snd (snd a) with Raised => Value nzero | v => v end)).
Lemma raising_value {N : NumOps} {St} (O : options N) (f : objective N St) progress fuel lsfuel st x0 :
  fmin_lbfgs O f progress fuel lsfuel st x0 = fmin_lbfgs O (zeroed f) progress fuel lsfuel st x0.
Proof.
  rewrite (sim_fmin_eval O (fun s => s) (zeroed f) f progress progress fuel lsfuel st x0).
  - destruct (fmin_lbfgs O (zeroed f) progress fuel lsfuel st x0) as [[]|]; reflexivity.
  - intros s x g. unfold zeroed, call_eval, mpt. destruct (f s x g) as [s' [[x' g'] [v|]]]; reflexivity.
  - intros s q. split; reflexivity.
Qed.
