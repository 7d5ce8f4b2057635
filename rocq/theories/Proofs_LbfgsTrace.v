(** Runs of the optimizer as sequences of accepted steps, for every number type. *)
From Coq Require Import ZArith List Bool Arith Lia.
From Verif Require Import Prelude Num Model_Lbfgs Spec_Lbfgs Proofs_Lbfgs.
Import ListNotations.
Local Open Scope Z_scope.

Section Trace.
  Context {N : NumOps} {St : Type}.
  Variable P : params N.
  Variable f : objective N St.
  Variable progress : option (observer N St).
  Let M := p_max_linesearch P.

  (** [st'] is reached from [st] by [n] evaluations of the objective. *)
  Inductive evals : nat -> St -> St -> Prop :=
  | ev_none st : evals 0 st st
  | ev_more n st x g st' : evals n (fst (f st x g)) st' -> evals (S n) st st'.

  Lemma bt_loop_evals fuel : forall xp s finit dginit dgtest st g stp count r, 0 <= count < M ->
    backtracking_loop P f fuel xp s finit dginit dgtest st g stp count = Some r ->
    exists n, evals n st (pt_st (s_pt r)) /\ count + Z.of_nat n <= M /\ (0 <= s_ret r -> s_ret r = count + Z.of_nat n).
  Proof.
    induction fuel as [|fuel IH]; intros xp s finit dginit dgtest st g stp count r Hc H; [discriminate|].
    cbn [backtracking_loop] in H. set (pt := call_eval f st (vecadd xp s stp) g) in *.
    assert (Hpt : evals 1 st (pt_st pt)) by (econstructor; constructor).
    match type of H with match ?v with Some _ => _ | None => _ end = _ => destruct v as [w|] end.
    - destruct (nltb stp (p_min_step P)).
      { injection H as <-. exists 1%nat. cbn. split; [exact Hpt|]. unfold LBFGSERR_MINIMUMSTEP. lia. }
      destruct (nltb (p_max_step P) stp).
      { injection H as <-. exists 1%nat. cbn. split; [exact Hpt|]. unfold LBFGSERR_MAXIMUMSTEP. lia. }
      destruct (p_max_linesearch P <=? count + 1) eqn:El.
      { injection H as <-. exists 1%nat. cbn. split; [exact Hpt|]. unfold LBFGSERR_MAXIMUMLINESEARCH. lia. }
      apply Z.leb_gt in El. fold M in El. apply IH in H; [|lia]. destruct H as (n & H1 & H2 & H3).
      exists (S n). split; [econstructor; exact H1|]. lia.
    - injection H as <-. exists 1%nat. cbn. split; [exact Hpt|]. lia.
  Qed.

  Lemma owl_loop_evals fuel : forall b e xp s gp wp finit st g stp count r, 0 <= count < M ->
    owlqn_loop P f fuel b e xp s gp wp finit st g stp count = Some r ->
    exists n, evals n st (pt_st (s_pt r)) /\ count + Z.of_nat n <= M /\ (0 <= s_ret r -> s_ret r = count + Z.of_nat n).
  Proof.
    induction fuel as [|fuel IH]; intros b e xp s gp wp finit st g stp count r Hc H; [discriminate|].
    cbn [owlqn_loop] in H. set (q := call_eval f st (owlqn_project (vecadd xp s stp) wp b e) g) in *.
    assert (Hpt : evals 1 st (pt_st q)) by (econstructor; constructor).
    match type of H with (if ?c then _ else _) = _ => destruct c end.
    { injection H as <-. exists 1%nat. cbn [s_pt pt_st s_ret]. split; [exact Hpt|]. lia. }
    destruct (nltb stp (p_min_step P)).
    { injection H as <-. exists 1%nat. cbn [s_pt pt_st s_ret]. split; [exact Hpt|]. unfold LBFGSERR_MINIMUMSTEP. lia. }
    destruct (nltb (p_max_step P) stp).
    { injection H as <-. exists 1%nat. cbn [s_pt pt_st s_ret]. split; [exact Hpt|]. unfold LBFGSERR_MAXIMUMSTEP. lia. }
    destruct (p_max_linesearch P <=? count + 1) eqn:El.
    { injection H as <-. exists 1%nat. cbn [s_pt pt_st s_ret]. split; [exact Hpt|]. unfold LBFGSERR_MAXIMUMLINESEARCH. lia. }
    apply Z.leb_gt in El. fold M in El. apply IH in H; [|lia]. destruct H as (n & H1 & H2 & H3).
    exists (S n). split; [econstructor; exact H1|]. lia.
  Qed.

  Lemma mt_error_neg z : mt_error z -> z < 0.
  Proof. intros [->|[->|[->|[->| ->]]]]; reflexivity. Qed.

  Lemma mt_loop_evals fuel : forall xp s finit dginit dgtest v r, 0 <= mt_count v < M ->
    morethuente_loop P f fuel xp s finit dginit dgtest v = Some r ->
    exists n, evals n (mt_st v) (pt_st (s_pt r)) /\ mt_count v + Z.of_nat n <= M /\
              (0 <= s_ret r -> s_ret r = mt_count v + Z.of_nat n).
  Proof.
    induction fuel as [|fuel IH]; intros xp s finit dginit dgtest v r Hc H; [discriminate|].
    cbn [morethuente_loop] in H. destruct (mt_round P f xp s finit dginit dgtest v) as [v'|r'] eqn:E.
    - apply mt_round_next in E. cbv zeta in E. destruct E as (E1 & E2 & _).
      set (pt := call_eval f (mt_st v) (vecadd xp s (mt_step P v)) (mt_g v)) in *.
      destruct (mt_next_vars P finit dginit dgtest v (mt_step P v) pt (vecdot (pt_g pt) s)) as (F1 & F2 & _).
      rewrite <- E1 in F1, F2. apply IH in H; [|fold M in E2; lia]. destruct H as (n & H1 & H2 & H3).
      exists (S n). split; [|lia]. rewrite F2 in H1. econstructor. exact H1.
    - injection H as <-. apply mt_round_end in E; [|exact Hc]. destruct E as (E1 & E2 & E3).
      exists 1%nat. split; [rewrite E2; econstructor; constructor|]. split; [lia|]. intros Hr.
      destruct E3 as [(E3 & _)|E3]; [lia|]. apply mt_error_neg in E3. lia.
  Qed.

  (** ** One line search *)

  (** How the accepted point relates to the one before. *)
  Definition accepted (b e : nat) (s : state N St) (r : search N St) : Prop :=
    let pt := l_pt s in
    nleb (l_step s) nzero = false /\
    if owl P then
      let wp := map2 (fun x g => if neqb x nzero then nopp g else x) (pt_x pt) (l_pg s) in
      evaluated1 P f b e (owlqn_project (vecadd (pt_x pt) (l_d s) (s_step r)) wp b e) (s_pt r) /\
      owl_ok P b e (pt_x pt) (l_pg s) (pt_f pt) r
    else
      let dginit := vecdot (pt_g pt) (l_d s) in
      nltb nzero dginit = false /\
      evaluated f (vecadd (pt_x pt) (l_d s) (s_step r)) (s_pt r) /\
      match p_linesearch P with
      | MoreThuente => mt_ok P (pt_f pt) dginit (nmul (p_ftol P) dginit) (l_d s) r
      | _ => bt_ok P (pt_f pt) dginit (nmul (p_ftol P) dginit) (l_d s) r
      end.

  Lemma search_end fuel b e s r : 0 < M -> run_line_search P f fuel b e s = Some r ->
    exists n, evals n (pt_st (l_pt s)) (pt_st (s_pt r)) /\ Z.of_nat n <= M /\
      (s_ret r < 0 \/ 1 <= s_ret r <= M /\ s_ret r = Z.of_nat n /\ accepted b e s r).
  Proof.
    intros HM H. unfold run_line_search in H. unfold accepted.
    assert (Bad : forall (Q : nat -> Prop) c, c < 0 -> Some (mkSearch (l_pt s) (l_step s) c) = Some r ->
      exists n, evals n (pt_st (l_pt s)) (pt_st (s_pt r)) /\ Z.of_nat n <= M /\
      (s_ret r < 0 \/ 1 <= s_ret r <= M /\ s_ret r = Z.of_nat n /\ Q n)).
    { intros Q c Hc [= <-]. exists 0%nat. cbn [s_pt s_ret]. split; [constructor|]. split; [lia|]. left; exact Hc. }
    assert (Bt : line_search_backtracking P f fuel (l_pt s) (l_d s) (l_step s) = Some r ->
      exists n, evals n (pt_st (l_pt s)) (pt_st (s_pt r)) /\ Z.of_nat n <= M /\
      (s_ret r < 0 \/ 1 <= s_ret r <= M /\ s_ret r = Z.of_nat n /\ nleb (l_step s) nzero = false /\
        nltb nzero (vecdot (pt_g (l_pt s)) (l_d s)) = false /\
        evaluated f (vecadd (pt_x (l_pt s)) (l_d s) (s_step r)) (s_pt r) /\
        bt_ok P (pt_f (l_pt s)) (vecdot (pt_g (l_pt s)) (l_d s))
          (nmul (p_ftol P) (vecdot (pt_g (l_pt s)) (l_d s))) (l_d s) r)).
    { unfold line_search_backtracking. destruct (nleb (l_step s) nzero).
      { intros [= <-]. exists 0%nat. cbn [s_pt s_ret]. split; [constructor|]. split; [lia|]. left; reflexivity. }
      cbv zeta. destruct (nltb nzero (vecdot (pt_g (l_pt s)) (l_d s))) eqn:E.
      { intros [= <-]. exists 0%nat. cbn [s_pt s_ret]. split; [constructor|]. split; [lia|]. left; reflexivity. }
      intros B. pose proof B as B'. apply bt_loop_evals in B; [|lia]. apply bt_loop_end in B'; [|fold M; lia]. fold M in B'.
      destruct B as (n & B1 & B2 & B3). destruct B' as [B4 B5]. exists n. split; [exact B1|]. split; [lia|].
      destruct B5 as [[B5 B6]|[->|[->| ->]]]; [right|left; reflexivity..].
      split; [lia|]. split; [rewrite B3; lia|]. auto. }
    destruct (owl P) eqn:Eo.
    - unfold line_search_owlqn in H. destruct (nleb (l_step s) nzero); [eapply Bad; [|exact H]; reflexivity|].
      cbv zeta in H. pose proof H as H'. apply owl_loop_evals in H; [|lia]. apply owl_loop_end in H'; [|fold M; lia]. fold M in H'.
      destruct H as (n & H1 & H2 & H3). destruct H' as [H4 H5]. exists n. split; [exact H1|]. split; [lia|].
      destruct H5 as [[H5 H6]|[->|[->| ->]]]; [right|left; reflexivity..].
      split; [lia|]. split; [rewrite H3; lia|]. auto.
    - destruct (p_linesearch P); try exact (Bt H).
      unfold line_search_morethuente in H. destruct (nleb (l_step s) nzero); [eapply Bad; [|exact H]; reflexivity|].
      cbv zeta in H. destruct (nltb nzero (vecdot (pt_g (l_pt s)) (l_d s))); [eapply Bad; [|exact H]; reflexivity|].
      pose proof H as H'. apply mt_loop_evals in H; [|cbn; lia]. apply mt_loop_end in H'; [|cbn; fold M; lia].
      cbn [mt_count mt_st] in H, H'. fold M in H'.
      destruct H as (n & H1 & H2 & H3). destruct H' as [H4 H5]. exists n. split; [exact H1|]. split; [lia|].
      destruct H5 as [[H5 H6]|H5]; [right|left; apply mt_error_neg; exact H5].
      split; [lia|]. split; [rewrite H3; lia|]. auto.
  Qed.

  Lemma search_total fuel b e s : 0 < M -> (Z.to_nat M <= fuel)%nat -> run_line_search P f fuel b e s <> None.
  Proof.
    intros HM Hf. unfold run_line_search, line_search_owlqn, line_search_backtracking, line_search_morethuente. cbv zeta.
    destruct (owl P).
    - destruct (nleb (l_step s) nzero); [discriminate|]. apply owl_loop_total; fold M; rewrite ?Z.sub_0_r; lia.
    - destruct (p_linesearch P); (destruct (nleb (l_step s) nzero); [discriminate|]);
        (destruct (nltb nzero _); [discriminate|]);
        first [apply bt_loop_total | apply mt_loop_total]; cbn [mt_count]; fold M; rewrite ?Z.sub_0_r; lia.
  Qed.

  (** ** Runs *)

  Inductive run (b e : nat) : state N St -> list (search N St) -> ending N St -> Prop :=
  | run_failed fuel s r : run_line_search P f fuel b e s = Some r -> s_ret r < 0 ->
      run b e s [] (Done (pt_st (s_pt r)) (pt_x (l_pt s)) (s_ret r))
  | run_end fuel s r en : run_line_search P f fuel b e s = Some r -> 0 <= s_ret r ->
      after_step P progress b e s r = Exit en -> run b e s [r] en
  | run_more fuel s r s' l en : run_line_search P f fuel b e s = Some r -> 0 <= s_ret r ->
      after_step P progress b e s r = Next s' -> run b e s' l en -> run b e s (r :: l) en.

  Lemma main_loop_run fuel lsfuel b e : forall s en, main_loop P f progress fuel lsfuel b e s = Some en ->
    exists l, run b e s l en.
  Proof.
    induction fuel as [|fuel IH]; intros s en H; [discriminate|]. cbn [main_loop] in H. unfold iterate in H.
    destruct (run_line_search P f lsfuel b e s) as [r|] eqn:E; [|discriminate].
    destruct (s_ret r <? 0) eqn:Es.
    - apply Z.ltb_lt in Es. injection H as <-. exists []. econstructor; eassumption.
    - apply Z.ltb_ge in Es. destruct (after_step P progress b e s r) as [s'|en'] eqn:Ea.
      + apply IH in H. destruct H as [l H]. exists (r :: l). econstructor; eassumption.
      + injection H as <-. exists [r]. econstructor; eassumption.
  Qed.

  Lemma after_step_next b e s r s' : after_step P progress b e s r = Next s' ->
    exists st pg, st = fst (call_progress progress (pt_st (s_pt r))
        (mkReport (pt_x (s_pt r)) (pt_g (s_pt r)) (pt_f (s_pt r)) (vec2norm (pt_x (s_pt r)))
           (if owl P then vec2norm pg else vec2norm (pt_g (s_pt r))) (s_step r) (Z.of_nat (l_k s)) (s_ret r))) /\
      pg = (if owl P then owlqn_pseudo_gradient (pt_x (s_pt r)) (pt_g (s_pt r)) (p_c P) b e else l_pg s) /\
      s' = next_state P b e s (mkPoint st (pt_x (s_pt r)) (pt_g (s_pt r)) (pt_f (s_pt r))) pg /\
      (p_max_iterations P = 0 \/ Z.of_nat (l_k s) + 1 <= p_max_iterations P) /\ Z.to_nat (p_m P) <> 0%nat /\
      converged P (vec2norm (pt_x (s_pt r))) (if owl P then vec2norm pg else vec2norm (pt_g (s_pt r))) = false.
  Proof.
    unfold after_step. cbv zeta.
    set (pg := if owl P then owlqn_pseudo_gradient _ _ _ b e else l_pg s).
    set (a := call_progress progress _ _). intros H.
    destruct (negb (snd a =? 0)); [discriminate|].
    destruct (converged P _ _) eqn:Ec; [discriminate|].
    match type of H with (if ?c then _ else _) = _ => destruct c end; [discriminate|].
    destruct (negb (p_max_iterations P =? 0) && (p_max_iterations P <? Z.of_nat (l_k s) + 1))%bool eqn:Em; [discriminate|].
    destruct (Nat.eqb (Z.to_nat (p_m P)) 0) eqn:E0; [discriminate|]. injection H as <-.
    exists (fst a), pg. split; [reflexivity|]. split; [reflexivity|]. split; [reflexivity|].
    split; [|split; [apply Nat.eqb_neq; exact E0|exact Ec]].
    destruct (p_max_iterations P =? 0) eqn:Ez; [left; lia|]. cbn in Em. right. lia.
  Qed.

  Definition end_state (en : ending N St) : St := match en with Done st _ _ => st | Undefined st => st end.

  Lemma after_step_exit b e s r en : after_step P progress b e s r = Exit en ->
    exists gnorm, end_state en = fst (call_progress progress (pt_st (s_pt r))
        (mkReport (pt_x (s_pt r)) (pt_g (s_pt r)) (pt_f (s_pt r)) (vec2norm (pt_x (s_pt r))) gnorm
           (s_step r) (Z.of_nat (l_k s)) (s_ret r))) /\
      gnorm = vec2norm (if owl P then owlqn_pseudo_gradient (pt_x (s_pt r)) (pt_g (s_pt r)) (p_c P) b e else pt_g (s_pt r)) /\
      forall st x c, en = Done st x c -> x = pt_x (s_pt r).
  Proof.
    unfold after_step. cbv zeta.
    set (pg := if owl P then owlqn_pseudo_gradient _ _ _ b e else l_pg s).
    set (gn := if owl P then vec2norm pg else _). set (a := call_progress progress _ _).
    assert (Hg : gn = vec2norm (if owl P then owlqn_pseudo_gradient (pt_x (s_pt r)) (pt_g (s_pt r)) (p_c P) b e else pt_g (s_pt r))).
    { unfold gn, pg. destruct (owl P); reflexivity. }
    intros H. exists gn.
    repeat match type of H with (if ?c then _ else _) = _ => destruct c end;
      try discriminate H; injection H as <-; cbn [end_state]; (split; [reflexivity|]); (split; [exact Hg|]);
      intros st x c E; first [discriminate E | injection E as _ <- _; reflexivity].
  Qed.

  (** ** Termination *)
  Lemma main_loop_total fuel lsfuel b e : 0 < M -> (Z.to_nat M <= lsfuel)%nat ->
    forall s, 0 < p_max_iterations P -> (1 <= l_k s)%nat ->
    p_max_iterations P - Z.of_nat (l_k s) + 1 <= Z.of_nat fuel -> (1 <= fuel)%nat ->
    main_loop P f progress fuel lsfuel b e s <> None.
  Proof.
    intros HM Hl. induction fuel as [|fuel IH]; intros s Hk Hs Hf H1; [lia|]. cbn [main_loop]. unfold iterate.
    destruct (run_line_search P f lsfuel b e s) as [r|] eqn:E; [|exfalso; eapply search_total; eassumption].
    destruct (s_ret r <? 0); [discriminate|].
    destruct (after_step P progress b e s r) as [s'|en] eqn:Ea; [|discriminate].
    apply after_step_next in Ea. destruct Ea as (st & pg & _ & _ & -> & Hi & _).
    apply IH; cbn [next_state l_k]; lia.
  Qed.

  (** ** Counting *)
  Section Count.
    Variable mu nu : St -> nat.
    Hypothesis Hmu : forall st x g, mu (fst (f st x g)) = S (mu st).
    Hypothesis Hnu : forall st x g, nu (fst (f st x g)) = nu st.
    Hypothesis Pmu : forall h st r, progress = Some h -> mu (fst (h st r)) = mu st.
    Hypothesis Pnu : forall h st r, progress = Some h -> nu (fst (h st r)) = S (nu st).

    Lemma evals_count n st st' : evals n st st' -> mu st' = (mu st + n)%nat /\ nu st' = nu st.
    Proof.
      induction 1 as [|n st x g st' H [I1 I2]]; [split; lia|]. rewrite I1, I2, Hmu, Hnu. split; lia.
    Qed.
    Lemma progress_count st r : mu (fst (call_progress progress st r)) = mu st /\
      (nu (fst (call_progress progress st r)) <= S (nu st))%nat.
    Proof. unfold call_progress. destruct progress as [h|]; cbn; [rewrite (Pmu h), (Pnu h); auto|auto]. Qed.

    Lemma run_count b e s l en : 0 < M -> run b e s l en ->
      Z.of_nat (mu (end_state en)) <= Z.of_nat (mu (pt_st (l_pt s))) + (Z.of_nat (length l) + 1) * M /\
      (p_max_iterations P = 0 \/ Z.of_nat (length l) + Z.of_nat (l_k s) <= Z.max (Z.of_nat (l_k s)) (p_max_iterations P) + 1) /\
      (nu (end_state en) <= nu (pt_st (l_pt s)) + length l)%nat /\
      (0 < p_max_iterations P -> 
       Z.of_nat (mu (end_state en)) <= Z.of_nat (mu (pt_st (l_pt s))) + Z.max 1 (p_max_iterations P - Z.of_nat (l_k s) + 1) * M).
    Proof.
      intros HM H. induction H as [fuel s r E Hr | fuel s r en E Hr Ea | fuel s r s' l en E Hr Ea H IH].
      - apply search_end in E; [|exact HM]. destruct E as (n & E1 & E2 & _). apply evals_count in E1. destruct E1 as [E1 E3].
        cbn [end_state length]. rewrite E1, E3. split; [lia|]. split; [lia|]. split; [lia|]. intros Hk. nia.
      - apply search_end in E; [|exact HM]. destruct E as (n & E1 & E2 & _). apply evals_count in E1. destruct E1 as [E1 E3].
        apply after_step_exit in Ea. destruct Ea as (gn & Ea & _ & _). rewrite Ea.
        match goal with |- context [call_progress progress ?a ?q] => destruct (progress_count a q) as [Q1 Q2] end.
        rewrite Q1. cbn [length]. split; [lia|]. split; [lia|]. split; [lia|]. intros Hk. nia.
      - apply search_end in E; [|exact HM]. destruct E as (n & E1 & E2 & _). apply evals_count in E1. destruct E1 as [E1 E3].
        apply after_step_next in Ea. destruct Ea as (st & pg & Est & _ & -> & Hi & _). cbn [next_state l_pt l_k pt_st] in IH.
        assert (Q1 : mu st = mu (pt_st (s_pt r))) by (rewrite Est; apply progress_count).
        assert (Q2 : (nu st <= S (nu (pt_st (s_pt r))))%nat) by (rewrite Est; apply progress_count).
        destruct IH as (I1 & I2 & I3 & I4). cbn [length]. split; [lia|]. split; [lia|]. split; [lia|]. intros Hk.
        specialize (I4 Hk). rewrite Q1, E1 in I4. nia.
    Qed.
    Lemma run_calls b e s l en : 0 < M -> run b e s l en -> (mu (pt_st (l_pt s)) <= mu (end_state en))%nat.
    Proof.
      intros HM H. induction H as [fuel s r E Hr | fuel s r en E Hr Ea | fuel s r s' l en E Hr Ea H IH].
      - apply search_end in E; [|exact HM]. destruct E as (n & E1 & E2 & _). apply evals_count in E1. cbn [end_state]. lia.
      - apply search_end in E; [|exact HM]. destruct E as (n & E1 & E2 & _). apply evals_count in E1.
        apply after_step_exit in Ea. destruct Ea as (gn & Ea & _ & _). rewrite Ea.
        match goal with |- context [call_progress progress ?a ?q] => destruct (progress_count a q) as [Q1 Q2] end. lia.
      - apply search_end in E; [|exact HM]. destruct E as (n & E1 & E2 & _). apply evals_count in E1.
        apply after_step_next in Ea. destruct Ea as (st & pg & Est & _ & -> & Hi & _). cbn [next_state l_pt pt_st] in IH.
        assert (Q1 : mu st = mu (pt_st (s_pt r))) by (rewrite Est; apply progress_count). lia.
    Qed.
  End Count.
End Trace.

(** ** The log *)
Section Log.
  Context {N : NumOps} {St : Type}.
  Variable P : params N.
  Variable f : objective N St.
  Variable progress : option (observer N St).

  Lemma evals_log n st st' : evals (keep_log f) n st st' -> snd st' = snd st.
  Proof. induction 1 as [|n st x g st' H IH]; [reflexivity|]. rewrite IH. reflexivity. Qed.

  Definition describes (q : report N) (r : search N (St * list (report N))) : Prop :=
    r_x q = pt_x (s_pt r) /\ r_g q = pt_g (s_pt r) /\ r_fx q = pt_f (s_pt r) /\ r_step q = s_step r /\ r_ls q = s_ret r.

  Lemma write_log_spec st q : snd (fst (call_progress (Some (write_log progress)) st q)) = snd st ++ [q].
  Proof. unfold call_progress, write_log. destruct progress; reflexivity. Qed.

  Lemma run_log b e s l en : 0 < p_max_linesearch P -> run P (keep_log f) (Some (write_log progress)) b e s l en ->
    exists reps, snd (end_state en) = snd (pt_st (l_pt s)) ++ reps /\ Forall2 describes reps l /\
                 map r_k reps = map Z.of_nat (seq (l_k s) (length reps)).
  Proof.
    intros HM H. induction H as [fuel s r E Hr | fuel s r en E Hr Ea | fuel s r s' l en E Hr Ea H IH].
    - apply search_end in E; [|exact HM]. destruct E as (n & E1 & _). apply evals_log in E1.
      exists []. cbn [end_state]. rewrite app_nil_r. auto.
    - apply search_end in E; [|exact HM]. destruct E as (n & E1 & _). apply evals_log in E1.
      apply after_step_exit in Ea. destruct Ea as (gn & Ea & _ & _). rewrite Ea, write_log_spec, E1.
      eexists. split; [reflexivity|]. split; [|reflexivity]. constructor; [|constructor]. repeat split.
    - apply search_end in E; [|exact HM]. destruct E as (n & E1 & _). apply evals_log in E1.
      apply after_step_next in Ea. destruct Ea as (st & pg & Est & _ & -> & _). cbn [next_state l_pt l_k pt_st] in IH.
      assert (Es : snd st = snd (pt_st (l_pt s)) ++ [mkReport (pt_x (s_pt r)) (pt_g (s_pt r)) (pt_f (s_pt r)) (vec2norm (pt_x (s_pt r)))
           (if owl P then vec2norm pg else vec2norm (pt_g (s_pt r))) (s_step r) (Z.of_nat (l_k s)) (s_ret r)]).
      { rewrite Est, write_log_spec, E1. reflexivity. }
      destruct IH as (reps & I1 & I2 & I3). rewrite Es in I1. rewrite <- app_assoc in I1. cbn [app] in I1.
      eexists. split; [exact I1|]. split; [constructor; [repeat split|exact I2]|].
      cbn [map length seq r_k]. now rewrite I3.
  Qed.
End Log.

(** ** The whole call *)
Section Whole.
  Context {N : NumOps} {St : Type}.

  Record checked (P : params N) (n b e : nat) : Prop := mkChecked {
    ck_n : (0 < n)%nat;
    ck_epsilon : nltb (p_epsilon P) nzero = false;
    ck_past : 0 <= p_past P;
    ck_delta : nltb (p_delta P) nzero = false;
    ck_min : nltb (p_min_step P) nzero = false;
    ck_max : nltb (p_max_step P) (p_min_step P) = false;
    ck_ftol : nltb (p_ftol P) nzero = false;
    ck_wolfe : p_linesearch P = Wolfe \/ p_linesearch P = StrongWolfe ->
               nleb (p_wolfe P) (p_ftol P) = false /\ nleb none (p_wolfe P) = false;
    ck_gtol : nltb (p_gtol P) nzero = false;
    ck_xtol : nltb (p_xtol P) nzero = false;
    ck_ls : 0 < p_max_linesearch P;
    ck_c : nltb (p_c P) nzero = false;
    ck_b : 0 <= p_start P /\ b = Z.to_nat (p_start P) /\ (b <= n)%nat;
    ck_e : e = (if p_end P <? 0 then n else Z.to_nat (p_end P)) /\ (e <= n)%nat;
    ck_owl : owl P = true -> p_linesearch P = Wolfe
  }.

  Lemma check_ok P n b e : check_params P (Z.of_nat n) = inr (b, e) <-> checked P n b e.
  Proof.
    unfold check_params. cbv zeta. split.
    - intros H.
      destruct (Z.of_nat n <=? 0) eqn:E1; [discriminate|]. apply Z.leb_gt in E1.
      destruct (nltb (p_epsilon P) nzero) eqn:E2; [discriminate|].
      destruct (p_past P <? 0) eqn:E3; [discriminate|]. apply Z.ltb_ge in E3.
      destruct (nltb (p_delta P) nzero) eqn:E4; [discriminate|].
      destruct (nltb (p_min_step P) nzero) eqn:E5; [discriminate|].
      destruct (nltb (p_max_step P) (p_min_step P)) eqn:E6; [discriminate|].
      destruct (nltb (p_ftol P) nzero) eqn:E7; [discriminate|].
      match type of H with (if ?q then _ else _) = _ => destruct q eqn:E8 end; [discriminate|].
      destruct (nltb (p_gtol P) nzero) eqn:E9; [discriminate|].
      destruct (nltb (p_xtol P) nzero) eqn:E10; [discriminate|].
      destruct (p_max_linesearch P <=? 0) eqn:E11; [discriminate|]. apply Z.leb_gt in E11.
      destruct (nltb (p_c P) nzero) eqn:E12; [discriminate|].
      destruct ((p_start P <? 0) || (Z.of_nat n <? p_start P))%bool eqn:E13; [discriminate|]. apply orb_false_elim in E13.
      destruct E13 as [E13 E14]. apply Z.ltb_ge in E13, E14.
      destruct (Z.of_nat n <? (if p_end P <? 0 then Z.of_nat n else p_end P)) eqn:E15; [discriminate|]. apply Z.ltb_ge in E15.
      match type of H with (if ?q then _ else _) = _ => destruct q eqn:E16 end; [discriminate|].
      injection H as <- <-. constructor; auto; try lia.
      + intros [El|El]; rewrite El in E8; cbn [andb] in E8; now apply orb_false_elim in E8.
      + destruct (p_end P <? 0) eqn:Ee; [split; lia|]. apply Z.ltb_ge in Ee. split; [reflexivity|lia].
      + intros Ho. rewrite Ho in E16. destruct (p_linesearch P); auto; discriminate.
    - intros [C1 C2 C3 C4 C5 C6 C7 C8 C9 C10 C11 C12 [C13 [C14 C14']] [C15 C15'] C16].
      rewrite C2, C4, C5, C6, C7, C9, C10, C12.
      destruct (Z.leb_spec (Z.of_nat n) 0); [lia|]. destruct (Z.ltb_spec (p_past P) 0); [lia|].
      assert (E8 : (match p_linesearch P with Wolfe | StrongWolfe => true | _ => false end
            && (nleb (p_wolfe P) (p_ftol P) || nleb none (p_wolfe P)))%bool = false).
      { destruct (p_linesearch P); auto; destruct C8 as [-> ->]; auto. }
      rewrite E8. destruct (Z.leb_spec (p_max_linesearch P) 0); [lia|].
      destruct (Z.ltb_spec (p_start P) 0); [lia|]. destruct (Z.ltb_spec (Z.of_nat n) (p_start P)); [lia|]. cbn [orb].
      assert (E9 : (owl P && match p_linesearch P with Wolfe => false | _ => true end)%bool = false).
      { destruct (owl P); [|reflexivity]. now rewrite C16. }
      rewrite E9. destruct (Z.ltb_spec (p_end P) 0).
      + destruct (Z.ltb_spec (Z.of_nat n) (Z.of_nat n)); [lia|]. subst b e. rewrite Nat2Z.id. reflexivity.
      + destruct (Z.ltb_spec (Z.of_nat n) (p_end P)); [lia|]. subst b e. reflexivity.
  Qed.

  Variable f : objective N St.
  Variable progress : option (observer N St).

  (** How a call can go once the line search name is known. *)
  Lemma minimize_start P fuel lsfuel st x0 st' out :
    minimize P f progress fuel lsfuel st x0 = Some (st', out) ->
    (exists code, check_params P (Z.of_nat (length x0)) = inl code /\ st' = st /\ out = conclude x0 code) \/
    (exists b e, checked P (length x0) b e /\
      (p_m P < 0 /\ st' = st /\ out = Raises MemoryError \/
       0 <= p_m P /\
       let s := init_state P f b e st x0 in
       (converged P (vec2norm (pt_x (l_pt s))) (if owl P then vec2norm (l_pg s) else vec2norm (pt_g (l_pt s))) = true /\
        st' = pt_st (l_pt s) /\ out = Returned (pt_x (l_pt s)) None \/
        converged P (vec2norm (pt_x (l_pt s))) (if owl P then vec2norm (l_pg s) else vec2norm (pt_g (l_pt s))) = false /\
        exists l en, run P f progress b e s l en /\ st' = end_state en /\
          match en with Done _ x code => out = conclude x code | Undefined _ => out = Crash end))).
  Proof.
    unfold minimize, lbfgs. intros H.
    destruct (check_params P (Z.of_nat (length x0))) as [code|[b e]] eqn:Ec.
    - injection H as <- <-. left. eauto.
    - apply check_ok in Ec. right. exists b, e. split; [exact Ec|].
      destruct (p_m P <? 0) eqn:Em.
      + injection H as <- <-. left. apply Z.ltb_lt in Em. auto.
      + apply Z.ltb_ge in Em. right. split; [exact Em|]. cbv zeta in *.
        destruct (converged P _ _) eqn:Ev.
        * injection H as <- <-. left. auto.
        * right. split; [reflexivity|]. destruct (main_loop P f progress fuel lsfuel b e (init_state P f b e st x0)) as [en|] eqn:El; [|discriminate].
          apply main_loop_run in El. destruct El as [l El]. exists l, en. split; [exact El|].
          destruct en; injection H as <- <-; auto.
  Qed.

  (** How a call can go once the line search name is known. *)
  Lemma minimize_cases P fuel lsfuel st x0 st' out :
    minimize P f progress fuel lsfuel st x0 = Some (st', out) ->
    (exists code, check_params P (Z.of_nat (length x0)) = inl code /\ st' = st /\ out = conclude x0 code) \/
    (exists b e, checked P (length x0) b e /\
      (p_m P < 0 /\ st' = st /\ out = Raises MemoryError \/
       0 <= p_m P /\
       let s := init_state P f b e st x0 in
       (converged P (vec2norm (pt_x (l_pt s))) (if owl P then vec2norm (l_pg s) else vec2norm (pt_g (l_pt s))) = true /\
        st' = pt_st (l_pt s) /\ out = Returned (pt_x (l_pt s)) None \/
        exists l en, run P f progress b e s l en /\ st' = end_state en /\
          match en with Done _ x code => out = conclude x code | Undefined _ => out = Crash end))).
  Proof.
    intros H. apply minimize_start in H. destruct H as [H|(b & e & H1 & [H|(H2 & [H|(_ & H)])])]; [auto|right; exists b, e; auto..].
  Qed.

  Lemma conclude_returned (x : list N) code y w : conclude x code = Returned y w -> y = x.
  Proof.
    unfold conclude. intros H.
    repeat match type of H with (if ?q then _ else _) = _ => destruct q end; try discriminate H; now injection H.
  Qed.
End Whole.

(** ** Runs of related programs agree *)
Section Simulation.
  Context {N : NumOps} {S1 S2 : Type}.
  Variable P : params N.
  Variable phi : S1 -> S2.
  Variables (f1 : objective N S1) (f2 : objective N S2).
  Variables (h1 : option (observer N S1)) (h2 : option (observer N S2)).
  Hypothesis Hh : forall st q, phi (fst (call_progress h1 st q)) = fst (call_progress h2 (phi st) q) /\
                               snd (call_progress h1 st q) = snd (call_progress h2 (phi st) q).

  Definition mpt (pt : point N S1) : point N S2 := mkPoint (phi (pt_st pt)) (pt_x pt) (pt_g pt) (pt_f pt).
  Definition mse (r : search N S1) : search N S2 := mkSearch (mpt (s_pt r)) (s_step r) (s_ret r).
  Definition mst (s : state N S1) : state N S2 :=
    mkState (mpt (l_pt s)) (l_pg s) (l_d s) (l_step s) (l_k s) (l_end s) (l_lm s) (l_pf s).
  Definition men (en : ending N S1) : ending N S2 :=
    match en with Done st x code => Done (phi st) x code | Undefined st => Undefined (phi st) end.
  Definition msr (r : step_result N S1) : step_result N S2 := match r with Next s => Next (mst s) | Exit en => Exit (men en) end.
  Definition mmt (v : mt_vars N S1) : mt_vars N S2 :=
    mkMt (mt_iv v) (mt_stage1 v) (mt_uinfo v) (mt_width v) (mt_prev_width v) (phi (mt_st v)) (mt_g v) (mt_count v).

  Hypothesis sim_eval : forall st x g, call_eval f2 (phi st) x g = mpt (call_eval f1 st x g).

  Lemma sim_bt fuel : forall xp s finit dginit dgtest st g stp count,
    backtracking_loop P f2 fuel xp s finit dginit dgtest (phi st) g stp count =
    option_map mse (backtracking_loop P f1 fuel xp s finit dginit dgtest st g stp count).
  Proof.
    induction fuel as [|fuel IH]; intros; [reflexivity|]. cbn [backtracking_loop]. rewrite sim_eval.
    set (q := call_eval f1 st (vecadd xp s stp) g). cbn [mpt pt_st pt_x pt_g pt_f].
    match goal with |- context [match ?v with Some _ => _ | None => _ end] => destruct v as [w|] end; [|reflexivity].
    destruct (nltb stp (p_min_step P)); [reflexivity|]. destruct (nltb (p_max_step P) stp); [reflexivity|].
    destruct (_ <=? _); [reflexivity|]. apply IH.
  Qed.
  Lemma sim_owl fuel : forall b e xp s gp wp finit st g stp count,
    owlqn_loop P f2 fuel b e xp s gp wp finit (phi st) g stp count =
    option_map mse (owlqn_loop P f1 fuel b e xp s gp wp finit st g stp count).
  Proof.
    induction fuel as [|fuel IH]; intros; [reflexivity|]. cbn [owlqn_loop]. rewrite sim_eval.
    set (q := call_eval f1 st _ g). cbn [mpt pt_st pt_x pt_g pt_f].
    destruct (nleb _ _); [reflexivity|].
    destruct (nltb stp (p_min_step P)); [reflexivity|]. destruct (nltb (p_max_step P) stp); [reflexivity|].
    destruct (_ <=? _); [reflexivity|]. apply IH.
  Qed.
  Lemma sim_mt_step v : mt_step P (mmt v) = mt_step P v.
  Proof. reflexivity. Qed.
  Lemma sim_mt_next finit dginit dgtest v stp pt dg :
    mt_next P finit dginit dgtest (mmt v) stp (mpt pt) dg = mmt (mt_next P finit dginit dgtest v stp pt dg).
  Proof.
    unfold mt_next. cbv zeta. cbn [mmt mpt mt_iv mt_stage1 mt_uinfo mt_width mt_prev_width mt_st mt_g mt_count pt_st pt_x pt_g pt_f].
    match goal with |- context [if i_brackt ?j then _ else _] => destruct (i_brackt j) end; reflexivity.
  Qed.
  Lemma sim_mt_round xp s finit dginit dgtest v :
    mt_round P f2 xp s finit dginit dgtest (mmt v) =
    match mt_round P f1 xp s finit dginit dgtest v with inl v' => inl (mmt v') | inr r => inr (mse r) end.
  Proof.
    unfold mt_round. cbv zeta. rewrite sim_mt_step.
    replace (call_eval f2 (mt_st (mmt v)) (vecadd xp s (mt_step P v)) (mt_g (mmt v)))
      with (mpt (call_eval f1 (mt_st v) (vecadd xp s (mt_step P v)) (mt_g v))) by (symmetry; apply sim_eval).
    set (q := call_eval f1 _ _ _). rewrite sim_mt_next.
    cbn [mmt mpt mt_iv mt_stage1 mt_uinfo mt_width mt_prev_width mt_st mt_g mt_count pt_st pt_x pt_g pt_f].
    repeat match goal with |- context [if ?c then inr _ else _] => destruct c; [reflexivity|] end. reflexivity.
  Qed.
  Lemma sim_mt fuel : forall xp s finit dginit dgtest v,
    morethuente_loop P f2 fuel xp s finit dginit dgtest (mmt v) =
    option_map mse (morethuente_loop P f1 fuel xp s finit dginit dgtest v).
  Proof.
    induction fuel as [|fuel IH]; intros; [reflexivity|]. cbn [morethuente_loop]. rewrite sim_mt_round.
    destruct (mt_round P f1 xp s finit dginit dgtest v) as [v'|r]; [apply IH|reflexivity].
  Qed.
  Lemma sim_search fuel b e s : run_line_search P f2 fuel b e (mst s) = option_map mse (run_line_search P f1 fuel b e s).
  Proof.
    unfold run_line_search, line_search_owlqn, line_search_backtracking, line_search_morethuente. cbv zeta.
    cbn [mst mpt l_pt l_d l_pg l_step pt_st pt_x pt_g pt_f].
    destruct (owl P).
    - destruct (nleb (l_step s) nzero); [reflexivity|]. apply sim_owl.
    - destruct (p_linesearch P); (destruct (nleb (l_step s) nzero); [reflexivity|]); (destruct (nltb nzero _); [reflexivity|]);
        first [apply sim_bt | apply (sim_mt fuel _ _ _ _ _ (mkMt _ _ _ _ _ _ _ _))].
  Qed.
  Lemma sim_after b e s r : after_step P h2 b e (mst s) (mse r) = msr (after_step P h1 b e s r).
  Proof.
    unfold after_step. cbv zeta. cbn [mse mst mpt s_pt s_step s_ret l_pt l_pg l_k l_pf pt_st pt_x pt_g pt_f].
    match goal with |- context [call_progress h1 ?a ?q] => destruct (Hh a q) as [E1 E2] end.
    rewrite <- E2.
    repeat match goal with |- context [if ?c then Exit _ else _] => destruct c; [rewrite <- E1; reflexivity|] end.
    rewrite <- E1. reflexivity.
  Qed.
  Lemma sim_main fuel lsfuel b e : forall s, main_loop P f2 h2 fuel lsfuel b e (mst s) =
    option_map men (main_loop P f1 h1 fuel lsfuel b e s).
  Proof.
    induction fuel as [|fuel IH]; intros; [reflexivity|]. cbn [main_loop]. unfold iterate. rewrite sim_search.
    destruct (run_line_search P f1 lsfuel b e s) as [r|]; [|reflexivity]. cbn [option_map].
    rewrite sim_after. cbn [mse s_ret]. destruct (s_ret r <? 0); [reflexivity|].
    destruct (after_step P h1 b e s r) as [s'|en]; cbn [msr]; [apply IH|reflexivity].
  Qed.
  Lemma sim_init b e st x : init_state P f2 b e (phi st) x = mst (init_state P f1 b e st x).
  Proof. unfold init_state. cbv zeta. rewrite sim_eval. reflexivity. Qed.

  Lemma sim_minimize fuel lsfuel st x : minimize P f2 h2 fuel lsfuel (phi st) x =
    option_map (fun r => (phi (fst r), snd r)) (minimize P f1 h1 fuel lsfuel st x).
  Proof.
    unfold minimize, lbfgs. destruct (check_params P (Z.of_nat (length x))) as [code|[b e]]; [reflexivity|].
    destruct (p_m P <? 0); [reflexivity|]. cbv zeta. rewrite sim_init.
    cbn [mst mpt l_pt l_pg pt_st pt_x pt_g pt_f].
    destruct (converged P _ _); [reflexivity|].
    rewrite sim_main. destruct (main_loop P f1 h1 fuel lsfuel b e (init_state P f1 b e st x)) as [[]|]; reflexivity.
  Qed.
End Simulation.

Lemma sim_fmin_eval {N : NumOps} {S1 S2 : Type} (O : options N) (phi : S1 -> S2) f1 f2 h1 h2 fuel lsfuel st x :
  (forall st x g, call_eval f2 (phi st) x g = mpt phi (call_eval f1 st x g)) ->
  (forall st q, phi (fst (call_progress h1 st q)) = fst (call_progress h2 (phi st) q) /\
                snd (call_progress h1 st q) = snd (call_progress h2 (phi st) q)) ->
  fmin_lbfgs O f2 h2 fuel lsfuel (phi st) x = option_map (fun r => (phi (fst r), snd r)) (fmin_lbfgs O f1 h1 fuel lsfuel st x).
Proof.
  intros Hf Hh. unfold fmin_lbfgs. destruct (negb (nleb nzero (o_c O))); [reflexivity|].
  destruct (line_search_algo _); [|reflexivity]. apply sim_minimize; assumption.
Qed.

Lemma sim_fmin {N : NumOps} {S1 S2 : Type} (O : options N) (phi : S1 -> S2) f1 f2 h1 h2 fuel lsfuel st x :
  (forall st x g, phi (fst (f1 st x g)) = fst (f2 (phi st) x g) /\ snd (f1 st x g) = snd (f2 (phi st) x g)) ->
  (forall st q, phi (fst (call_progress h1 st q)) = fst (call_progress h2 (phi st) q) /\
                snd (call_progress h1 st q) = snd (call_progress h2 (phi st) q)) ->
  fmin_lbfgs O f2 h2 fuel lsfuel (phi st) x = option_map (fun r => (phi (fst r), snd r)) (fmin_lbfgs O f1 h1 fuel lsfuel st x).
Proof.
  intros Hf. apply sim_fmin_eval. intros st' x' g'. unfold call_eval, mpt. cbn. destruct (Hf st' x' g') as [-> ->]. reflexivity.
Qed.

(** Recording changes nothing. *)
Lemma recording_faithful {N : NumOps} {St : Type} (O : options N) (f : objective N St) progress fuel lsfuel st x0 :
  fmin_lbfgs O f progress fuel lsfuel st x0 =
  option_map (fun r => (fst (fst r), snd r)) (recorded O f progress fuel lsfuel st x0).
Proof.
  unfold recorded.
  rewrite <- (sim_fmin O (@fst St (list (report N))) (keep_log f) f (Some (write_log progress)) progress fuel lsfuel (st, []) x0).
  - reflexivity.
  - intros. split; reflexivity.
  - intros s q. unfold call_progress, write_log. destruct progress; split; reflexivity.
Qed.

(** Counting changes nothing. *)
Lemma counting_faithful {N : NumOps} {St : Type} (O : options N) (f : objective N St) progress fuel lsfuel st c x0 :
  fmin_lbfgs O f progress fuel lsfuel st x0 =
  option_map (fun r => (fst (fst r), snd r))
    (fmin_lbfgs O (count_calls f) (option_map count_reports progress) fuel lsfuel (st, c) x0).
Proof.
  rewrite <- (sim_fmin O (@fst St (nat * nat)) (count_calls f) f (option_map count_reports progress) progress fuel lsfuel (st, c) x0).
  - reflexivity.
  - intros. split; reflexivity.
  - intros s q. unfold call_progress. destruct progress; split; reflexivity.
Qed.

(** ** The number of calls *)
Lemma count_bound {N : NumOps} {St : Type} (O : options N) (f : objective N St) progress fuel lsfuel st st' calls reports x0 out :
  0 < o_max_iterations O ->
  fmin_lbfgs O (count_calls f) (option_map count_reports progress) fuel lsfuel (st, (0%nat, 0%nat)) x0 = Some ((st', (calls, reports)), out) ->
  Z.of_nat calls <= 1 + o_max_iterations O * Z.max 0 (o_max_linesearch O) /\ Z.of_nat reports <= o_max_iterations O.
Proof.
  intros Hk H. assert (Hp : 0 <= o_max_iterations O * Z.max 0 (o_max_linesearch O)) by nia.
  unfold fmin_lbfgs in H. destruct (negb (nleb nzero (o_c O))); [injection H as <- <- <- <-; lia|].
  destruct (line_search_algo _) as [alg|]; [|injection H as <- <- <- <-; lia].
  apply minimize_cases in H. set (P := to_params O alg) in *. set (f' := count_calls f) in *.
  destruct H as [(code & _ & H & _)|(b & e & Hc & H)]; [injection H as -> -> ->; lia|].
  destruct H as [(_ & H & _)|(_ & H)]; [injection H as -> -> ->; lia|]. cbv zeta in H.
  set (s := init_state P f' b e (st, (0%nat, 0%nat)) x0) in *.
  assert (Hs : snd (pt_st (l_pt s)) = (1%nat, 0%nat)) by reflexivity.
  destruct H as [(_ & H & _)|(l & en & Hr & H & _)]; [rewrite <- H in Hs; cbn [snd] in Hs; injection Hs as -> ->; lia|].
  pose proof (run_count P f' (option_map count_reports progress) (fun t => fst (snd t)) (fun t => snd (snd t))) as Q.
  specialize (Q ltac:(reflexivity) ltac:(reflexivity)).
  assert (Q1 : forall h t r, option_map count_reports progress = Some h -> fst (snd (fst (h t r))) = fst (snd t)).
  { intros h t r Eh. destruct progress; [|discriminate]. injection Eh as <-. reflexivity. }
  assert (Q2 : forall h t r, option_map count_reports progress = Some h -> snd (snd (fst (h t r))) = S (snd (snd t))).
  { intros h t r Eh. destruct progress; [|discriminate]. injection Eh as <-. reflexivity. }
  specialize (Q Q1 Q2 b e s l en (ck_ls _ _ _ _ Hc) Hr). cbv beta in Q. rewrite Hs in Q. cbn [fst snd] in Q. rewrite <- H in Q. cbn [fst snd] in Q.
  change (l_k s) with 1%nat in Q. change (p_max_iterations P) with (o_max_iterations O) in Q.
  change (p_max_linesearch P) with (o_max_linesearch O) in Q. pose proof (ck_ls _ _ _ _ Hc) as HM.
  change (p_max_linesearch P) with (o_max_linesearch O) in HM. destruct Q as (Q3 & Q4 & Q5 & Q6). specialize (Q6 Hk). nia.
Qed.

Lemma fmin_total {N : NumOps} {St : Type} (O : options N) (f : objective N St) progress fuel lsfuel st x0 :
  0 < o_max_iterations O -> o_max_iterations O <= Z.of_nat fuel -> o_max_linesearch O <= Z.of_nat lsfuel ->
  fmin_lbfgs O f progress fuel lsfuel st x0 <> None.
Proof.
  intros Hk Hf Hl. unfold fmin_lbfgs. destruct (negb _); [discriminate|]. destruct (line_search_algo _) as [alg|]; [|discriminate].
  unfold minimize, lbfgs. destruct (check_params _ _) as [code|[b e]] eqn:Ec; [discriminate|]. apply check_ok in Ec.
  destruct (p_m _ <? 0); [discriminate|]. cbv zeta. destruct (converged _ _ _); [discriminate|].
  pose proof (ck_ls _ _ _ _ Ec) as HM. cbn in HM.
  destruct (main_loop (to_params O alg) f progress fuel lsfuel b e (init_state (to_params O alg) f b e st x0)) as [en|] eqn:E;
    [destruct en; discriminate|].
  exfalso. revert E. apply main_loop_total; cbn [to_params p_max_linesearch p_max_iterations init_state l_k]; cbv zeta; try lia.
  all: cbn [l_k]; lia.
Qed.
