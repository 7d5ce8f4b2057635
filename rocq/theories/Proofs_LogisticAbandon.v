(** The run with the callback zero_coef against the run without it (C55). *)
From Coq Require Import ZArith List Bool Arith Lia.
From Verif Require Import Prelude Num Model_Lbfgs Model_LogisticFit Spec_Lbfgs Spec_LogisticFit Proofs_Lbfgs Proofs_LbfgsTrace.
Import ListNotations.

Section Log.
  Context {N : NumOps}.
  Variable k : nat.

  Definition zr (q : report N) : bool := all_zero (firstn (length (r_x q) - k) (r_x q)).
  Definition tick (s : nat * bool) (q : report N) : nat * bool :=
    let n := if zr q then S (fst s) else O in (n, snd s || Nat.ltb 1 n).
  Definition scan (log : list (report N)) : nat * bool := fold_left tick log (O, false).
  Definition seen (log : list (report N)) : nat := fst (scan log).
  Definition ever (log : list (report N)) : bool := snd (scan log).

  Lemma nth_error_prefix {A} (l : list A) m i : (i < m)%nat -> (i < length l)%nat -> nth_error (firstn m l) i = nth_error l i.
  Proof.
    intros H L. rewrite <- (firstn_skipn m l) at 2. symmetry. apply nth_error_app1. rewrite firstn_length. lia.
  Qed.
  Lemma zr_spec q : zr q = true <-> only_last k q.
  Proof.
    unfold zr, all_zero, only_last. rewrite forallb_forall. split.
    - intros H i v Hi Hv. apply H. apply nth_error_In with (n := i). rewrite nth_error_prefix by lia. exact Hv.
    - intros H v Hv. apply In_nth_error in Hv. destruct Hv as [i Hi].
      assert (L : (i < length (firstn (length (r_x q) - k) (r_x q)))%nat) by (apply nth_error_Some; rewrite Hi; discriminate).
      rewrite firstn_length in L. apply (H i v); [lia|]. rewrite nth_error_prefix in Hi by lia. exact Hi.
  Qed.

  Lemma scan_snoc log q : scan (log ++ [q]) = tick (scan log) q.
  Proof. unfold scan. now rewrite fold_left_app. Qed.

  Lemma seen_snoc log q : seen (log ++ [q]) = if zr q then S (seen log) else O.
  Proof. unfold seen. rewrite scan_snoc. reflexivity. Qed.
  Lemma ever_snoc log q : ever (log ++ [q]) = ever log || Nat.ltb 1 (seen (log ++ [q])).
  Proof. unfold ever, seen. rewrite scan_snoc. reflexivity. Qed.
  Lemma ever_app log : forall more, ever log = true -> ever (log ++ more) = true.
  Proof.
    intros more. revert log. induction more as [|q more IH]; intros log H; [now rewrite app_nil_r|].
    change (q :: more) with ([q] ++ more). rewrite app_assoc. apply IH. rewrite ever_snoc, H. reflexivity.
  Qed.

  Lemma seen_last log : (0 < seen log)%nat <-> exists l q, log = l ++ [q] /\ zr q = true.
  Proof.
    destruct log as [|q log _] using rev_ind.
    - split; [cbn; lia|]. intros (l & q & E & _). destruct l; discriminate.
    - rewrite seen_snoc. split.
      + intros H. exists log, q. split; [reflexivity|]. destruct (zr q); [reflexivity|lia].
      + intros (l & q' & E & H). apply app_inj_tail in E. destruct E as [-> ->]. rewrite H. lia.
  Qed.

  Lemma ever_spec log : ever log = true <-> twice_only_last k log.
  Proof.
    induction log as [|q log IH] using rev_ind.
    - split; [discriminate|]. intros ([|i] & q1 & q2 & H & _); discriminate.
    - rewrite ever_snoc, orb_true_iff, IH, Nat.ltb_lt, seen_snoc. split.
      + intros [(i & q1 & q2 & H1 & H2 & H3)|H].
        * exists i, q1, q2.
          assert (S i < length log)%nat by (apply nth_error_Some; rewrite H2; discriminate).
          rewrite !nth_error_app1 by lia. auto.
        * destruct (zr q) eqn:E; [|lia]. assert (H' : (0 < seen log)%nat) by lia.
          apply seen_last in H'. destruct H' as (l & q' & -> & Hq).
          exists (length l), q', q. rewrite <- app_assoc. cbn [app].
          rewrite nth_error_app2 by lia. rewrite Nat.sub_diag. split; [reflexivity|].
          rewrite nth_error_app2 by lia. replace (S (length l) - length l)%nat with 1%nat by lia.
          split; [reflexivity|]. rewrite <- !zr_spec. auto.
      + intros (i & q1 & q2 & H1 & H2 & H3 & H4).
        assert (L : (S i < length (log ++ [q]))%nat) by (apply nth_error_Some; rewrite H2; discriminate).
        rewrite app_length in L. cbn in L.
        destruct (Nat.eq_dec (S i) (length log)) as [E|E].
        * right. rewrite nth_error_app2 in H2 by lia. rewrite E, Nat.sub_diag in H2. injection H2 as ->.
          apply zr_spec in H4. rewrite H4. enough (0 < seen log)%nat by lia. apply seen_last.
          rewrite nth_error_app1 in H1 by lia. apply nth_error_split in H1. destruct H1 as (a & b & -> & Hl).
          rewrite app_length in E. cbn in E. destruct b; [|cbn in E; lia].
          exists a, q1. split; [reflexivity|]. now apply zr_spec.
        * left. exists i, q1, q2. rewrite nth_error_app1 in H1 by lia. rewrite nth_error_app1 in H2 by lia. auto.
  Qed.
End Log.

Section Couple.
  Context {N : NumOps}.
  Variable k : nat.
  Variable P : params N.
  Variable f : objective N unit.
  Let Sg := (unit * list (report N))%type.
  Let fl : objective N Sg := keep_log f.
  Let h0 : observer N Sg := write_log None.
  Let h1 : observer N Sg := fun st q =>
    ((fst st, snd st ++ [q]), if Nat.ltb 1 (seen k (snd st ++ [q])) then Code LBFGS_ALLZERO else NoReply).

  (** What the callback with early stop does after an accepted step. *)
  Lemma after_both b e s (r : search N Sg) : ever k (snd (pt_st (s_pt r))) = false ->
    exists q, (forall en, after_step P (Some h0) b e s r = Exit en -> snd (end_state en) = snd (pt_st (s_pt r)) ++ [q]) /\
      (forall s', after_step P (Some h0) b e s r = Next s' -> snd (pt_st (l_pt s')) = snd (pt_st (s_pt r)) ++ [q]) /\
      if ever k (snd (pt_st (s_pt r)) ++ [q])
      then exists st x, after_step P (Some h1) b e s r = Exit (Done st x LBFGS_ALLZERO)
      else after_step P (Some h1) b e s r = after_step P (Some h0) b e s r.
  Proof.
    intros He. unfold after_step. cbv zeta.
    match goal with |- context [call_progress (Some h0) _ ?q0] => set (q := q0) end.
    exists q. cbn [call_progress]. unfold h0, h1, write_log. cbn [fst snd].
    split; [|split].
    - intros en H. cbn [Z.eqb negb] in H. repeat match type of H with (if ?c then _ else _) = _ => destruct c end;
        try discriminate H; injection H as <-; reflexivity.
    - intros s' H. cbn [Z.eqb negb] in H. repeat match type of H with (if ?c then _ else _) = _ => destruct c end;
        try discriminate H; injection H as <-; reflexivity.
    - rewrite ever_snoc, He. cbn [orb]. destruct (Nat.ltb 1 _); [|reflexivity].
      eexists _, _. reflexivity.
  Qed.

  Lemma main_both fuel lsfuel b e : (0 < p_max_linesearch P)%Z -> forall (s : state N Sg) en,
    ever k (snd (pt_st (l_pt s))) = false ->
    main_loop P fl (Some h0) fuel lsfuel b e s = Some en ->
    if ever k (snd (end_state en))
    then exists st x, main_loop P fl (Some h1) fuel lsfuel b e s = Some (Done st x LBFGS_ALLZERO)
    else main_loop P fl (Some h1) fuel lsfuel b e s = Some en.
  Proof.
    intros HM. induction fuel as [|fuel IH]; intros s en He H; [discriminate|]. cbn [main_loop] in H |- *. unfold iterate in H |- *.
    destruct (run_line_search P fl lsfuel b e s) as [r|] eqn:E; [|discriminate].
    pose proof E as E0. apply search_end in E0; [|exact HM]. destruct E0 as (n & E1 & _). apply evals_log in E1.
    destruct (s_ret r <? 0)%Z.
    { injection H as <-. cbn [end_state]. rewrite E1, He. reflexivity. }
    rewrite <- E1 in He. destruct (after_both b e s r He) as (q & A1 & A2 & A3).
    destruct (after_step P (Some h0) b e s r) as [s'|en'] eqn:Ea.
    - specialize (A2 s' eq_refl). destruct (ever k (snd (pt_st (s_pt r)) ++ [q])) eqn:Eq.
      + assert (Ee : ever k (snd (end_state en)) = true).
        { apply main_loop_run in H. destruct H as [l H]. apply run_log in H; [|exact HM]. destruct H as (reps & H & _).
          unfold Sg in *. rewrite H. rewrite A2. now apply ever_app. }
        rewrite Ee. destruct A3 as (st & x & A3). exists st, x. rewrite A3. reflexivity.
      + rewrite A3. apply IH; [rewrite A2; exact Eq|exact H].
    - injection H as ->. specialize (A1 en eq_refl). rewrite A1. destruct (ever k (snd (pt_st (s_pt r)) ++ [q])).
      + destruct A3 as (st & x & A3). exists st, x. rewrite A3. reflexivity.
      + rewrite A3. reflexivity.
  Qed.

  (** Without a callback no search and no test produces the code for abandoning. *)
  Lemma search_code fuel b e (s : state N Sg) r : (0 < p_max_linesearch P)%Z -> run_line_search P fl fuel b e s = Some r ->
    s_ret r <> LBFGS_ALLZERO.
  Proof.
    intros HM H. unfold run_line_search in H.
    assert (Bad : forall c, c <> LBFGS_ALLZERO -> Some (mkSearch (l_pt s) (l_step s) c) = Some r -> s_ret r <> LBFGS_ALLZERO).
    { intros c Hc [= <-]. exact Hc. }
    assert (Bt : line_search_backtracking P fl fuel (l_pt s) (l_d s) (l_step s) = Some r -> s_ret r <> LBFGS_ALLZERO).
    { unfold line_search_backtracking. destruct (nleb (l_step s) nzero); [apply Bad; discriminate|].
      cbv zeta. destruct (nltb nzero _); [apply Bad; discriminate|].
      intros B. apply bt_loop_end in B; [|lia]. unfold LBFGS_ALLZERO. destruct B as (_ & [(B & _)|[->|[->| ->]]]); [lia|discriminate..]. }
    destruct (owl P).
    - unfold line_search_owlqn in H. destruct (nleb (l_step s) nzero); [revert H; apply Bad; discriminate|].
      cbv zeta in H. apply owl_loop_end in H; [|lia]. unfold LBFGS_ALLZERO. destruct H as (_ & [(H & _)|[->|[->| ->]]]); [lia|discriminate..].
    - destruct (p_linesearch P); try exact (Bt H).
      unfold line_search_morethuente in H. destruct (nleb (l_step s) nzero); [revert H; apply Bad; discriminate|].
      cbv zeta in H. destruct (nltb nzero _); [revert H; apply Bad; discriminate|].
      apply mt_loop_end in H; [|cbn; lia]. cbn [mt_count] in H. unfold LBFGS_ALLZERO.
      destruct H as (_ & [(H & _)|H]); [lia|]. destruct H as [->|[->|[->|[->| ->]]]]; discriminate.
  Qed.

  Lemma main_code fuel lsfuel b e : (0 < p_max_linesearch P)%Z -> forall (s : state N Sg) st x,
    main_loop P fl (Some h0) fuel lsfuel b e s <> Some (Done st x LBFGS_ALLZERO).
  Proof.
    intros HM. induction fuel as [|fuel IH]; intros s st x; [discriminate|]. cbn [main_loop]. unfold iterate.
    destruct (run_line_search P fl lsfuel b e s) as [r|] eqn:E; [|discriminate].
    destruct (s_ret r <? 0)%Z.
    { intros [= _ _ C]. exact (search_code lsfuel b e s r HM E C). }
    unfold after_step. cbv zeta. cbn [call_progress]. unfold h0, write_log. cbn [fst snd Z.eqb negb].
    repeat match goal with |- context [if ?c then Exit _ else _] => destruct c; [discriminate|] end. apply IH.
  Qed.

  Lemma minimize_both fuel lsfuel x0 st log out :
    minimize P fl (Some h0) fuel lsfuel (tt, []) x0 = Some (st, log, out) ->
    out <> Raises AllZeroLBFGSError /\
    exists st', minimize P fl (Some h1) fuel lsfuel (tt, []) x0 =
      Some (st', if ever k log then Raises AllZeroLBFGSError else out).
  Proof.
    unfold minimize, lbfgs. intros H.
    assert (Cd : forall (x : list N) c, c <> LBFGS_ALLZERO -> conclude x c <> Raises AllZeroLBFGSError).
    { intros x c Hc. unfold conclude. destruct (Z.eqb_spec c LBFGS_ALLZERO); [contradiction|].
      repeat match goal with |- context [if ?c then _ else _] => destruct c; [discriminate|] end. discriminate. }
    destruct (check_params P (Z.of_nat (length x0))) as [code|[b e]] eqn:Ec.
    { injection H as <- <- <-. split; [|eexists; reflexivity]. apply Cd. clear - Ec. unfold check_params in Ec.
      repeat match type of Ec with (if ?c then inl _ else _) = _ => destruct c; [injection Ec as <-; discriminate|] end.
      discriminate. }
    apply check_ok in Ec. pose proof (ck_ls _ _ _ _ Ec) as HM.
    destruct (p_m P <? 0)%Z. { injection H as <- <- <-. split; [|eexists; reflexivity]. apply Cd. discriminate. }
    cbv zeta in H |- *. destruct (converged P _ _).
    { injection H; clear H; intros; subst. split; [|eexists; reflexivity]. apply Cd. discriminate. }
    set (s := init_state P fl b e (tt, []) x0) in *.
    destruct (main_loop P fl (Some h0) fuel lsfuel b e s) as [en|] eqn:El; [|discriminate].
    pose proof (main_both fuel lsfuel b e HM s en eq_refl El) as Hb.
    assert (Hl : snd (end_state en) = log) by (destruct en; injection H as H _; cbn; rewrite H; reflexivity).
    rewrite Hl in Hb. split.
    - destruct en as [st1 x c|st1]; injection H as _ <-; [|discriminate]. apply Cd. intros ->.
      exact (main_code fuel lsfuel b e HM s st1 x El).
    - destruct (ever k log).
      + destruct Hb as (st1 & x & ->). exists st1. reflexivity.
      + rewrite Hb. destruct en; injection H as H <-; eexists; reflexivity.
  Qed.
End Couple.

Lemma solve_both {N : NumOps} k size (C tol : N) max_iter f fuel lsfuel w0 log out :
  recorded (l1_options C tol max_iter size) (stateless f) None fuel lsfuel tt w0 = Some (tt, log, out) ->
  l1_solve k size C tol max_iter (stateless f) fuel lsfuel w0 =
    Some (if ever k log then Returned (map (fun v => nmul v nzero) w0) None else out).
Proof.
  intros H. unfold l1_solve. set (O := l1_options C tol max_iter size) in *.
  set (phi := fun st : unit * list (report N) => seen k (snd st)).
  set (h1 := fun (st : unit * list (report N)) q =>
    ((fst st, snd st ++ [q]), if Nat.ltb 1 (seen k (snd st ++ [q])) then Code LBFGS_ALLZERO else NoReply)).
  assert (E : fmin_lbfgs O (stateless f) (Some (zero_coef k)) fuel lsfuel 0%nat w0 =
    option_map (fun r => (phi (fst r), snd r)) (fmin_lbfgs O (keep_log (stateless f)) (Some h1) fuel lsfuel (tt, []) w0)).
  { apply (sim_fmin O phi (keep_log (stateless f)) (stateless f) (Some h1) (Some (zero_coef k)) fuel lsfuel (tt, []) w0).
    - intros. split; reflexivity.
    - intros st q. cbn [call_progress]. unfold h1, zero_coef, phi. cbn [fst snd]. rewrite seen_snoc. split; reflexivity. }
  rewrite E. clear E. unfold recorded, fmin_lbfgs in *.
  destruct (negb _). { injection H as <- <-. reflexivity. }
  destruct (line_search_algo _) as [alg|]; [|injection H as <- <-; reflexivity].
  destruct (minimize_both k _ _ _ _ _ _ _ _ H) as (Ho & st' & E). 
  match goal with |- context [option_map _ ?m] =>
    assert (E' : m = Some (st', if ever k log then Raises AllZeroLBFGSError else out)) by exact E; rewrite E' end.
  cbn [option_map fst snd].
  destruct (ever k log); [reflexivity|]. destruct out as [x w|ex|]; try reflexivity. destruct ex; try reflexivity. contradiction.
Qed.

Lemma solve_abandons {N : NumOps} k size (C tol : N) max_iter f fuel lsfuel w0 log out :
  recorded (l1_options C tol max_iter size) (stateless f) None fuel lsfuel tt w0 = Some (tt, log, out) ->
  (twice_only_last k log -> l1_solve k size C tol max_iter (stateless f) fuel lsfuel w0 = Some (Returned (map (fun v => nmul v nzero) w0) None)) /\
  (~ twice_only_last k log -> l1_solve k size C tol max_iter (stateless f) fuel lsfuel w0 = Some out).
Proof.
  intros H. rewrite (solve_both k _ _ _ _ _ _ _ _ _ _ H). rewrite <- ever_spec. destruct (ever k log).
  - split; [reflexivity|]. intros C'. contradiction C'. reflexivity.
  - split; [discriminate|reflexivity].
Qed.
