(** Distributed and failing fits: proofs for C04, C16-C20, C25 and C27. *)
From Coq Require Import ZArith List Bool Arith Lia.
From Verif Require Import Prelude F64 F64Order Model_Intersection Spec_Intersection Proofs_Intersection
  Model_Mpi Spec_Mpi Proofs_MpiSem Proofs_Mpi Model_Fit Spec_Fit Proofs_FitMpi Proofs_FitRuns
  Proofs_FitSerial Proofs_Fit Proofs_FitProps.
Import ListNotations.

Section Dist.
  Context {S E Rng : Type}.
  Variable env : np_env.
  Variable d : dims.
  Variable sol : nat -> solver S E.
  Variable draw : bool -> Rng -> result (split * Rng).
  Variable post : nd -> nd -> result (nd * nd).
  Hypothesis Hnb : 1 <= n_boots_sel d.
  Hypothesis Hshape : forall i, shapes_ok d (sol i).

  Lemma outcome_runs n (Hn : 1 < n) (R : nat -> Rng) s0 i F :
    outcome d sol draw post n R s0 i = Some (Ok F) ->
    runs n (fit_at env d sol draw post n R s0) (fun _ => Ok F).
  Proof.
    intro H.
    apply (runs_ext n
      (fun i => let! x := draw_boots env draw n i true (sel_keys d n i) 0 (n_boots_sel d) (R i) in
       let! rows := lift (rmap snd (sel_loop d (sol i) n (fst x) (sel_tasks d n i) None (s0 i))) in
       let! sup := sup_block env d n i rows in
       est_part env d sol draw post n i sup (snd x)) _ (fun _ => Ok F)); [reflexivity|reflexivity|].
    unfold outcome in H.
    destruct (draw_list draw true (n_boots_sel d) (R 0)) as [[sps r1]|e] eqn:Ed.
    2: { unfold at_rank in H. destruct (i =? 0); discriminate. }
    eapply runs_bind; [exact (draw_boots_runs env draw n Hn true (sel_keys d n) _ 0 R sps r1 Ed)|].
    destruct (all_ok n (sel_result d sol n s0 sps)) eqn:Es.
    2: { unfold failing in H. destruct (sel_result d sol n s0 sps i); discriminate. }
    pose proof (all_ok_true n Hn _ [] Es) as Hs.
    set (rows := fun i => ok_or [] (sel_result d sol n s0 sps i)) in *.
    assert (Hr : forall i, i < n -> length (rows i) = length (sel_tasks d n i) /\
                        Forall (fun r => length r = row_width d n) (rows i)).
    { intros j Hj. apply (sel_result_rows d sol n s0 Hshape sps j). now apply Hs. }
    apply runs_bind with (a := rows).
    { apply runs_ext with (ps := fun i => lift (sel_result d sol n s0 sps i))
        (o := sel_result d sol n s0 sps); [reflexivity|exact Hs|apply runs_lift]. }
    destruct (intersect d (coefs_of d (gathered n rows))) as [sup|e] eqn:Ei.
    2: { unfold at_rank in H. destruct (i =? 0); discriminate. }
    eapply runs_bind; [exact (sup_block_ok env d n Hn rows sup Hr Ei)|].
    unfold est_part.
    destruct (n_supports sup) as [ns|e] eqn:Ens; [|discriminate].
    apply runs_bind with (a := fun _ => ns); [apply runs_lift|].
    destruct (draw_list draw false (n_boots_est d) r1) as [[sps2 r2]|e] eqn:Ed2.
    2: { unfold at_rank in H. destruct (i =? 0); discriminate. }
    eapply runs_bind.
    { apply (draw_boots_runs env draw n Hn false (est_keys d n ns) _ 0 (fun i => at_rank i r1 (R i)) sps2 r2).
      exact Ed2. }
    destruct (all_ok n (est_result d sol n sup ns sps2)) eqn:Ee.
    2: { unfold failing in H. destruct (est_result d sol n sup ns sps2 i); discriminate. }
    pose proof (all_ok_true n Hn _ [] Ee) as Hs2.
    set (outs := fun i => ok_or [] (est_result d sol n sup ns sps2 i)) in *.
    assert (Ho : forall i, i < n -> length (outs i) = length (est_tasks d n i ns) /\
       Forall (fun r => length r = n_coef d) (map fst (outs i))).
    { intros j Hj. apply (est_result_rows d sol n sup ns sps2). now apply Hs2. }
    apply runs_bind with (a := outs).
    { apply runs_ext with (ps := fun i => lift (est_result d sol n sup ns sps2 i))
        (o := est_result d sol n sup ns sps2); [reflexivity|exact Hs2|apply runs_lift]. }
    cbv zeta in H.
    destruct (finish d (sol 0) ns (all_estimates n outs) (all_scores n outs)) as [x|e] eqn:Ef.
    2: { unfold at_rank in H. destruct (i =? 0); discriminate. }
    eapply runs_bind; [exact (z_block_ok env d sol n Hn Hshape outs ns x Ho Ef)|].
    injection H as HF. unfold package in HF. destruct x as [[[[a b] c] dd] f].
    apply RunDone. intros j Hj. unfold lift.
    destruct (post dd f); simpl in *; congruence.
  Qed.

  Lemma serial_runs (R : nat -> Rng) s0 :
    runs 1 (fun i => fit env d (sol i) draw post 1 i false (R i) (s0 i))
      (fun _ => serial_result d (sol 0) draw post (R 0) (s0 0)).
  Proof.
    apply RunDone. intros j Hj. assert (j = 0) by lia. subst j. unfold fit. now apply serial_eq.
  Qed.

  (** ** C16, C17: if one rank returns in one execution, then every execution of the
      program ends with all ranks returning the same. *)
  Theorem one_return_decides n R s0 F : returned env d sol draw post n false R s0 F ->
    every_execution_ends n (fun i => fit env d (sol i) draw post n i false (R i) (s0 i)) (fun _ => Ok F).
  Proof.
    intros (wait & m & cf & i & Hi & Hs & Hp). apply runs_async.
    destruct (Nat.eq_dec n 1) as [->|Hn1].
    - pose proof (serial_runs R s0) as Hr.
      destruct (runs_async _ _ _ Hr) as (_ & _ & H3).
      pose proof (H3 wait m cf Hs i _ Hi Hp) as Ho. rewrite Ho. exact Hr.
    - assert (Hn : 1 < n) by lia.
      pose proof (hruns_async _ _ _ (fit_outcome env d sol draw post n Hn R s0 Hshape)) as (_ & H2 & _).
      exact (outcome_runs n Hn R s0 i F (H2 wait m cf Hs i _ Hi Hp)).
  Qed.

  (** ** C16: either every execution ends with all ranks returning the same, or some
      rank raises. *)
  Lemma outcome_dichotomy n (R : nat -> Rng) s0 : 1 < n ->
    (exists F, forall i, outcome d sol draw post n R s0 i = Some (Ok F)) \/
    (exists i e, i < n /\ outcome d sol draw post n R s0 i = Some (Raise e)).
  Proof.
    intro Hn. unfold outcome.
    assert (Hat : forall e : exn, exists i e', i < n /\
              at_rank i (Some (Raise e)) None = Some (Raise (A := fitted) e')).
    { intro e. exists 0, e. split; [lia|reflexivity]. }
    destruct (draw_list draw true (n_boots_sel d) (R 0)) as [[sps r1]|e]; [|right; apply Hat].
    destruct (all_ok n (sel_result d sol n s0 sps)) eqn:Es.
    2: { right. apply all_ok_false in Es as (i & e & Hi & He); [|assumption].
         exists i, e. split; [exact Hi|]. rewrite He. reflexivity. }
    destruct (intersect d _) as [sup|e]; [|right; apply Hat].
    destruct (n_supports sup) as [ns|e]; [|right; exists 0, e; split; [lia|reflexivity]].
    destruct (draw_list draw false (n_boots_est d) r1) as [[sps2 r2]|e]; [|right; apply Hat].
    destruct (all_ok n (est_result d sol n sup ns sps2)) eqn:Ee.
    2: { right. apply all_ok_false in Ee as (i & e & Hi & He); [|assumption].
         exists i, e. split; [exact Hi|]. rewrite He. reflexivity. }
    cbv zeta. destruct (finish d _ _ _ _) as [x|e]; [|right; apply Hat].
    destruct (package post sup x) as [F|e]; [left; exists F; reflexivity|right; exists 0, e; split; [lia|reflexivity]].
  Qed.

  Theorem ends_or_raises n R s0 : 1 <= n ->
    (exists F, every_execution_ends n
       (fun i => fit env d (sol i) draw post n i false (R i) (s0 i)) (fun _ => Ok F)) \/
    (exists out i e, i < n /\ out i = Some (Raise e) /\
       every_execution_reaches n
         (fun i => fit env d (sol i) draw post n i false (R i) (s0 i)) out).
  Proof.
    intro Hn. destruct (Nat.eq_dec n 1) as [->|Hn1].
    - pose proof (serial_runs R s0) as Hr.
      destruct (serial_result d (sol 0) draw post (R 0) (s0 0)) as [F|e] eqn:Es.
      + left. exists F. now apply runs_async.
      + right. exists (fun _ => Some (Raise e)), 0, e. split; [lia|]. split; [reflexivity|].
        apply hruns_async. apply HEnd; [|discriminate].
        intros i Hi _. assert (i = 0) by lia. subst i. exists (Raise e). split; [|reflexivity].
        unfold fit. rewrite serial_eq by auto. now rewrite Es.
    - assert (H1 : 1 < n) by lia. destruct (outcome_dichotomy n R s0 H1) as [(F & HF)|(i & e & Hi & He)].
      + left. exists F. apply runs_async. exact (outcome_runs n H1 R s0 0 F (HF 0)).
      + right. exists (outcome d sol draw post n R s0), i, e. split; [exact Hi|]. split; [exact He|].
        exact (hruns_async _ _ _ (fit_outcome env d sol draw post n H1 R s0 Hshape)).
  Qed.

  (** ** C20: a rank that raises *)
  Theorem raise_blocks n R s0 :
    forall wait m cf i e, i < n ->
    steps n wait m (start (fun i => fit env d (sol i) draw post n i false (R i) (s0 i))) cf ->
    prog cf i = Done (Raise e) -> forall F, ~ returned env d sol draw post n false R s0 F.
  Proof.
    intros wait m cf i e Hi Hs Hp F HF.
    destruct (one_return_decides _ _ _ _ HF) as (_ & _ & H3).
    pose proof (H3 wait m cf Hs i _ Hi Hp). discriminate.
  Qed.

  (** The ranks other than 0 that do not raise themselves never return. *)
  Lemma sel_loop_raises n i boots t ts s e :
    (forall s regs tr, sweep (sol i) s regs tr = Raise e) ->
    is_ok (lookup (sel_boot d n t) boots) = true ->
    sel_loop d (sol i) n boots (t :: ts) None s = Raise e.
  Proof.
    intros Hsw Hl. cbn [sel_loop]. destruct (lookup (sel_boot d n t) boots); [|discriminate].
    cbn [bind]. rewrite Hsw. reflexivity.
  Qed.
  Lemma sel_loop_fine n i boots :
    (forall s regs tr, is_ok (sweep (sol i) s regs tr) = true) -> n_coef d <> 1 ->
    forall tasks, (forall t, In t tasks -> is_ok (lookup (sel_boot d n t) boots) = true) ->
    forall curr s, is_ok (sel_loop d (sol i) n boots tasks curr s) = true.
  Proof.
    intros Hsw Hnc. induction tasks as [|t ts IH]; intros Hl curr s; [reflexivity|].
    cbn [sel_loop]. pose proof (Hl t (or_introl eq_refl)) as Ht.
    destruct (lookup (sel_boot d n t) boots) as [sp|]; [|discriminate]. cbn [bind].
    match goal with |- context [sweep (sol i) ?s1 ?r ?tr] => specialize (Hsw s1 r tr);
      destruct (sweep (sol i) s1 r tr) as [[s' rows]|] end; [|discriminate].
    cbn [bind fst snd]. unfold store_sweep.
    assert (En : (n_coef d =? 1) = false) by now apply Nat.eqb_neq.
    rewrite En, andb_false_r. simpl. cbn [bind].
    assert (H0 : forall t, In t ts -> is_ok (lookup (sel_boot d n t) boots) = true) by (intros; apply Hl; now right).
    specialize (IH H0 (Some (sel_boot d n t)) s').
    destruct (sel_loop d (sol i) n boots ts (Some (sel_boot d n t)) s'); [reflexivity|discriminate].
  Qed.

  Lemma draws_ok : (forall sel r, is_ok (draw sel r) = true) -> forall sel k r,
    exists sps r', draw_list draw sel k r = Ok (sps, r') /\ length sps = k.
  Proof.
    intros Hd sel k. induction k as [|k IH]; intro r; simpl; [eauto|].
    specialize (Hd sel r). destruct (draw sel r) as [[sp r1]|]; [|discriminate]. cbn [bind snd].
    destruct (IH r1) as (sps & r' & E' & Hl). rewrite E'. cbn [bind]. eexists _, _. split; [reflexivity|].
    simpl. now rewrite Hl.
  Qed.

  Lemma sel_task_boot n i t : 1 <= n -> i < n -> In t (sel_tasks d n i) ->
    sel_boot d n t < n_boots_sel d.
  Proof.
    intros Hn Hi Ht. unfold sel_tasks, sel_boot in *. destruct (many d n).
    - apply (in_split_lt d Hnb) in Ht; [|assumption].
      apply Nat.div_lt_upper_bound; [intro Z; rewrite Z in Ht; lia|lia].
    - apply (in_split_lt d Hnb) in Ht; assumption.
  Qed.

  Theorem one_rank_raises n R s0 r e : 1 < n -> r < n -> sel_tasks d n r <> [] ->
    n_coef d <> 1 -> (forall sel rr, is_ok (draw sel rr) = true) ->
    (forall s regs tr, sweep (sol r) s regs tr = Raise e) ->
    (forall i, i < n -> i <> r -> forall s regs tr, is_ok (sweep (sol i) s regs tr) = true) ->
    every_execution_reaches n (fun i => fit env d (sol i) draw post n i false (R i) (s0 i))
      (fun i => if i =? r then Some (Raise e) else None).
  Proof.
    intros Hn Hr Ht Hnc Hd Hbad Hgood.
    pose proof (fit_outcome env d sol draw post n Hn R s0 Hshape) as Ho.
    apply hruns_async. eapply hruns_ext; [| | |exact Ho]; [reflexivity|reflexivity|].
    intros i Hi. cbv beta. unfold outcome.
    destruct (draws_ok Hd true (n_boots_sel d) (R 0)) as (sps & r1 & Ed & Hl). rewrite Ed.
    assert (Hlk : forall j t, j < n -> In t (sel_tasks d n j) ->
              is_ok (lookup (sel_boot d n t) (own (sel_keys d n j) (numbered 0 sps))) = true).
    { intros j t Hj Hin. rewrite lookup_own by (apply in_map; exact Hin).
      rewrite lookup_numbered; [reflexivity|]. pose proof (sel_task_boot n j t ltac:(lia) Hj Hin). lia. }
    assert (Er : sel_result d sol n s0 sps r = Raise e).
    { unfold sel_result. pose proof (Hlk r) as Hlr. destruct (sel_tasks d n r) as [|t ts] eqn:Et; [congruence|].
      rewrite sel_loop_raises with (e := e); auto. apply Hlr; [exact Hr|now left]. }
    destruct (all_ok n (sel_result d sol n s0 sps)) eqn:Ea.
    { pose proof (all_ok_true n Hn _ [] Ea r Hr). congruence. }
    destruct (i =? r) eqn:Eir.
    - apply Nat.eqb_eq in Eir. subst i. rewrite Er. reflexivity.
    - apply Nat.eqb_neq in Eir. unfold sel_result, failing.
      pose proof (sel_loop_fine n i (own (sel_keys d n i) (numbered 0 sps)) (Hgood i Hi Eir) Hnc
                    (sel_tasks d n i) (fun t => Hlk i t Hi) None (s0 i)) as Hok.
      destruct (sel_loop d (sol i) n _ _ None (s0 i)); [reflexivity|discriminate].
  Qed.

  (** ** C04: no thresholds *)
  Lemma empty_intersection_ok c e : intersection c (Some []) <> Raise e.
  Proof.
    unfold intersection, all_support_rows. simpl. unfold squeeze2. simpl.
    destruct (c_feat c =? 1); discriminate.
  Qed.
  Lemma no_thresholds c sup : thresholds d = [] -> intersect d c = Ok sup -> n_supports sup = Ok 0.
  Proof.
    intros Ht H. unfold intersect in H. rewrite Ht in H.
    assert (Hx : forall a, intersection c (Some []) = Ok a -> n_supports a = Ok 0 /\ flat a = []).
    { unfold intersection, all_support_rows. simpl. unfold squeeze2. simpl.
      intros a. destruct (c_feat c =? 1); intro G; injection G as <-; auto. }
    destruct (glm d).
    - unfold glm_intersect in H. destruct (intersection c (Some [])) as [a|] eqn:Ea; cbn [bind] in H; [|discriminate].
      destruct (Hx a eq_refl) as [Hx1 Hx2]. destruct (_ && _); [|congruence].
      unfold union_over_classes in H. rewrite Hx2 in H. destruct (_ =? 0) eqn:E0; [discriminate|].
      apply Nat.eqb_neq in E0.
      cbn [length] in H. rewrite Nat.mod_0_l, Nat.div_0_l in H by exact E0. simpl in H.
      injection H as <-. reflexivity.
    - unfold linear_intersect in H. now destruct (Hx sup H).
  Qed.

  Theorem no_thresholds_no_fit n R s0 F : thresholds d = [] -> 1 <= n_boots_est d ->
    ~ returned env d sol draw post n false R s0 F.
  Proof.
    intros Ht Hbe H. destruct (returned_step _ _ _ _ _ Hnb Hshape _ _ _ _ H)
      as (sel & ns & coef & ic & _ & _ & _ & _ & H4 & _ & _ & _ & _ & sps & r1 & c & sps2 & r2 & _ & _ & _ & _ & Hi & Hns & _).
    rewrite (no_thresholds _ _ Ht Hi) in Hns. injection Hns as <-.
    specialize (H4 0 ltac:(lia)). discriminate.
  Qed.

  Theorem no_thresholds_serial rng s : thresholds d = [] -> 1 <= n_boots_est d -> n_coef d <> 1 ->
    (forall sel rr, is_ok (draw sel rr) = true) ->
    (forall s regs tr, is_ok (sweep (sol 0) s regs tr) = true) ->
    fit env d (sol 0) draw post 1 0 false rng s = Done (Raise ValueError).
  Proof.
    intros Ht Hbe Hnc Hd Hsw. unfold fit. rewrite serial_eq by auto. unfold serial_result. f_equal.
    destruct (draws_ok Hd true (n_boots_sel d) rng) as (sps & r1 & Ed & Hl). rewrite Ed. cbn [bind fst snd].
    assert (Hok : is_ok (sel_loop d (sol 0) 1 (numbered 0 sps) (seq 0 (n_boots_sel d)) None s) = true).
    { apply sel_loop_fine; auto. intros t Hin. apply in_seq in Hin.
      unfold sel_boot. rewrite many_1 by assumption. rewrite lookup_numbered by lia. reflexivity. }
    destruct (sel_loop _ _ _ _ _ _ _) as [x|]; [|discriminate]. cbn [bind rmap].
    destruct (intersect d (coefs_of d (concat (snd x)))) as [sup|e] eqn:Ei.
    - cbn [bind]. rewrite (no_thresholds _ _ Ht Ei). cbn [bind].
      destruct (draws_ok Hd false (n_boots_est d) r1) as (sps2 & r2 & Ed2 & _). rewrite Ed2.
      cbn [bind fst snd]. rewrite Nat.mul_0_r. cbn [seq mapM bind map concat].
      unfold finish. destruct (n_boots_est d); [lia|]. reflexivity.
    - cbn [bind]. f_equal. unfold intersect in Ei. rewrite Ht in Ei. destruct (glm d).
      + unfold glm_intersect in Ei. destruct (intersection _ _) as [a|] eqn:Ea.
        * cbn [bind] in Ei. destruct (_ && _); [|discriminate].
          unfold union_over_classes in Ei. destruct (_ =? 0); [congruence|]. destruct (negb _); congruence.
        * exfalso. revert Ea. apply empty_intersection_ok.
      + exfalso. revert Ei. apply empty_intersection_ok.
  Qed.

  (** ** C25: a constant response *)
  Theorem constant_response n i rng s ic c' ic' :
    fit_int (sol i) (repeat fzero (n_coef d)) = Ok ic ->
    post (nd_of_floats [out_dim d; n_feat d] (repeat fzero (n_coef d))) ic = Ok (c', ic') ->
    fit env d (sol i) draw post n i true rng s = Done (Ok (mkFitted None c' ic')) /\
    (keeps_zeros post -> forall k, nonzero64 (num (nth k (nd_data c') (SFlt fzero))) = false).
  Proof.
    intros H1 H2. split.
    - unfold fit, fit_constant. rewrite H1. cbn [lift pbind]. rewrite H2. reflexivity.
    - intros Hk k. apply (Hk _ _ _ _ k H2). unfold nd_of_floats. cbn [nd_data].
      rewrite (map_nth SFlt).
      destruct (Nat.lt_ge_cases k (n_coef d)) as [Hlt|Hge].
      + rewrite nth_repeat. reflexivity.
      + rewrite nth_overflow by (now rewrite repeat_length). reflexivity.
  Qed.
End Dist.

Section Same.
  Context {S E Rng : Type}.
  Variable env : np_env.
  Variable d : dims.
  Variable sol : solver S E.
  Variable draw : bool -> Rng -> result (split * Rng).
  Variable post : nd -> nd -> result (nd * nd).
  Hypothesis Hnb : 1 <= n_boots_sel d.
  Hypothesis Hshape : shapes_ok d sol.
  Variable Inv : S -> Prop.
  Hypothesis Hinv : preserved sol Inv.

  (** The serial result does not depend on the solver's state before the call. *)
  Lemma serial_start G rng s s' : from_reset d sol Inv G -> Inv s -> Inv s' ->
    serial_result d sol draw post rng s = serial_result d sol draw post rng s'.
  Proof.
    intros HG Hs Hs'. unfold serial_result.
    destruct (draw_list draw true (n_boots_sel d) rng) as [x|]; [|reflexivity]. cbn [bind].
    destruct Hinv as [I1 I2].
    rewrite !(sel_loop_few d sol Inv I1 I2 G 1 _ (many_1 d Hnb) HG (n_boots_sel d) 0 None) by auto.
    reflexivity.
  Qed.

  (** ** C18 *)
  Theorem dist_few n R s0 s F G : 1 <= n -> n <= n_boots_sel d -> from_reset d sol Inv G ->
    (forall i, Inv (s0 i)) -> Inv s ->
    fit env d sol draw post 1 0 false (R 0) s = Done (Ok F) ->
    every_execution_ends n (fun i => fit env d sol draw post n i false (R i) (s0 i)) (fun _ => Ok F).
  Proof.
    intros Hn Hle HG Hs0 Hs HF. unfold fit in HF. rewrite serial_eq in HF by auto. injection HF as HF.
    apply runs_async. destruct (Nat.eq_dec n 1) as [->|Hn1].
    - pose proof (serial_runs env d (fun _ => sol) draw post Hnb (fun _ => Hshape) R s0) as Hr.
      rewrite (serial_start G _ (s0 0) s), HF in Hr; auto.
    - eapply (outcome_runs env d (fun _ => sol) draw post (fun _ => Hshape) n ltac:(lia) R s0 0).
      destruct Hinv. eapply few_ranks; eauto. lia.
  Qed.

  Theorem dist_any n R s0 s F f : 1 <= n -> state_independent sol Inv f ->
    (forall i, Inv (s0 i)) -> Inv s ->
    fit env d sol draw post 1 0 false (R 0) s = Done (Ok F) ->
    every_execution_ends n (fun i => fit env d sol draw post n i false (R i) (s0 i)) (fun _ => Ok F).
  Proof.
    intros Hn HG Hs0 Hs HF.
    destruct (Nat.le_gt_cases n (n_boots_sel d)) as [Hle|Hgt].
    - apply dist_few with (s := s) (G := fun tr => mapM (fun r => f r tr) (seq 0 (n_reg d))); auto.
      intros s1 tr Hs1. apply HG. now apply Hinv.
    - unfold fit in HF. rewrite serial_eq in HF by auto. injection HF as HF.
      apply runs_async.
      eapply (outcome_runs env d (fun _ => sol) draw post (fun _ => Hshape) n ltac:(lia) R s0 0).
      destruct Hinv. eapply any_ranks; eauto. lia.
  Qed.

  (** ** C27 *)
  Theorem boots_independent n R s0 F G : 1 <= n -> n <= n_boots_sel d -> from_reset d sol Inv G ->
    (forall i, Inv (s0 i)) ->
    returned env d (fun _ => sol) draw post n false R s0 F ->
    exists sel sps r1 c, f_sel F = Some sel /\
      drawn draw true (R 0) sps r1 /\ length sps = n_boots_sel d /\
      intersect d c = Ok (s_supports sel) /\ length (c_data c) = n_boots_sel d /\
      c_reg c = n_reg d /\ c_feat c = n_coef d /\
      forall b, b < n_boots_sel d ->
        G (fst (nth b sps ([], []))) = Ok (nth b (c_data c) []).
  Proof.
    intros Hn Hle HG Hs0 H.
    assert (Hm : many d n = false) by (unfold many; apply Nat.ltb_ge; exact Hle).
    set (Pr := fun (sps : list split) t row => exists rows, G (fst (nth t sps ([], []))) = Ok rows /\
                 row = concat rows /\ length rows = n_reg d /\ Forall (fun r => length r = n_coef d) rows).
    assert (Hloop : loops_give d (fun _ => sol) n s0 Pr).
    { intros sps keys i x Hi Hl Hkeys Hx. destruct Hinv as [I1 I2].
      assert (Hx' : rmap snd (sel_loop d sol n (own keys (numbered 0 sps)) (sel_tasks d n i) None (s0 i)) = Ok (snd x))
        by now rewrite Hx.
      assert (Ht : forall t, In t (sel_tasks d n i) -> t < n_boots_sel d /\ In t keys).
      { intros t Ht. pose proof (sel_task_boot d Hnb n i t Hn Hi Ht) as G1. specialize (Hkeys t Ht).
        unfold sel_boot in G1, Hkeys. rewrite Hm in G1, Hkeys. auto. }
      unfold sel_tasks in *. rewrite Hm in *. unfold array_split_arange in *.
      rewrite (sel_loop_few d sol Inv I1 I2 G n _ Hm HG _ _ None (s0 i) (Hs0 i) I) in Hx'.
      apply mapM_Forall2 in Hx'. eapply Forall2_impl_in; [exact Hx'|].
      intros t row Hin Hrow. destruct (Ht t Hin) as [Hlt Hk].
      cbv beta in Hrow. rewrite lookup_own in Hrow by exact Hk. rewrite lookup_numbered in Hrow by lia.
      rewrite Nat.sub_0_r in Hrow. cbn [bind] in Hrow.
      destruct (G (fst (nth t sps ([], [])))) as [rows|] eqn:EG; cbn [bind] in Hrow; [|discriminate].
      exists rows. split; [exact EG|]. split.
      - unfold store_sweep in Hrow. destruct (_ && _); [discriminate|]. congruence.
      - pose proof (HG (s0 i) (fst (nth t sps ([], []))) (Hs0 i)) as Hg. rewrite EG in Hg.
        destruct (sweep sol (reset sol (s0 i)) (seq 0 (n_reg d)) (fst (nth t sps ([], [])))) as [[s' rows']|] eqn:Esw;
          [|discriminate].
        simpl in Hg. injection Hg as ->. apply Hshape in Esw. now rewrite seq_length in Esw. }
    apply (facts_returned env d (fun _ => sol) draw post Hnb (fun _ => Hshape) n R s0 Pr F Hloop) in H.
    destruct H as (sps & r1 & allrows & sup & ns & sps2 & r2 & outs & x & Hd1 & Hall & Hi & Hns & Hd2 & Ho & Hfin & Hp).
    unfold package in Hp. destruct x as [[[[e1 e2] e3] e4] e5].
    destruct (post e4 e5) as [w|]; [|discriminate]. simpl in Hp. injection Hp as <-.
    unfold sel_count in Hall. rewrite Hm in Hall.
    pose proof (Forall2_length' _ _ _ Hall) as Hlen. rewrite seq_length in Hlen.
    assert (Hw : Forall (fun r => length r = n_reg d * n_coef d) allrows).
    { apply Forall_forall. intros row Hrow. apply (In_nth _ _ []) in Hrow as (t & Ht & <-).
      destruct (Forall2_nth _ _ _ 0 [] Hall t ltac:(rewrite seq_length; lia)) as (rows & _ & -> & Hl & Hf).
      rewrite (concat_length_const (n_coef d)) by assumption. now rewrite Hl. }
    exists (mkSelected sup e1 e2 e3), sps, r1, (coefs_of d (concat allrows)).
    split; [reflexivity|]. split; [exact (draw_list_drawn _ _ _ _ _ _ Hd1)|].
    split; [exact (draw_list_length _ _ _ _ _ Hd1)|]. split; [exact Hi|].
    unfold coefs_of. cbn [c_data c_reg c_feat]. rewrite <- Hlen, chunks_concat by assumption.
    split; [apply map_length|]. split; [reflexivity|]. split; [reflexivity|].
    intros b Hb. rewrite Hlen in Hb.
    destruct (Forall2_nth _ _ _ 0 [] Hall b ltac:(now rewrite seq_length)) as (rows & EG & Er & Hl & Hf).
    rewrite seq_nth in EG by assumption. simpl (0 + b) in EG. rewrite EG. f_equal.
    rewrite (nth_map_lt _ _ _ []) by lia. rewrite Er, <- Hl. now rewrite chunks_concat.
  Qed.
End Same.
