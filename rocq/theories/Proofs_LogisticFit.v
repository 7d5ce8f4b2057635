(** Facts about the logistic solver path that hold in every arithmetic (C38, C55). *)
From Coq Require Import ZArith List Bool Arith Lia.
From Verif Require Import Prelude F64 Num Model_Mpi Model_Poisson Model_Logistic Model_Lbfgs Model_LogisticFit
  Spec_Lbfgs Spec_LogisticFit Proofs_Intersection Proofs_Rescale Proofs_Poisson Proofs_Multinomial Proofs_Lbfgs Proofs_LbfgsTrace
  Proofs_LogisticAbandon.
Import ListNotations.

(** ** Where the returned array comes from *)
Section Source.
  Context {N : NumOps} {St : Type}.
  Variable f : objective N St.
  Variable progress : option (observer N St).
  Definition left_by_f (x : list N) : Prop := exists st x1 g1, x = fst (fst (snd (f st x1 g1))).

  Lemma accepted_left P b e s r : accepted P f b e s r -> left_by_f (pt_x (s_pt r)).
  Proof.
    unfold accepted. intros [_ H]. destruct (owl P).
    - destruct H as [(st & g & ->) _]. exists st. eexists _, _. reflexivity.
    - destruct H as (_ & (st & g & ->) & _). exists st. eexists _, _. reflexivity.
  Qed.

  Lemma run_left P b e s l en : (0 < p_max_linesearch P)%Z -> run P f progress b e s l en -> left_by_f (pt_x (l_pt s)) ->
    forall st x code, en = Done st x code -> left_by_f x.
  Proof.
    intros HM H. induction H as [fuel s r E Hr | fuel s r en E Hr Ea | fuel s r s' l en E Hr Ea H IH]; intros Hs st x code He.
    - injection He as _ <- _. exact Hs.
    - apply after_step_exit in Ea. destruct Ea as (gn & _ & _ & Ea). rewrite (Ea _ _ _ He).
      apply search_end in E; [|exact HM]. destruct E as (n & _ & _ & [C|(_ & _ & E)]); [lia|]. eapply accepted_left. exact E.
    - apply (IH) with (2 := He). apply search_end in E; [|exact HM]. destruct E as (n & _ & _ & [C|(_ & _ & E)]); [lia|].
      apply accepted_left in E. apply after_step_next in Ea. destruct Ea as (st1 & pg & _ & _ & -> & _). exact E.
  Qed.

  Lemma returned_left (O : options N) fuel lsfuel st x0 st' x w :
    fmin_lbfgs O f progress fuel lsfuel st x0 = Some (st', Returned x w) -> left_by_f x.
  Proof.
    unfold fmin_lbfgs. destruct (negb _); [discriminate|]. destruct (line_search_algo _) as [alg|]; [|discriminate].
    intros H. apply minimize_cases in H. destruct H as [(code & Ec & _ & H)|(b & e & Hck & [(_ & _ & H)|(_ & H)])].
    - exfalso. revert H. unfold check_params in Ec.
      repeat match type of Ec with (if ?c then inl _ else _) = _ => destruct c; [injection Ec as <-; discriminate|] end.
      discriminate.
    - discriminate.
    - cbv zeta in H. set (s := init_state _ f b e st x0) in *.
      assert (Hs : left_by_f (pt_x (l_pt s))) by (exists st; eexists _, _; reflexivity).
      destruct H as [(_ & _ & H)|(l & en & Hr & _ & H)].
      + injection H as -> _. exact Hs.
      + destruct en as [st1 x1 code|st1]; [|discriminate]. symmetry in H. apply conclude_returned in H. subst x1.
        eapply run_left; [exact (ck_ls _ _ _ _ Hck)|exact Hr|exact Hs|reflexivity].
  Qed.
End Source.

(** ** Masks *)
Section Masks.
  Context {N : NumOps}.

  Lemma nth_apply_mask p (m w : list N) j : length m = p -> (j < p)%nat ->
    nth j (apply_mask p (Some m) w) nzero = nzero \/ exists u, nth j (apply_mask p (Some m) w) nzero = nmul u (nth j m nzero).
  Proof.
    intros Hm Hj. cbn [apply_mask]. destruct (Nat.lt_ge_cases j (length w)) as [H|H].
    - right. exists (nth j (firstn p w) nzero).
      rewrite app_nth1 by (rewrite map2_length, firstn_length; lia).
      apply map2_nth; [rewrite firstn_length|]; lia.
    - left. apply nth_overflow. rewrite app_length, map2_length, firstn_length, skipn_length. lia.
  Qed.

  Lemma length_apply_mask p mask (w : list N) : match mask with Some m => length m = p | None => True end -> (p <= length w)%nat ->
    length (apply_mask p mask w) = length w.
  Proof.
    intros Hm Hw. destruct mask as [m|]; [|reflexivity]. cbn. rewrite app_length, map2_length, firstn_length, skipn_length. lia.
  Qed.

  (** scatter writes only at the given positions *)
  Lemma length_scatter idx (v a : list N) : length (scatter idx v a) = length a.
  Proof.
    unfold scatter. generalize (combine idx v). intros l. revert a. induction l as [|[i x] l IH]; intros a; [reflexivity|].
    cbn [fold_left]. rewrite IH. apply length_lset.
  Qed.
  Lemma nth_lset_other {A} i (x d : A) a j : j <> i -> nth j (lset i x a) d = nth j a d.
  Proof. revert i j. induction a as [|y a IH]; intros [|i] [|j] H; cbn; auto; try congruence. Qed.
  Lemma nth_scatter_other idx (v a : list N) j : ~ In j idx -> nth j (scatter idx v a) nzero = nth j a nzero.
  Proof.
    unfold scatter. revert v a. induction idx as [|i idx IH]; intros v a H; [reflexivity|]. destruct v as [|x v]; [reflexivity|].
    cbn [combine fold_left fst snd]. rewrite IH by (intro C; apply H; now right).
    apply nth_lset_other. intros ->. apply H. now left.
  Qed.
  Lemma nth_zeros (a : list N) j : nth j (map (fun _ => @nzero N) a) nzero = nzero.
  Proof. revert j. induction a as [|x a IH]; intros [|j]; cbn; auto. Qed.

  Lemma l2_masked opt f (m w0 : list N) j : nnonzero (nth j m nzero) = false -> nth j (l2_solve opt f (Some m) w0) nzero = nzero.
  Proof.
    intros H. cbn [l2_solve]. cbv zeta. rewrite nth_scatter_other; [apply nth_zeros|].
    unfold nonzero_positions. intros C. apply filter_In in C. destruct C as [_ C]. rewrite H in C. discriminate.
  Qed.
  Lemma length_l2 opt f (m w0 : list N) : length (l2_solve opt f (Some m) w0) = length w0.
  Proof. cbn [l2_solve]. cbv zeta. rewrite length_scatter. apply map_length. Qed.

  Lemma split_nth has p (rows : list (list N)) w coef b c : split_rows has p rows w = Fitted coef b c ->
    length coef = length rows /\ length b = length rows /\ c = w /\
    forall i j, (j < p)%nat -> nth j (nth i coef []) nzero = nth j (nth i rows []) nzero.
  Proof.
    unfold split_rows. destruct has; intros [= <- <- <-]; rewrite !map_length; (split; [reflexivity|]); (split; [reflexivity|]); (split; [reflexivity|]).
    - intros i j Hj. destruct (Nat.lt_ge_cases i (length rows)) as [Hi|Hi].
      + rewrite (nth_mapd (firstn p) rows i []) by exact Hi.
        rewrite <- (firstn_skipn p (nth i rows [])) at 2.
        destruct (Nat.lt_ge_cases j (length (firstn p (nth i rows [])))) as [H|H]; [now rewrite app_nth1|].
        rewrite firstn_length in H. rewrite !nth_overflow; [reflexivity| |]; rewrite ?app_length, ?firstn_length, ?skipn_length; lia.
      + rewrite (nth_overflow (map _ _)) by (now rewrite map_length). rewrite (nth_overflow rows) by exact Hi. now destruct j.
    - reflexivity.
  Qed.
End Masks.

Lemma grid_map2 {A B C} (h : A -> B -> C) k (a : list A) (b : list B) : length a = k -> length b = k -> length (map2 h a b) = k.
Proof. apply length_map2n. Qed.

Section Fits.
  Context {N : NumOps}.

  Lemma start_rows (has : bool) k p (mask coef : option (list (list N))) y : let q := (p + if has then 1 else 0)%nat in
    (0 < q)%nat -> match mask with Some m => grid k p m | None => True end -> warm_rows k p q coef ->
    grid k q (multi_start has k p mask coef y).
  Proof.
    intros q Hq Hm Hc. unfold multi_start. cbv zeta. fold q.
    set (r0 := map _ (seq 0 k)).
    assert (G0 : grid k q r0).
    { unfold r0. split; [now rewrite map_length, seq_length|]. apply Forall_forall. intros r Hr. apply in_map_iff in Hr.
      destruct Hr as (c & <- & _). rewrite app_length, repeat_length. cbn. lia. }
    assert (G1 : grid k q (match coef with Some m => map2 (fun c r => c ++ skipn (length c) r) m r0 | None => r0 end)).
    { destruct coef as [m|]; [|exact G0]. destruct G0 as [L0 F0].
      assert (Hcm : length m = k /\ forall c, (c < k)%nat -> (length (nth c m []) <= q)%nat).
      { destruct Hc as [[L F]|[L F]]; (split; [exact L|]); intros c Hc; rewrite (nth_len _ _ _ F) by lia; unfold q; lia. }
      destruct Hcm as [L H]. split; [now apply grid_map2|]. apply Forall_forall. intros r Hr. apply (In_nth _ _ []) in Hr.
      destruct Hr as (c & Hlt & <-). rewrite grid_map2 with (k := k) in Hlt by assumption.
      rewrite (map2_nth _ _ _ c [] [] []) by lia. rewrite app_length, skipn_length, (nth_len _ _ _ F0) by lia. specialize (H c Hlt). lia. }
    destruct mask as [m|]; [|exact G1]. destruct G1 as [L1 F1]. destruct Hm as [Lm Fm].
    split; [now apply grid_map2|]. apply Forall_forall. intros r Hr. apply (In_nth _ _ []) in Hr.
    destruct Hr as (c & Hlt & <-). rewrite grid_map2 with (k := k) in Hlt by assumption.
    rewrite (map2_nth _ _ _ c [] [] []) by lia.
    rewrite app_length, map2_length, firstn_length, skipn_length, (nth_len _ _ _ F1), (nth_len _ _ _ Fm) by lia. unfold q. lia.
  Qed.

  (** Masked entries of the start. *)
  Lemma start_masked (has : bool) k p (m : list (list N)) coef y c j : let q := (p + if has then 1 else 0)%nat in
    (0 < q)%nat -> grid k p m -> warm_rows k p q coef -> (c < k)%nat -> (j < p)%nat ->
    exists u, nth j (nth c (multi_start has k p (Some m) coef y) []) nzero = nmul u (nth j (nth c m []) nzero).
  Proof.
    intros q Hq Hm Hc Hck Hj. pose proof (start_rows has k p None coef y Hq Logic.I Hc) as [L F]. fold q in F.
    unfold multi_start in *. cbv zeta in *. fold q in L, F |- *.
    match type of L with length ?r = _ => set (rows := r) in * end. destruct Hm as [Lm Fm].
    rewrite (map2_nth _ _ _ c [] [] []) by lia.
    assert (Lr : length (nth c rows []) = q) by (apply (nth_len _ _ _ F); lia).
    assert (Lmr : length (nth c m []) = p) by (apply (nth_len _ _ _ Fm); lia).
    exists (nth j (firstn p (nth c rows [])) nzero).
    rewrite app_nth1 by (rewrite map2_length, firstn_length; unfold q in Lr; lia).
    apply map2_nth; [rewrite firstn_length; unfold q in Lr; lia|lia].
  Qed.

  (** C38, penalty 'l2', whatever scipy's optimizer returns *)
  Lemma l2_binary_masked has p (C tol : N) mi X y sw m coef opt fuel lsfuel cf b w : length m = p -> nnonzero (nsum m) = true ->
    fit_binary true has p C tol mi X y sw (Some m) coef opt fuel lsfuel = Some (Fitted cf b w) ->
    length cf = 1%nat /\ forall j, (j < p)%nat -> nnonzero (nth j m nzero) = false -> nth j (nth 0 cf []) nzero = nzero.
  Proof.
    intros Hm Hs H. unfold fit_binary in H. cbv zeta in H. destruct (binary_start has p (Some m) coef) as [w0|ex]; [|discriminate].
    cbn [to_optimize] in H. rewrite Hs in H. cbn [negb option_map] in H.
    match type of H with Some ?a = _ => assert (H' : a = Fitted cf b w) by congruence end. apply split_nth in H'.
    destruct H' as (L & _ & _ & E). split; [exact L|]. intros j Hj Hz. rewrite E by exact Hj. cbn [nth]. apply l2_masked.
    rewrite app_nth1 by lia. exact Hz.
  Qed.

  Lemma l2_multi_masked (has : bool) k p (C tol : N) mi X y sw m coef opt fuel lsfuel cf b w : grid k p m -> nnonzero (nsum (concat m)) = true ->
    (0 < p)%nat -> warm_rows k p (p + if has then 1 else 0) coef ->
    fit_multi true has k p C tol mi X y sw (Some m) coef opt fuel lsfuel = Some (Fitted cf b w) ->
    length cf = k /\ forall c j, (c < k)%nat -> (j < p)%nat -> nnonzero (nth j (nth c m []) nzero) = false -> nth j (nth c cf []) nzero = nzero.
  Proof.
    intros Hm Hs Hp Hc H. unfold fit_multi in H. cbv zeta in H. set (q := (p + if has then 1 else 0)%nat) in *.
    cbn [option_map to_optimize] in H. rewrite Hs in H.
    pose proof (start_rows has k p (Some m) coef y ltac:(lia) Hm Hc) as [Ls Fs]. fold q in Fs.
    match type of H with context [l2_solve opt ?f (Some ?fm) ?w0] => set (full := fm) in *; set (w1 := l2_solve opt f (Some fm) w0) in * end.
    assert (Lw : length w1 = (k * q)%nat) by (unfold w1; rewrite length_l2, (length_concat_eq q) by exact Fs; now rewrite Ls).
    match type of H with Some ?a = _ => assert (H' : a = Fitted cf b w) by congruence end. apply split_nth in H'.
    destruct H' as (L & _ & _ & E). destruct (chunks_spec q k w1 Lw) as [Lc Fc]. split; [now rewrite L|].
    intros c j Hck Hj Hz. rewrite E by exact Hj. assert (Hjq : (j < q)%nat) by (unfold q; lia). rewrite chunks_nth by assumption.
    unfold w1. apply l2_masked. unfold full. destruct Hm as [Lm Fm].
    rewrite (nth_concat q).
    - rewrite (nth_mapd (fun r => r ++ if has then [none] else []) m c []) by lia. rewrite app_nth1; [exact Hz|]. rewrite (nth_len _ _ _ Fm) by lia. exact Hj.
    - apply Forall_forall. intros r Hr. apply in_map_iff in Hr. destruct Hr as (r0 & <- & Hr). rewrite Forall_forall in Fm.
      rewrite app_length, (Fm r0 Hr). unfold q. destruct has; reflexivity.
    - now rewrite map_length, Lm.
    - exact Hjq.
  Qed.

  (** C38, penalty 'l1', two classes, every arithmetic *)
  Definition masked_value (mj v : N) : Prop := v = nzero \/ exists u, v = nmul u mj \/ v = nmul (nmul u mj) nzero \/ v = nmul nzero nzero.

  Lemma l1_binary_masked l2 has p (C tol : N) mi X y sw m coef opt fuel lsfuel cf b w : length m = p ->
    fit_binary l2 has p C tol mi X y sw (Some m) coef opt fuel lsfuel = Some (Fitted cf b w) ->
    length cf = 1%nat /\ forall j, (j < p)%nat -> nnonzero (nth j m nzero) = false -> masked_value (nth j m nzero) (nth j (nth 0 cf []) nzero).
  Proof.
    intros Hm H. destruct l2.
    { destruct (nnonzero (nsum m)) eqn:Hs.
      - destruct (l2_binary_masked _ _ _ _ _ _ _ _ _ _ _ _ _ _ _ _ Hm Hs H) as [L E]. split; [exact L|]. intros j Hj Hz. left. now apply E.
      - unfold fit_binary in H. cbv zeta in H. destruct (binary_start has p (Some m) coef) as [w0|ex] eqn:Es; [|discriminate].
        cbn [to_optimize] in H. rewrite Hs in H. cbn [negb] in H.
        match type of H with Some ?a = _ => assert (H' : a = Fitted cf b w) by congruence end. apply split_nth in H'.
        destruct H' as (L & _ & _ & E). split; [exact L|]. intros j Hj Hz. rewrite E by exact Hj. cbn [nth].
        assert (Ew : exists v, w0 = apply_mask p (Some m) v).
        { unfold binary_start in Es. cbv zeta in Es. destruct coef as [c0|]; [destruct (_ || _)%bool; [|discriminate]|]; injection Es as <-; eexists; reflexivity. }
        destruct Ew as [v ->]. destruct (nth_apply_mask p m v j Hm Hj) as [->|[u ->]]; [now left|]. right. exists u. now left. }
    unfold fit_binary in H. cbv zeta in H. destruct (binary_start has p (Some m) coef) as [w0|ex] eqn:Es; [|discriminate].
    assert (Ew : exists v, w0 = apply_mask p (Some m) v).
    { unfold binary_start in Es. cbv zeta in Es. destruct coef as [c0|]; [destruct (_ || _)%bool; [|discriminate]|]; injection Es as <-; eexists; reflexivity. }
    destruct Ew as [v ->].
    destruct (negb (to_optimize (Some m))).
    { match type of H with Some ?a = _ => assert (H' : a = Fitted cf b w) by congruence end. apply split_nth in H'.
      destruct H' as (L & _ & _ & E). split; [exact L|]. intros j Hj Hz. rewrite E by exact Hj. cbn [nth].
      destruct (nth_apply_mask p m v j Hm Hj) as [->|[u ->]]; [now left|]. right. exists u. now left. }
    set (f := binary_objective p X (label_signs y) (Some m) sw) in *.
    destruct (l1_solve 1 p C tol mi f fuel lsfuel (apply_mask p (Some m) v)) as [[x c|ex|]|] eqn:Er; try discriminate.
    match type of H with Some ?a = _ => assert (H' : a = Fitted cf b w) by congruence end. apply split_nth in H'.
    destruct H' as (L & _ & _ & E). split; [exact L|]. intros j Hj Hz. rewrite E by exact Hj. cbn [nth].
    unfold l1_solve in Er.
    destruct (fmin_lbfgs _ f _ _ _ _ _) as [[st out]|] eqn:Ef; [|discriminate].
    assert (K : left_by_f f x \/ x = map (fun a => nmul a nzero) (apply_mask p (Some m) v)).
    { destruct out as [x' c'|ex|]; [|destruct ex; try discriminate|discriminate].
      - left. injection Er as -> ->. eapply returned_left. exact Ef.
      - right. injection Er as <- _. reflexivity. }
    destruct K as [(st1 & x1 & g1 & ->)| ->].
    - unfold f, binary_objective, logistic_loss_and_grad. cbn [fst snd].
      destruct (nth_apply_mask p m x1 j Hm Hj) as [->|[u ->]]; [now left|]. right. exists u. now left.
    - destruct (Nat.lt_ge_cases j (length (apply_mask p (Some m) v))) as [Hl|Hl].
      + rewrite (nth_mapd (fun a => nmul a nzero) _ j nzero) by exact Hl.
        destruct (nth_apply_mask p m v j Hm Hj) as [->|[u ->]]; right; [exists nzero; auto|exists u; auto].
      + left. apply nth_overflow. now rewrite map_length.
  Qed.
End Fits.

(** In floating point a masked coefficient is a zero or a NaN. *)
Lemma times_zero (u z : f64) : feqb z fzero = true -> feqb (fmul u z) fzero = true \/ fmul u z = fnan.
Proof. destruct z as [|[]| |[] ? ?]; try discriminate; intros _; destruct u; try (right; reflexivity); left; reflexivity. Qed.
Lemma masked_floats (exp64 ln64 : f64 -> f64) (l2 has : bool) p (C tol : f64) mi X y sw m coef opt fuel lsfuel cf b w :
  length m = p ->
  fit_binary (N := Fnum exp64 ln64) l2 has p C tol mi X y sw (Some m) coef opt fuel lsfuel = Some (Fitted cf b w) ->
  length cf = 1%nat /\ forall j, (j < p)%nat -> feqb (nth j m fzero) fzero = true ->
    feqb (nth j (nth 0 cf []) fzero) fzero = true \/ nth j (nth 0 cf []) fzero = fnan.
Proof.
  intros Lm H. destruct (l1_binary_masked (N := Fnum exp64 ln64) l2 has p C tol mi X y sw m coef opt fuel lsfuel cf b w Lm H) as [L E].
  split; [exact L|]. intros j Hj Hz. specialize (E j Hj).
  assert (Z : nnonzero (N := Fnum exp64 ln64) (nth j m fzero) = false) by (unfold nnonzero; apply negb_false_iff; exact Hz).
  destruct (E Z) as [E1|(u & [E1|[E1|E1]])].
  - left. assert (E2 : nth j (nth 0 cf []) fzero = fzero) by exact E1. rewrite E2. reflexivity.
  - assert (E2 : nth j (nth 0 cf []) fzero = fmul u (nth j m fzero)) by exact E1. rewrite E2. now apply times_zero.
  - assert (E2 : nth j (nth 0 cf []) fzero = fmul (fmul u (nth j m fzero)) fzero) by exact E1. rewrite E2. now apply times_zero.
  - left. assert (E2 : nth j (nth 0 cf []) fzero = fmul fzero fzero) by exact E1. rewrite E2. reflexivity.
Qed.
