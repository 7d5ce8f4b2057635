(** The ring buffer holds the last m corrections, for every number type. *)
From Coq Require Import String ZArith List Bool Arith Lia.
From Verif Require Import Prelude Num Model_Lbfgs Spec_Lbfgs Proofs_Poisson Proofs_Lbfgs Proofs_LbfgsTrace.
Import ListNotations.

Lemma mod_pred m j : (0 < m)%nat -> (j < m)%nat -> Nat.modulo (Nat.modulo (j + m - 1) m + 1) m = j.
Proof.
  intros Hm Hj. rewrite Nat.add_mod_idemp_l by lia. replace (j + m - 1 + 1) with (j + 1 * m) by lia.
  rewrite Nat.mod_add by lia. now apply Nat.mod_small.
Qed.

Lemma nth_firstn_lt {A} (l : list A) d : forall k i, (i < k)%nat -> nth i (firstn k l) d = nth i l d.
Proof.
  induction l as [|a l IH]; intros [|k] i Hi; try lia; cbn; [destruct i; reflexivity|]. destruct i; [reflexivity|]. apply IH. lia.
Qed.

Section Ring.
  Context {N : NumOps}.
  Variable m : nat.
  Hypothesis Hm : (0 < m)%nat.

  (** Position [t] steps before [j]. *)
  Definition back (j t : nat) : nat := Nat.modulo (j + m - t) m.
  Lemma back_lt j t : (back j t < m)%nat.
  Proof. apply Nat.mod_upper_bound. lia. Qed.
  Lemma back_back j t : (j < m)%nat -> (1 + t <= m)%nat -> back (back j 1) t = back j (1 + t).
  Proof.
    intros Hj Ht. unfold back. destruct (Nat.eq_dec j 0) as [->|H0].
    - rewrite (Nat.mod_small (0 + m - 1) m) by lia. replace (m - 1 + m - t) with ((0 + m - (1 + t)) + 1 * m) by lia.
      replace (0 + m - 1 + m - t) with ((0 + m - (1 + t)) + 1 * m) by lia. apply Nat.mod_add. lia.
    - replace (j + m - 1) with ((j - 1) + 1 * m) by lia. rewrite Nat.mod_add by lia. rewrite (Nat.mod_small (j - 1) m) by lia.
      f_equal. lia.
  Qed.
  Lemma back_inj j t u : (j < m)%nat -> (1 <= t <= m)%nat -> (1 <= u <= m)%nat -> back j t = back j u -> t = u.
  Proof.
    intros Hj Ht Hu. unfold back.
    assert (E : forall w, (1 <= w <= m)%nat -> Nat.modulo (j + m - w) m = if Nat.leb w j then j - w else j + m - w).
    { intros w Hw. destruct (Nat.leb_spec w j).
      - replace (j + m - w) with ((j - w) + 1 * m) by lia. rewrite Nat.mod_add by lia. apply Nat.mod_small. lia.
      - apply Nat.mod_small. lia. }
    rewrite !E by assumption. destruct (Nat.leb_spec t j), (Nat.leb_spec u j); lia.
  Qed.

  Lemma first_loop_index bound : forall j (lm : list (correction N)) d, (j < m)%nat ->
    let q := first_loop m bound j lm d in
    Nat.modulo (fst (fst q) + bound) m = j /\ (fst (fst q) < m)%nat /\ length (snd (fst q)) = length lm.
  Proof.
    induction bound as [|bound IH]; intros j lm d Hj; cbn [first_loop]; cbv zeta.
    - cbn [fst snd]. rewrite Nat.add_0_r. split; [now apply Nat.mod_small|auto].
    - set (j1 := Nat.modulo (j + m - 1) m). assert (Hj1 : (j1 < m)%nat) by (apply Nat.mod_upper_bound; lia).
      match goal with |- context [first_loop m bound j1 ?l ?v] => destruct (IH j1 l v Hj1) as (I1 & I2 & I3) end. cbv zeta in *.
      split; [|split; [exact I2|rewrite I3; apply length_lset]].
      transitivity (Nat.modulo (j1 + 1) m); [|now apply mod_pred].
      match type of I1 with Nat.modulo (?x + _) _ = _ => generalize x I1 end. intros x Hx. rewrite <- Hx, Nat.add_mod_idemp_l by lia. f_equal. lia.
  Qed.

  Lemma first_loop_keeps bound : forall j (lm : list (correction N)) d i dflt, (j < m)%nat -> (bound <= m)%nat -> length lm = m ->
    (forall t, (1 <= t <= bound)%nat -> i <> back j t) ->
    nth i (snd (fst (first_loop m bound j lm d))) dflt = nth i lm dflt.
  Proof.
    induction bound as [|bound IH]; intros j lm d i dflt Hj Hb Hl Hi; cbn [first_loop]; cbv zeta; [reflexivity|].
    change (Nat.modulo (j + m - 1) m) with (back j 1). rewrite IH.
    - rewrite nth_lset by (rewrite Hl; apply back_lt). destruct (Nat.eqb_spec i (back j 1)) as [E|]; [|reflexivity].
      exfalso. apply (Hi 1%nat); [lia|exact E].
    - apply back_lt.
    - lia.
    - now rewrite length_lset.
    - intros t Ht. rewrite back_back by lia. apply Hi. lia.
  Qed.

  Lemma second_loop_app b1 : forall b2 j (lm : list (correction N)) d, (j < m)%nat ->
    second_loop m (b1 + b2) j lm d = second_loop m b2 (Nat.modulo (j + b1) m) lm (second_loop m b1 j lm d).
  Proof.
    induction b1 as [|b1 IH]; intros b2 j lm d Hj; cbn [Nat.add second_loop].
    - rewrite Nat.add_0_r, (Nat.mod_small j m) by exact Hj. reflexivity.
    - cbv zeta. rewrite IH by (apply Nat.mod_upper_bound; lia). f_equal.
      rewrite Nat.add_mod_idemp_l by lia. f_equal. lia.
  Qed.

  (** The [bound] entries before position [j] hold the pairs, newest first. *)
  Definition holds (lm : list (correction N)) (j : nat) (pairs : list (list N * list N)) : Prop :=
    forall t, (t < length pairs)%nat ->
      let it := nth (back j (S t)) lm (blank 0) in
      (c_s it, c_y it) = nth t pairs ([], []) /\ c_ys it = vecdot (c_y it) (c_s it).

  Lemma two_loops gamma pairs : forall j (lm : list (correction N)) d, (j < m)%nat -> (length pairs <= m)%nat -> length lm = m ->
    holds lm j pairs ->
    let q := first_loop m (length pairs) j lm d in
    second_loop m (length pairs) (fst (fst q)) (snd (fst q)) (vecscale (snd q) gamma) = two_loop pairs gamma d.
  Proof.
    induction pairs as [|[s y] older IH]; intros j lm d Hj Hb Hl Hh; cbn [length first_loop]; cbv zeta; [reflexivity|].
    cbn [length] in Hb. change (Nat.modulo (j + m - 1) m) with (back j 1).
    set (j1 := back j 1). assert (Hj1 : (j1 < m)%nat) by apply back_lt.
    destruct (Hh 0%nat ltac:(cbn; lia)) as [H1 H2]. cbv zeta in H1, H2. fold j1 in H1, H2. cbn [nth] in H1.
    set (it := nth j1 lm (blank 0)) in *. injection H1 as E1 E2.
    set (a := ndiv (vecdot (c_s it) d) (c_ys it)). set (lm1 := lset j1 (mkCorr a (c_s it) (c_y it) (c_ys it)) lm).
    set (d1 := vecadd d (c_y it) (nopp a)).
    assert (Hl1 : length lm1 = m) by (unfold lm1; now rewrite length_lset).
    assert (Hh1 : holds lm1 j1 older).
    { intros t Ht. cbv zeta. specialize (Hh (S t) ltac:(cbn; lia)). cbv zeta in Hh. cbn [nth] in Hh.
      assert (Eb : back j1 (S t) = back j (S (S t))) by (unfold j1; now rewrite back_back by lia). rewrite Eb.
      unfold lm1. rewrite nth_lset by lia. destruct (Nat.eqb_spec (back j (S (S t))) j1) as [E|_]; [|exact Hh].
      exfalso. unfold j1 in E. apply back_inj in E; lia. }
    specialize (IH j1 lm1 d1 Hj1 ltac:(lia) Hl1 Hh1). cbv zeta in IH.
    destruct (first_loop_index (length older) j1 lm1 d1 Hj1) as (I1 & I2 & I3). cbv zeta in *.
    set (q := first_loop m (length older) j1 lm1 d1) in *.
    replace (S (length older)) with (length older + 1)%nat by lia.
    rewrite second_loop_app by exact I2. rewrite I1, IH. cbn [second_loop]. cbv zeta.
    assert (Hn : nth j1 (snd (fst q)) (blank 0) = mkCorr a (c_s it) (c_y it) (c_ys it)).
    { unfold q. rewrite first_loop_keeps; auto; [| lia|].
      - unfold lm1. rewrite nth_lset by lia. now rewrite Nat.eqb_refl.
      - intros t Ht E. assert (Eb : back j1 t = back j (S t)) by (unfold j1; now rewrite back_back by lia).
        rewrite Eb in E. unfold j1 in E. apply back_inj in E; lia. }
    rewrite Hn. cbn [c_s c_y c_ys c_alpha two_loop].
    replace (ndiv (vecdot s d) (vecdot y s)) with a by (unfold a; rewrite H2, E1, E2; reflexivity).
    rewrite H2. unfold d1. rewrite E1, E2. reflexivity.
  Qed.

  (** The buffer after the loops still holds the pairs. *)
  Lemma first_loop_holds bound : forall j (lm : list (correction N)) d j0 pairs, length lm = m ->
    holds lm j0 pairs -> holds (snd (fst (first_loop m bound j lm d))) j0 pairs.
  Proof.
    induction bound as [|bound IH]; intros j lm d j0 pairs Hl Hh; cbn [first_loop]; cbv zeta; [exact Hh|].
    apply IH; [now rewrite length_lset|]. intros t Ht. cbv zeta. change (Nat.modulo (j + m - 1) m) with (back j 1).
    rewrite nth_lset by (rewrite Hl; apply back_lt). specialize (Hh t Ht). cbv zeta in Hh.
    destruct (Nat.eqb_spec (back j0 (S t)) (back j 1)) as [E|_]; [|exact Hh]. rewrite E in Hh. exact Hh.
  Qed.

  (** Adding a pair. *)
  Lemma holds_add (lm : list (correction N)) j pairs al s y : (j < m)%nat -> length lm = m ->
    holds lm j pairs ->
    holds (lset j (mkCorr al s y (vecdot y s)) lm) (Nat.modulo (j + 1) m) (firstn m ((s, y) :: pairs)).
  Proof.
    intros Hj Hl Hh t Ht. cbv zeta. rewrite firstn_length in Ht. cbn [length] in Ht.
    rewrite nth_lset by lia.
    assert (Eb : back (Nat.modulo (j + 1) m) (S t) = back j t).
    { unfold back. destruct (Nat.eq_dec (j + 1) m) as [E|E].
      - rewrite E, Nat.mod_same by lia. replace (j + m - t) with ((0 + m - S t) + 1 * m) by lia.
        symmetry. apply Nat.mod_add. lia.
      - rewrite (Nat.mod_small (j + 1) m) by lia. f_equal. lia. }
    rewrite Eb. rewrite nth_firstn_lt by lia.
    destruct t as [|t].
    - unfold back. replace (j + m - 0) with (j + 1 * m) by lia. rewrite Nat.mod_add, Nat.mod_small, Nat.eqb_refl by lia.
      cbn [c_s c_y c_ys]. auto.
    - cbn [nth]. destruct (Nat.eqb_spec (back j (S t)) j) as [E|_].
      + exfalso. assert (E' : back j (S t) = back j m).
        { rewrite E. unfold back. replace (j + m - m) with j by lia. symmetry. now apply Nat.mod_small. }
        apply back_inj in E'; lia.
      + apply Hh. lia.
  Qed.
End Ring.

Section Follow.
  Context {N : NumOps} {St : Type}.
  Variables (O : options N) (alg : algorithm) (n : nat).
  Variable f : objective N St.
  Variable progress : option (observer N St).
  Variables (b e : nat).
  Let P := to_params O alg.
  Let m := Z.to_nat (o_m O).
  Hypothesis Hb : b = range_start O.
  Hypothesis He : e = range_end O n.
  Hypothesis Hls : (0 < p_max_linesearch P)%Z.
  Hypothesis Hx : leaves_x f.

  Definition dir_of (pairs : list (list N * list N)) (x g : list N) : list N :=
    if owl P then
      let pg := owlqn_pseudo_gradient x g (o_c O) b e in
      match pairs with [] => vecncpy pg | _ => constrain b e (bfgs_direction pairs (vecncpy pg)) pg end
    else bfgs_direction pairs (vecncpy g).

  Record hist (s : state N St) (t : list (list N * list N)) : Prop := mkHist {
    h_top : exists older, t = (pt_x (l_pt s), pt_g (l_pt s)) :: older;
    h_k : length t = l_k s;
    h_lm : length (l_lm s) = m;
    h_end : (0 < m)%nat -> (l_end s < m)%nat;
    h_holds : (0 < m)%nat -> holds m (l_lm s) (l_end s) (firstn m (differences t));
    h_pg : owl P = true -> l_pg s = owlqn_pseudo_gradient (pt_x (l_pt s)) (pt_g (l_pt s)) (o_c O) b e;
    h_d : l_d s = dir_of (firstn m (differences t)) (pt_x (l_pt s)) (pt_g (l_pt s))
  }.

  Lemma differences_length (t : list (list N * list N)) : length (differences t) = pred (length t).
  Proof.
    induction t as [|[x1 g1] [|[x0 g0] t] IH]; [reflexivity..|].
    change (differences ((x1, g1) :: (x0, g0) :: t)) with ((vecdiff x1 x0, vecdiff g1 g0) :: differences ((x0, g0) :: t)).
    cbn [length]. rewrite IH. reflexivity.
  Qed.
  Lemma firstn_cons_firstn {A} k (a : A) l : firstn k (a :: firstn k l) = firstn k (a :: l).
  Proof. destruct k; [reflexivity|]. rewrite !firstn_cons. f_equal. rewrite firstn_firstn. f_equal. lia. Qed.

  Lemma init_hist st x0 : let s := init_state P f b e st x0 in hist s [(pt_x (l_pt s), pt_g (l_pt s))].
  Proof.
    clear Hb He Hls Hx. cbv zeta. unfold init_state. cbv zeta. constructor; cbn [l_pt l_k l_lm l_end l_pg l_d pt_x pt_g differences]; auto.
    - eexists. reflexivity.
    - apply repeat_length.
    - intros _. rewrite firstn_nil. intros t Ht. cbn in Ht. lia.
    - intros Ho. rewrite Ho. reflexivity.
    - rewrite firstn_nil. unfold dir_of. destruct (owl P); reflexivity.
  Qed.

  Lemma next_hist s t (pt : point N St) pg : (0 < m)%nat -> hist s t ->
    (owl P = true -> pg = owlqn_pseudo_gradient (pt_x pt) (pt_g pt) (o_c O) b e) ->
    hist (next_state P b e s pt pg) ((pt_x pt, pt_g pt) :: t).
  Proof.
    intros Hm [(older & Ht) Hk Hl Hend Hh Hpg Hd] Hp. specialize (Hend Hm). specialize (Hh Hm).
    unfold next_state. cbv zeta. change (p_m P) with (o_m O). fold m.
    set (sv := vecdiff (pt_x pt) (pt_x (l_pt s))). set (yv := vecdiff (pt_g pt) (pt_g (l_pt s))).
    set (it := mkCorr _ sv yv _). set (lm := lset (l_end s) it (l_lm s)).
    set (end' := Nat.modulo (l_end s + 1) m).
    set (pairs := firstn m (differences ((pt_x pt, pt_g pt) :: t))).
    assert (Hlm : length lm = m) by (unfold lm; now rewrite length_lset).
    assert (He' : (end' < m)%nat) by (apply Nat.mod_upper_bound; lia).
    assert (Hpairs : pairs = firstn m ((sv, yv) :: firstn m (differences t))).
    { unfold pairs. rewrite firstn_cons_firstn, Ht. reflexivity. }
    assert (Hh' : holds m lm end' pairs).
    { rewrite Hpairs. apply holds_add; auto. }
    assert (Hbound : (if Nat.leb m (l_k s) then m else l_k s) = length pairs).
    { unfold pairs. rewrite firstn_length, differences_length. cbn [length pred]. rewrite Hk.
      destruct (Nat.leb_spec m (l_k s)); lia. }
    rewrite Hbound.
    assert (Hpl : (length pairs <= m)%nat) by (unfold pairs; rewrite firstn_length; lia).
    assert (Hnil : exists r, pairs = (sv, yv) :: r) by (rewrite Hpairs; destruct m; [lia|]; eexists; reflexivity).
    destruct Hnil as [rest Hnil].
    set (d0 := if owl P then vecncpy pg else vecncpy (pt_g pt)).
    pose proof (two_loops m Hm (ndiv (vecdot yv sv) (vecdot yv yv)) pairs end' lm d0 He' Hpl Hlm Hh') as T. cbv zeta in T.
    constructor; cbn [l_pt l_k l_lm l_end l_pg l_d]; auto.
    - exists t. reflexivity.
    - cbn [length]. now rewrite Hk.
    - destruct (first_loop_index m Hm (length pairs) end' lm d0 He') as (_ & _ & I3). cbv zeta in I3. now rewrite I3.
    - intros _. now apply first_loop_holds.
    - rewrite T. fold pairs. unfold dir_of. unfold d0. destruct (owl P) eqn:Eo.
      + rewrite (Hp eq_refl). cbv zeta. rewrite Hnil. unfold bfgs_direction. reflexivity.
      + rewrite Hnil. unfold bfgs_direction. reflexivity.
  Qed.

  Lemma owl_neqb : owl P = negb (neqb (o_c O) nzero).
  Proof. reflexivity. Qed.

  Lemma next_point_eq s t fuel r : hist s t -> run_line_search P f fuel b e s = Some r -> (0 <= s_ret r)%Z ->
    pt_x (s_pt r) = next_point O n t (s_step r).
  Proof.
    intros [(older & Ht) Hk Hl Hend Hh Hpg Hd] E Hr. apply search_end in E; [|exact Hls].
    destruct E as (k & _ & _ & E). destruct E as [E|(_ & _ & E)]; [lia|]. unfold accepted in E. cbv zeta in E. destruct E as [_ E].
    unfold next_point. rewrite Ht. cbv zeta. rewrite <- Ht. fold m. rewrite <- Hb, <- He.
    pose proof owl_neqb as Ho. destruct (neqb (o_c O) nzero); cbn [negb] in Ho; rewrite Ho in *.
    - destruct E as (_ & E & _). destruct E as (st & g & ->). unfold call_eval. cbn [pt_x]. rewrite Hx, Hd. unfold dir_of. rewrite Ho. reflexivity.
    - destruct E as (E & _). destruct E as (st & g & E). cbv zeta in E. rewrite E. cbn [pt_x]. unfold call_eval. cbn [pt_x]. rewrite Hx, Hd, (Hpg eq_refl).
      unfold dir_of. rewrite Ho. cbv zeta. destruct (firstn m (differences t)); reflexivity.
  Qed.
End Follow.

Section FollowRun.
  Context {N : NumOps} {St : Type}.
  Variables (O : options N) (n : nat).
  Variable f : objective N St.
  Variable progress : option (observer N St).
  Hypothesis Hx : leaves_x f.

  Lemma run_follows alg b e : b = range_start O -> e = range_end O n -> (0 < o_max_linesearch O)%Z ->
    forall s l en t reps, hist O alg b e s t ->
    run (to_params O alg) (keep_log f) (Some (write_log progress)) b e s l en -> Forall2 describes reps l ->
    follows O n t reps.
  Proof.
    intros Hb He Hls s l en t reps Hh Hr. revert t reps Hh.
    assert (Hx' : leaves_x (keep_log f)) by (intros st x g; apply Hx).
    induction Hr as [fuel s r E Hr | fuel s r en E Hr Ea | fuel s r s' l en E Hr Ea H IH]; intros t reps Hh HF.
    - inversion HF; subst. exact I.
    - inversion HF as [|q ? ? ? Hq Hq']; subst. inversion Hq'; subst. destruct Hq as (Q1 & Q2 & Q3 & Q4 & Q5).
      split; [|exact I]. rewrite Q1, Q4. eapply next_point_eq; eauto.
    - inversion HF as [|q ? ? ? Hq Hq']; subst. destruct Hq as (Q1 & Q2 & Q3 & Q4 & Q5).
      split; [rewrite Q1, Q4; eapply next_point_eq; eauto|].
      apply IH; [|exact Hq']. rewrite Q1, Q2. apply after_step_next in Ea.
      destruct Ea as (st & pg & _ & Epg & -> & _ & Hm & _).
      apply (next_hist O alg n _ _ eq_refl eq_refl s t (mkPoint st (pt_x (s_pt r)) (pt_g (s_pt r)) (pt_f (s_pt r))) pg); auto.
      + cbn in Hm. lia.
      + intros Ho. rewrite Ho in Epg. exact Epg.
  Qed.

  (** Every recorded run follows the textbook iteration. *)
  Lemma recorded_follows fuel lsfuel st x0 st' log out :
    recorded O f progress fuel lsfuel st x0 = Some (st', log, out) -> n = length x0 ->
    follows O n [(x0, snd (fst (snd (f st x0 (repeat nzero n)))))] log.
  Proof.
    intros H En. unfold recorded, fmin_lbfgs in H.
    destruct (negb (nleb nzero (o_c O))); [injection H as _ <- _; exact I|].
    destruct (line_search_algo _) as [alg|]; [|injection H as _ <- _; exact I].
    apply minimize_cases in H. destruct H as [(code & _ & H & _)|(b & e & Hck & H)]; [injection H as _ ->; exact I|].
    destruct H as [(_ & H & _)|(Hm & H)]; [injection H as _ ->; exact I|]. cbv zeta in H.
    set (P := to_params O alg) in *. set (s := init_state P (keep_log f) b e (st, []) x0) in *.
    destruct H as [(_ & H & _)|(l & en & Hr & H & Ho)].
    { assert (E : log = []) by (transitivity (snd (pt_st (l_pt s))); [now rewrite <- H|reflexivity]). rewrite E. exact I. }
    pose proof (ck_ls _ _ _ _ Hck) as Hls.
    destruct (run_log P f progress b e s l en Hls Hr) as (reps & R1 & R2 & R3).
    assert (E : log = reps). { transitivity (snd (end_state en)); [now rewrite <- H|]. rewrite R1. reflexivity. }
    rewrite E. rewrite <- En in Hck.
    eapply (run_follows alg b e); [apply (ck_b _ _ _ _ Hck)|apply (ck_e _ _ _ _ Hck)|exact Hls| |exact Hr|exact R2].
    pose proof (init_hist O alg (keep_log f) b e (st, []) x0) as I0. cbv zeta in I0. fold P s in I0.
    replace [(x0, snd (fst (snd (f st x0 (repeat nzero n)))))] with [(pt_x (l_pt s), pt_g (l_pt s))]; [exact I0|].
    unfold s, init_state, call_eval. cbn [l_pt pt_x pt_g]. cbn [keep_log snd fst]. rewrite Hx, En. reflexivity.
  Qed.
End FollowRun.
