(** A line search that turns back (C107). *)
From Coq Require Import String ZArith List Bool Arith Reals Lra Lia.
From Verif Require Import Prelude Num Spec_Rescale Proofs_Rescale Model_Lbfgs Proofs_Poisson Spec_Lbfgs Spec_LbfgsBack
  Proofs_Lbfgs Proofs_LbfgsTrace Proofs_LbfgsVec Proofs_LbfgsReal Proofs_LbfgsTop Proofs_LbfgsDir Proofs_LbfgsDescent
  Proofs_LbfgsCurv Proofs_LbfgsOpts Proofs_LbfgsQuad1 Proofs_LbfgsQuad2 Proofs_LbfgsQuad3.
Import ListNotations.
Local Open Scope R_scope.

(** The interpolating cubic has no minimum and the test on [a] picks [xmin]. *)
Lemma cubic2_none (u fu du v fv dv lo hi : R) : u < v -> du < 0 ->
  0 <= (fu - fv) * 3 / (v - u) + du + dv ->
  ((fu - fv) * 3 / (v - u) + du + dv) * ((fu - fv) * 3 / (v - u) + du + dv) <= du * dv ->
  (cubic_minimizer2 (N := Rnum) u fu du v fv dv lo hi : R) = lo.
Proof.
  intros Hu Hd H1 H2. unfold cubic_minimizer2. cbv zeta. rewrite max3_R, max2_R. unfold nnonzero, nzero. un.
  set (th := (fu - fv) * 3 / (v - u) + du + dv) in *. set (s := Rmax (Rmax (Rabs th) (Rabs du)) (Rabs dv)).
  assert (Hs : 0 < s).
  { unfold s. eapply Rlt_le_trans; [|apply Rmax_l]. eapply Rlt_le_trans; [|apply Rmax_r]. apply Rabs_pos_lt. lra. }
  assert (E : Rmax 0 (th / s * (th / s) - du / s * (dv / s)) = 0).
  { apply Rmax_left. replace (th / s * (th / s) - du / s * (dv / s)) with ((th * th - du * dv) * (/ s * / s)) by (field; lra).
    assert (0 < / s) by (apply Rinv_0_lt_compat; exact Hs). assert (0 < / s * / s) by nra. nra. }
  rewrite E, sqrt_0, Rmult_0_r. tt Hu.
  assert (Ez : Reqb (- 0) 0 = true) by (apply Reqb_t; lra). rewrite Ez. cbn [negb]. rewrite andb_false_r.
  assert (Ha : 0 <= th / s) by (apply Rmult_le_pos; [exact H1|apply Rlt_le, Rinv_0_lt_compat, Hs]). ff Ha. reflexivity.
Qed.

Lemma update_back (x fx dx y fy dy t ft dt tmax : R) : x < t -> dx < 0 -> dt < 0 -> dx < 2 * dt -> ft <= fx -> x <= tmax ->
  0 <= (fx - ft) * 3 / (t - x) + dx + dt ->
  ((fx - ft) * 3 / (t - x) + dx + dt) * ((fx - ft) * 3 / (t - x) + dx + dt) <= dx * dt ->
  update_trial_interval (N := Rnum) (mkInterval (N := Rnum) x fx dx y fy dy t false) ft dt x tmax =
  (mkInterval (N := Rnum) t ft dt y fy dy x false, 0%Z).
Proof.
  intros Hx Hdx Hdt H2 Hf Hm T1 T2. unfold update_trial_interval. cbn [andb]. cbv zeta.
  rewrite (cubic2_none x fx dx t ft dt x tmax) by assumption. unfold quard_minimizer2. cbv zeta.
  assert (Es : fsigndiff (N := Rnum) dt dx = false).
  { unfold fsigndiff, nzero. un. assert (Q : 0 <= dt * (dx / Rabs dx)); [|now ff Q].
    rewrite (Rabs_left dx) by exact Hdx. replace (dt * (dx / - dx)) with (- dt) by (field; lra). lra. }
  rewrite Es. un. ff Hf.
  assert (Hs : Rabs dt < Rabs dx) by (rewrite !Rabs_left by assumption; lra). tt Hs.
  assert (Hq : Rabs (t - (t + dt / (dt - dx) * (x - t))) < Rabs (t - x)).
  { replace (t - (t + dt / (dt - dx) * (x - t))) with (dt / (dt - dx) * (t - x)) by ring.
    rewrite Rabs_mult. rewrite <- (Rmult_1_l (Rabs (t - x))) at 2. apply Rmult_lt_compat_r; [apply Rabs_pos_lt; lra|].
    unfold Rdiv. rewrite Rabs_mult, (Rabs_left dt), (Rabs_right (/ (dt - dx))) by (first [assumption|apply Rle_ge, Rlt_le, Rinv_0_lt_compat; lra]).
    apply (Rmult_lt_reg_r (dt - dx)); [lra|]. rewrite Rmult_assoc, Rinv_l by lra. lra. }
  tt Hq. cbn [andb]. ff Hm. assert (Hxx : x <= x) by lra. ff Hxx. reflexivity.
Qed.

Section See.
  Context {N : NumOps} {St : Type}.
  Variable P : params N.
  Variable f : objective N St.

  Lemma evals_see n st st' : evals (see f) n st st' -> exists l, snd st' = snd st ++ l.
  Proof.
    induction 1 as [|n st x g st' H IH]; [exists []; now rewrite app_nil_r|]. destruct IH as [l IH].
    exists (x :: l). rewrite IH. cbn [see fst snd]. now rewrite <- app_assoc.
  Qed.

  Lemma run_see b e s l en : (0 < p_max_linesearch P)%Z -> run P (see f) None b e s l en ->
    exists r fuel more, run_line_search P (see f) fuel b e s = Some r /\ snd (end_state en) = snd (pt_st (s_pt r)) ++ more.
  Proof.
    intros HM H. induction H as [fuel s r E Hr | fuel s r en E Hr Ea | fuel s r s' l en E Hr Ea H IH]; exists r, fuel.
    - exists []. split; [exact E|]. cbn [end_state]. now rewrite app_nil_r.
    - exists []. split; [exact E|]. apply after_step_exit in Ea. destruct Ea as (gn & Ea & _ & _). rewrite Ea, app_nil_r. reflexivity.
    - destruct IH as (r' & fuel' & more & E' & IH). apply search_end in E'; [|exact HM]. destruct E' as (k & E' & _).
      apply evals_see in E'. destruct E' as [l' E']. apply after_step_next in Ea. destruct Ea as (st & pg & Est & _ & -> & _).
      cbn [next_state l_pt pt_st] in E'. exists (l' ++ more). split; [exact E|]. rewrite IH, E', Est, <- app_assoc. reflexivity.
  Qed.
End See.

Lemma converged_le n (O : options Rnum) alg (x g : list R) : length x = n -> length g = n ->
  converged (to_params O alg) (vec2norm (N := Rnum) x) (vec2norm (N := Rnum) g) = true -> norm n g <= o_epsilon O * Rmax 1 (norm n x).
Proof.
  intros Hx Hg Hv. unfold converged in Hv. rewrite (vec2norm_norm n x Hx), (vec2norm_norm n g Hg) in Hv. unfold none in Hv. rnin Hv.
  apply Rleb_t in Hv. change (p_epsilon (to_params O alg)) with (o_epsilon O) in Hv.
  assert (K : (if Rltb (norm n x) 1 then 1 else norm n x) = Rmax 1 (norm n x)).
  { destruct (Rltb (norm n x) 1) eqn:E; [apply Rltb_t in E; now rewrite Rmax_left by lra|apply Rltb_f in E; now rewrite Rmax_right by lra]. }
  rewrite K in Hv. pose proof (Rmax_l 1 (norm n x)) as Hm. apply (Rmult_le_compat_r (Rmax 1 (norm n x))) in Hv; [|lra].
  unfold Rdiv in Hv. rewrite Rmult_assoc, Rinv_l, Rmult_1_r in Hv by lra. exact Hv.
Qed.

(** The search: slope -a at the start, -b after the first trial, mean slope -m. *)
Section Search.
  Context {T : Type}.
  Variable P : params Rnum.
  Variable f : objective Rnum T.
  Variable log : T -> list (list R).
  Hypothesis Hlog : forall st x g, log (fst (f st x g)) = log st ++ [x].
  Variables (pt : point Rnum T) (d : list R).
  Variables (t0 a b fy : R).
  Hypothesis Hdg : (vecdot (N := Rnum) (pt_g pt) d : R) = - a.
  Hypothesis Hev : forall st g, let q := call_eval f st (vecadd (N := Rnum) (pt_x pt) d t0) g in
    (vecdot (N := Rnum) (pt_g q) d : R) = - b /\ (pt_f q : R) = fy.
  Hypothesis Ht : 0 < t0.
  Hypothesis Hlo : (p_min_step P : R) < t0.
  Hypothesis Hlo0 : 0 <= (p_min_step P : R).
  Hypothesis Hhi : t0 < (p_max_step P : R).
  Hypothesis Hls : (2 <= p_max_linesearch P)%Z.
  Hypothesis Hft : (p_ftol P : R) <= 1 / 3.
  Hypothesis Hb : 0 < b.
  Hypothesis Hg : p_gtol P * a < b.
  Hypothesis Hab : 2 * b < a.
  Let m := (pt_f pt - fy) / t0.
  Hypothesis Hm1 : a + b <= 3 * m.
  Hypothesis Hm2 : 3 * m <= a + b + sqrt (a * b).

  Lemma evals_log k st st' : evals f k st st' -> exists l, log st' = log st ++ l.
  Proof.
    induction 1 as [|k st x g st' H IH]; [exists []; now rewrite app_nil_r|]. destruct IH as [l IH].
    exists (x :: l). rewrite IH, Hlog. now rewrite <- app_assoc.
  Qed.

  Let v0 : mt_vars Rnum T :=
    mkMt (mkInterval (N := Rnum) 0 (pt_f pt) (- a) 0 (pt_f pt) (- a) t0 false) true 0 (p_max_step P - p_min_step P)
         (2 * (p_max_step P - p_min_step P)) (pt_st pt) (pt_g pt) 0.

  Lemma step0 : mt_step P v0 = t0.
  Proof.
    unfold mt_step, v0. cbn [mt_iv i_t i_brackt andb orb]. un.
    assert (H1 : (p_min_step P : R) <= t0) by lra. ff H1. assert (H2 : t0 <= (p_max_step P : R)) by lra. ff H2. reflexivity.
  Qed.

  Lemma mean : (pt_f pt : R) - fy = m * t0.
  Proof. unfold m. field. lra. Qed.

  Lemma round0 : exists v1, mt_round P f (pt_x pt) d (pt_f pt) (- a) (p_ftol P * - a) v0 = inl v1 /\
    mt_step P v1 = p_min_step P /\ mt_count v1 = 1%Z /\
    log (mt_st v1) = log (pt_st pt) ++ [vecadd (N := Rnum) (pt_x pt) d t0].
  Proof.
    pose proof mean as Hmean. unfold mt_round. cbv zeta. rewrite step0.
    change (mt_st v0) with (pt_st pt). change (mt_g v0) with (pt_g pt).
    destruct (Hev (pt_st pt) (pt_g pt)) as [E1 E2]. cbv zeta in E1, E2.
    set (q := call_eval f (pt_st pt) (vecadd (N := Rnum) (pt_x pt) d t0) (pt_g pt)) in *.
    assert (Es : log (pt_st q) = log (pt_st pt) ++ [vecadd (N := Rnum) (pt_x pt) d t0]) by apply Hlog.
    clearbody q. change (i_brackt (mt_iv v0)) with false. cbn [andb]. rewrite E1, E2. un.
    assert (N1 : Reqb t0 (p_max_step P) = false) by (apply Reqb_f; lra). rewrite N1. cbn [andb].
    assert (N2 : Reqb t0 (p_min_step P) = false) by (apply Reqb_f; lra). rewrite N2. cbn [andb].
    change (mt_count v0) with 0%Z. assert (N3 : (p_max_linesearch P <=? 0 + 1)%Z = false) by (apply Z.leb_gt; lia). rewrite N3.
    assert (N4 : Rleb (Rabs (- b)) (p_gtol P * - - a) = false).
    { apply Rleb_f. rewrite Rabs_Ropp, Rabs_right by lra. rewrite Ropp_involutive. exact Hg. }
    rewrite N4, andb_false_r.
    eexists. split; [reflexivity|].
    assert (Dec : fy <= pt_f pt + t0 * (p_ftol P * - a)).
    { assert (p_ftol P * a <= m) by nra. nra. }
    assert (Up : forall tmax, 0 <= tmax -> update_trial_interval (N := Rnum) (mkInterval (N := Rnum) 0 (pt_f pt) (- a) 0 (pt_f pt) (- a) t0 false) fy (- b) 0 tmax
      = (mkInterval (N := Rnum) t0 fy (- b) 0 (pt_f pt) (- a) 0 false, 0%Z)).
    { intros tmax Htm. assert (Eth : ((pt_f pt : R) - fy) * 3 / (t0 - 0) + - a + - b = 3 * m - a - b) by (rewrite Hmean; field; lra).
      assert (Df : fy <= pt_f pt) by nra.
      apply update_back; [lra|lra|lra|lra|exact Df|exact Htm| |].
      - rewrite Eth. lra.
      - rewrite Eth. replace (- a * - b) with (sqrt (a * b) * sqrt (a * b)) by (rewrite sqrt_sqrt; [ring|nra]).
        apply Rmult_le_compat; lra. }
    assert (Mv : mt_iv (mt_next P (pt_f pt) (- a) (p_ftol P * - a) v0 t0 q (- b)) = mkInterval (N := Rnum) t0 fy (- b) 0 (pt_f pt) (- a) 0 false /\
      mt_uinfo (mt_next P (pt_f pt) (- a) (p_ftol P * - a) v0 t0 q (- b)) = 0%Z).
    { unfold mt_next, v0, mt_stmin, mt_stmax. cbv zeta. cbn [mt_iv i_x i_fx i_dx i_y i_fy i_dy i_t i_brackt mt_stage1 mt_width mt_prev_width mt_count andb].
      rewrite E2. un. ff Dec. rewrite andb_false_r. cbn [andb].
      assert (Htm : 0 <= t0 + 4 * (t0 - 0)) by lra. rewrite (Up _ Htm). cbn [fst snd i_brackt mt_iv mt_uinfo]. split; reflexivity. }
    destruct Mv as [Mv Mu]. destruct (mt_next_vars P (pt_f pt) (- a) (p_ftol P * - a) v0 t0 q (- b)) as (C1 & C2 & _).
    split; [|split; [rewrite C1; reflexivity|rewrite C2; exact Es]].
    unfold mt_step. rewrite Mv, Mu. cbn [i_t i_brackt andb orb]. un.
    destruct (Rltb 0 (p_min_step P)) eqn:E.
    - assert (H2 : (p_min_step P : R) <= p_max_step P) by lra. ff H2. reflexivity.
    - apply Rltb_f in E. assert (H2 : 0 <= (p_max_step P : R)) by lra. ff H2. apply Rle_antisym; assumption.
  Qed.

  Lemma search_back fuel r : line_search_morethuente P f fuel pt d t0 = Some r ->
    exists more, log (pt_st (s_pt r)) = log (pt_st pt) ++ vecadd (N := Rnum) (pt_x pt) d t0 :: vecadd (N := Rnum) (pt_x pt) d (p_min_step P) :: more.
  Proof.
    intros H. unfold line_search_morethuente in H. unfold nzero in H. un.
    assert (H1 : Rleb t0 0 = false) by (apply Rleb_f; exact Ht). rewrite H1 in H. cbv zeta in H. rewrite Hdg in H.
    assert (H2 : Rltb 0 (- a) = false) by (apply Rltb_f; lra). rewrite H2 in H.
    destruct fuel as [|fuel]; [discriminate|]. cbn [morethuente_loop] in H.
    destruct round0 as (v1 & R1 & R2 & R3 & R4). change (mt_round P f (pt_x pt) d (pt_f pt) (- a) (p_ftol P * - a) v0) with
      (mt_round P f (pt_x pt) d (pt_f pt) (- a) (p_ftol P * - a)
        (mkMt (mkInterval (N := Rnum) 0 (pt_f pt) (- a) 0 (pt_f pt) (- a) t0 false) true 0 (p_max_step P - p_min_step P)
         (2 * (p_max_step P - p_min_step P)) (pt_st pt) (pt_g pt) 0)) in R1.
    match type of H with match ?u with _ => _ end = _ => change u with
      (mt_round P f (pt_x pt) d (pt_f pt) (- a) (p_ftol P * - a)
        (mkMt (mkInterval (N := Rnum) 0 (pt_f pt) (- a) 0 (pt_f pt) (- a) t0 false) true 0 (p_max_step P - p_min_step P)
         (2 * (p_max_step P - p_min_step P)) (pt_st pt) (pt_g pt) 0)) in H end.
    rewrite R1 in H. destruct fuel as [|fuel]; [discriminate|]. cbn [morethuente_loop] in H.
    assert (K : forall st, (exists l, log st = (log (pt_st pt) ++ [vecadd (N := Rnum) (pt_x pt) d t0]) ++ [vecadd (N := Rnum) (pt_x pt) d (p_min_step P)] ++ l) ->
      exists more, log st = log (pt_st pt) ++ vecadd (N := Rnum) (pt_x pt) d t0 :: vecadd (N := Rnum) (pt_x pt) d (p_min_step P) :: more).
    { intros st [l E]. exists l. rewrite E, <- app_assoc. reflexivity. }
    apply K. clear K.
    assert (Ep : forall g, log (pt_st (call_eval f (mt_st v1) (vecadd (N := Rnum) (pt_x pt) d (mt_step P v1)) g)) =
      (log (pt_st pt) ++ [vecadd (N := Rnum) (pt_x pt) d t0]) ++ [vecadd (N := Rnum) (pt_x pt) d (p_min_step P)]).
    { intros g. rewrite <- R4, <- R2. apply Hlog. }
    match type of H with match ?u with _ => _ end = _ => destruct u as [v2|r2] eqn:E end.
    - apply mt_round_next in E. cbv zeta in E. destruct E as (E1 & E2 & _).
      match type of E1 with v2 = mt_next _ ?a1 ?a2 ?a3 ?a4 ?a5 ?a6 ?a7 => destruct (mt_next_vars P a1 a2 a3 a4 a5 a6 a7) as (C1 & C2 & _) end.
      rewrite <- E1 in C1, C2. apply mt_loop_evals in H; [|rewrite R3 in *; lia]. destruct H as (k & H & _). apply evals_log in H.
      destruct H as [l H]. exists l. rewrite H, C2, app_assoc. exact (f_equal (fun u => u ++ l) (Ep (mt_g v1))).
    - injection H as <-. apply mt_round_end in E; [|rewrite R3; lia]. destruct E as (E1 & E2 & _). exists []. rewrite app_nil_r. rewrite E2. apply Ep.
  Qed.
End Search.

Section Back.
  Context {St : Type}.
  Variables (n : nat) (z : nat -> bool) (O : options Rnum).
  Variable f : objective Rnum St.
  Variables (F : list R -> R) (G : list R -> list R).
  Variables (fuel lsfuel : nat) (st : St) (x0 y : list R).
  Hypothesis Hf : computes n z f F G.
  Hypothesis Hx : length x0 = n.
  Hypothesis Hz : vanishes z x0.
  Hypothesis Hs : searches O MoreThuente.
  Hypothesis Hd : documented O MoreThuente n.
  Hypothesis Hm : (0 <= o_m O)%Z.
  Hypothesis Hls : (2 <= o_max_linesearch O)%Z.
  Hypothesis Hft : o_ftol O <= 1 / 3.
  Hypothesis Hnc : o_epsilon O * Rmax 1 (norm n x0) < norm n (G x0).
  Let t0 := 1 / norm n (G x0).
  Hypothesis Hlo : o_min_step O < t0.
  Hypothesis Hhi : t0 < o_max_step O.
  Hypothesis Hy : steepest n x0 (G x0) t0 y.
  Hypothesis Hfl : flattens O n F G t0 x0 y.

  Lemma see_computes : computes n z (see f) F G.
  Proof. intros s x g H1 H2. exact (Hf (fst s) x g H1 H2). Qed.

  Lemma steepest_vecadd (g : list R) t w : length g = n -> steepest n x0 g t w -> w = vecadd (N := Rnum) x0 (vecncpy (N := Rnum) g) t.
  Proof.
    intros Hg [H1 H2]. assert (Hl : length (vecncpy (N := Rnum) g) = n) by now apply length_vecncpy.
    apply (nth_ext _ _ 0 0); [rewrite H1; symmetry; now apply length_vecadd|]. intros i Hi. rewrite H1 in Hi.
    change (entry w i = entry (vecadd (N := Rnum) x0 (vecncpy (N := Rnum) g) t) i).
    rewrite (entry_vecadd n), (entry_vecncpy n), H2 by assumption. ring.
  Qed.

  Lemma turns_back st' seen out w : steepest n x0 (G x0) (o_min_step O) w ->
    fmin_lbfgs O (see f) None fuel lsfuel (st, []) x0 = Some ((st', seen), out) ->
    exists rest, seen = x0 :: y :: w :: rest.
  Proof.
    intros Hw H. assert (Hc : (o_c O : R) = 0) by (destruct Hs as [[_ C]|[C _]]; [discriminate|exact C]).
    pose proof see_computes as Hf'. rewrite (fmin_unfold O MoreThuente) in H by exact Hs.
    apply minimize_start in H. destruct H as [(code & Ec & H & Ho)|(b & e & Hck & H)].
    { exfalso. rewrite <- Hx in Hd. apply (checked_documented O MoreThuente _ Hs) in Hd. destruct Hd as (b & e & C). apply check_ok in C. rr. congruence. }
    rr. rewrite Hx in Hck. destruct H as [(Hm' & _)|(_ & H)]; [exfalso; change (p_m (to_params O MoreThuente)) with (o_m O) in Hm'; lia|].
    cbv zeta in H. set (P := to_params O MoreThuente) in *. set (s := init_state P (see f) b e (st, []) x0) in *.
    assert (Eo : owl P = false) by exact (not_owl n O MoreThuente b e Hck Hc). rewrite Eo in H.
    assert (Hi : inv n z P F G b e s) by (apply init_inv; [exact Hf'|exact (kf_c n O MoreThuente b e Hck)|split; assumption]).
    assert (Ex : pt_x (l_pt s) = x0).
    { destruct (eval_at n z (see f) F G Hf' (st, []) x0 (repeat nzero (length x0)) (conj Hx Hz)) as (E & _). exact E. }
    pose proof (inv_g _ _ _ _ _ _ _ _ Hi) as Eg. rewrite Ex in Eg. destruct (inv_gf _ _ _ _ _ _ _ _ Hi) as [Ig Igz]. rewrite Eg in Ig, Igz.
    pose proof (inv_f _ _ _ _ _ _ _ _ Hi) as Ef. rewrite Ex in Ef.
    assert (Pn : 0 < norm n (G x0)).
    { pose proof (ck_epsilon _ _ _ _ Hck) as E. unfold nzero in E. rnin E. apply Rltb_f in E. change (p_epsilon P) with (o_epsilon O) in E.
      pose proof (Rmax_l 1 (norm n x0)). rr. nra. }
    destruct H as [(Hv & _)|(_ & l & en & Hr & H & _)].
    { exfalso. change (converged P (vec2norm (N := Rnum) (pt_x (l_pt s) : list R)) (vec2norm (N := Rnum) (pt_g (l_pt s) : list R)) = true) in Hv.
      apply (converged_le n) in Hv; [|rewrite Ex; exact Hx|rewrite Eg; exact Ig]. rewrite Ex, Eg in Hv. rr. lra. }
    apply run_see in Hr; [|exact (kf_ls n O MoreThuente b e Hck)]. destruct Hr as (r & lf & more & Er & Em).
    assert (Em' : seen = snd (pt_st (s_pt r)) ++ more) by exact (eq_trans (f_equal snd H) Em).
    pose proof (first_step_norm n z O (see f) F G b e (st, []) x0 Hf' Hck Hc Hx Hz) as Est. fold P s t0 in Est.
    assert (Ed : l_d s = vecncpy (N := Rnum) (G x0)).
    { pose proof (h_d _ _ _ _ _ _ (init_hist O MoreThuente (see f) b e (st, []) x0)) as Ed. fold P s in Ed. rewrite Ed. cbn [differences]. rewrite firstn_nil. unfold dir_of.
      fold P. rewrite Eo, Eg. reflexivity. }
    assert (Esn : snd (pt_st (l_pt s)) = [x0]) by reflexivity.
    unfold run_line_search in Er. rewrite Eo in Er. change (p_linesearch P) with MoreThuente in Er. cbv iota in Er.
    set (d := vecncpy (N := Rnum) (G x0) : list R) in *. assert (Hld : length d = n) by (apply length_vecncpy; exact Ig).
    assert (Edg : forall v, length v = n -> (vecdot (N := Rnum) v d : R) = - dot n v (G x0)).
    { intros v Hv. rewrite (vecdot_dot n) by assumption. rewrite dot_comm. unfold d. rewrite dot_ncpy_l by assumption. rewrite dot_comm. ring. }
    assert (Er' : line_search_morethuente P (see f) lf (l_pt s) (l_d s) (l_step s) = Some r) by exact Er.
    rewrite Ed, Est in Er'.
    assert (Efy : fine n z d) by (apply fine_vecncpy; split; assumption).
    assert (Ey : y = vecadd (N := Rnum) x0 d t0) by (apply steepest_vecadd; assumption).
    assert (Ew : w = vecadd (N := Rnum) x0 d (o_min_step O)) by (apply steepest_vecadd; assumption).
    destruct Hfl as (L1 & L2 & L3 & L4 & L5).
    assert (Pt : 0 < t0) by (apply Rdiv_lt_0_compat; lra).
    destruct Hd as (_ & _ & _ & _ & (D1 & _) & _).
    pose proof (search_back P (see f) snd (fun _ _ _ => eq_refl) (l_pt s) d t0 (dot n (G x0) (G x0)) (dot n (G y) (G x0)) (F y)) as K.
    rewrite Ex in K. assert (Epf : (pt_f (l_pt s) : R) = F x0) by (rewrite Ef; unfold F1; change (p_c P) with (o_c O); rr; rewrite Hc; ring).
    destruct (K) with (fuel := lf) (r := r) as [more' Es]; try assumption; try (rewrite Epf; assumption).
    - rewrite Eg. apply Edg. exact Ig.
    - intros st1 g1. cbv zeta. assert (Hyf : fine n z (vecadd (N := Rnum) x0 d t0)) by (apply fine_vecadd; [split; assumption|exact Efy]).
      destruct (eval_at n z (see f) F G Hf' st1 _ g1 Hyf) as (_ & Q2 & Q3 & Q4). rewrite <- Ey in Q4. split.
      + refine (eq_trans (f_equal (fun v => vecdot (N := Rnum) v d : R) Q2) _). rewrite <- Ey. apply Edg. apply Q4.
      + refine (eq_trans Q3 _). now rewrite <- Ey.
    - exists (more' ++ more). rewrite Em', Es, Esn, <- Ey, <- app_assoc. change (p_min_step P) with (o_min_step O). rewrite <- Ew. reflexivity.
  Qed.
End Back.
