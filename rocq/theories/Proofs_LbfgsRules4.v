(** The evaluations of the More-Thuente search (C118). *)
From Coq Require Import String ZArith List Bool Arith Reals Lra Lia Psatz.
From Verif Require Import Prelude Num Spec_Rescale Proofs_Rescale Model_Lbfgs Proofs_Poisson Spec_Lbfgs Spec_LbfgsBack Spec_LbfgsRules
  Proofs_Lbfgs Proofs_LbfgsTrace Proofs_LbfgsVec Proofs_LbfgsReal Proofs_LbfgsTop Proofs_LbfgsDir Proofs_LbfgsDescent
  Proofs_LbfgsCurv Proofs_LbfgsOpts Proofs_LbfgsQuad1 Proofs_LbfgsQuad2 Proofs_LbfgsQuad3 Proofs_LbfgsBack Proofs_LbfgsRules1 Proofs_LbfgsRules2 Proofs_LbfgsRules3.
Import ListNotations.
Local Open Scope R_scope.

Section Search.
  Context {T : Type}.
  Variable P : params Rnum.
  Variable f : objective Rnum T.
  Variable log : T -> list (list R).
  Hypothesis Hlog : forall st x g, log (fst (f st x g)) = log st ++ [x].
  Variables (pt : point Rnum T) (d : list R).
  Variable t0 : R.
  (** Value and slope along the line. *)
  Variables (h h' : R -> R).
  Hypothesis Hdg : (vecdot (N := Rnum) (pt_g pt) d : R) = h' 0.
  Hypothesis Hf0 : (pt_f pt : R) = h 0.
  Hypothesis Hev : forall t st g, let q := call_eval f st (vecadd (N := Rnum) (pt_x pt) d t) g in
    (vecdot (N := Rnum) (pt_g q) d : R) = h' t /\ (pt_f q : R) = h t.
  Let mu : R := p_ftol P. Let eta : R := p_gtol P. Let xtol : R := p_xtol P. Let lo : R := p_min_step P. Let hi : R := p_max_step P.
  Hypothesis Hd0 : h' 0 < 0.
  Hypothesis Hmu : 0 <= mu < 1.
  Hypothesis Heta : 4 * mu <= eta.
  Hypothesis Hlo0 : 0 <= lo.
  Hypothesis Hhi0 : lo <= hi.
  Notation at_t t := (vecadd (N := Rnum) (pt_x pt) d t).
  Notation follows := (follows mu eta xtol lo hi h h' t0).
  Notation round := (mt_round P f (pt_x pt) d (h 0) (h' 0) (p_ftol P * h' 0)).
  Notation loop fuel := (morethuente_loop P f fuel (pt_x pt) d (h 0) (h' 0) (p_ftol P * h' 0)).

  Definition vs (first : bool) (x y : R) (b : bool) (u W PW : R) (st : T) (g : list R) (k : Z) : mt_vars Rnum T :=
    mkMt (mkInterval (N := Rnum) x (h x) (h' x) y (h y) (h' y) u b) first 0 W PW st g k.

  Lemma clamp_R (u : R) : (if Rltb hi (if Rltb u lo then lo else u) then hi else if Rltb u lo then lo else u) = Rmin hi (Rmax lo u).
  Proof.
    rewrite !ltb_dec. destruct (Rlt_dec u lo); unfold Rmax, Rmin; destruct (Rle_dec lo u); try lra;
    repeat (match goal with |- context [Rlt_dec ?a ?c] => destruct (Rlt_dec a c) | |- context [Rle_dec ?a ?c] => destruct (Rle_dec a c) end); lra.
  Qed.

  Lemma stmin_R x y b fx dx fy dy u : mt_stmin (mkInterval (N := Rnum) x fx dx y fy dy u b) = least x y b.
  Proof. unfold mt_stmin, least. cbn [i_brackt i_x i_y]. destruct b; [apply min2_R|reflexivity]. Qed.
  Lemma stmax_R x y b fx dx fy dy u : mt_stmax (mkInterval (N := Rnum) x fx dx y fy dy u b) = most x y b u.
  Proof. unfold mt_stmax, most. cbn [i_brackt i_x i_y i_t]. destruct b; [apply max2_R|reflexivity]. Qed.

  Lemma outside_R x y fx dx fy dy u t : Rmin x y < t < Rmax x y -> mt_outside (mkInterval (N := Rnum) x fx dx y fy dy u true) t = false.
  Proof. intro H. unfold mt_outside. rewrite stmin_R, stmax_R. cbn [least most]. un. apply orb_false_iff. split; apply Rleb_f; rr; lra. Qed.
  Lemma narrow_R x y fx dx fy dy u : xtol * Rmax x y < Rmax x y - Rmin x y -> mt_narrow P (mkInterval (N := Rnum) x fx dx y fy dy u true) = false.
  Proof. intro H. unfold mt_narrow. rewrite stmin_R, stmax_R. cbn [least most]. un. apply Rleb_f. exact H. Qed.

  Lemma step_R first x y b u W PW st g k : inside xtol x y b (Rmin hi (Rmax lo u)) -> (k + 1 < p_max_linesearch P)%Z ->
    mt_step P (vs first x y b u W PW st g k) = Rmin hi (Rmax lo u).
  Proof.
    intros Hi Hk. unfold mt_step. cbv zeta. unfold vs. cbn [mt_iv i_t i_brackt i_x mt_count mt_uinfo Z.eqb negb]. un.
    fold lo hi. rewrite clamp_R. destruct b; [|reflexivity]. destruct (Hi eq_refl) as [I1 I2].
    rewrite outside_R by exact I1. rewrite narrow_R by exact I2.
    assert (Z6 : (p_max_linesearch P <=? k + 1)%Z = false) by (apply Z.leb_gt; lia). rewrite Z6. reflexivity.
  Qed.

  Lemma stage_R (first : bool) t : (first && Rleb (h t) (h 0 + t * (p_ftol P * h' 0)) && Rleb (Rmin (p_ftol P) (p_gtol P) * h' 0) (h' t) = true) <-> first = true /\ settled mu eta h h' t.
  Proof.
    unfold settled, enough. fold mu eta. rewrite !andb_true_iff, !Rleb_t. replace (h 0 + t * (mu * h' 0)) with (h 0 + mu * h' 0 * t) by ring. tauto.
  Qed.

  Lemma round_follows ts first x y b W PW t first' x' y' b' u' u st g k :
    follows ts first x y b W PW t -> lo < t < hi -> ~ acceptable mu eta h h' t -> downhill h' x b t ->
    (first' = true <-> first = true /\ ~ settled mu eta h h' t) ->
    chooses (fun r => h r - tilt mu h h' first' x t * r) (fun r => h' r - tilt mu h h' first' x t) x y b t (least x y b) (most x y b t) x' y' b' u' ->
    t = Rmin hi (Rmax lo u) -> (k + 1 < p_max_linesearch P)%Z ->
    exists g' st', round (vs first x y b u W PW st g k) =
        inl (vs first' x' y' b' (halved x' y' b' PW u') (if b' then Rabs (y' - x') else W) (if b' then W else PW) st' g' (k + 1)) /\
      log st' = log st ++ [at_t t].
  Proof.
    intros Hfo Ht Hr Hw Hf Hc Et Hk. pose proof (follows_good mu eta xtol lo hi h h' t0 Hd0 Hmu Heta Hlo0 _ _ _ _ _ _ _ _ first' Hfo Ht Hr Hw Hf) as Hg.
    destruct (follows_sound mu eta xtol lo hi h h' t0 Hd0 Hmu Heta Hlo0 _ _ _ _ _ _ _ _ Hfo) as (_ & Hi & _).
    assert (Eu : u = t).
    { assert (Rmax lo u = t) by (unfold Rmin in Et; destruct (Rle_dec hi (Rmax lo u)); lra). unfold Rmax in H. destruct (Rle_dec lo u); lra. }
    assert (Est : mt_step P (vs first x y b u W PW st g k) = t) by (rewrite Et; apply step_R; [rewrite <- Et; exact Hi|exact Hk]).
    unfold mt_round. cbv zeta. rewrite Est. set (v := vs first x y b u W PW st g k). change (mt_st v) with st. change (mt_g v) with g.
    destruct (Hev t st g) as [E1 E2]. cbv zeta in E1, E2.
    set (q := call_eval f st (at_t t) g) in *. assert (Es : log (pt_st q) = log st ++ [at_t t]) by apply Hlog.
    clearbody q. rewrite E1, E2. change (mt_count v) with k. change (mt_uinfo v) with 0%Z. cbn [Z.eqb negb].
    assert (N0 : i_brackt (mt_iv v) && (mt_outside (mt_iv v) t || false) = false).
    { unfold v, vs. cbn [mt_iv i_brackt]. destruct b; [|reflexivity]. destruct (Hi eq_refl) as [I1 I2]. rewrite outside_R by exact I1. reflexivity. }
    rewrite N0. un.
    assert (N1 : Reqb t (p_max_step P) = false) by (apply Reqb_f; fold hi; lra). rewrite N1. cbn [andb].
    assert (N2 : Reqb t (p_min_step P) = false) by (apply Reqb_f; fold lo; lra). rewrite N2. cbn [andb].
    assert (N3 : i_brackt (mt_iv v) && mt_narrow P (mt_iv v) = false).
    { unfold v, vs. cbn [mt_iv i_brackt]. destruct b; [|reflexivity]. destruct (Hi eq_refl) as [I1 I2]. rewrite narrow_R by exact I2. reflexivity. }
    rewrite N3. assert (N4 : (p_max_linesearch P <=? k + 1)%Z = false) by (apply Z.leb_gt; lia). rewrite N4.
    assert (N5 : Rleb (h t) (h 0 + t * (p_ftol P * h' 0)) && Rleb (Rabs (h' t)) (p_gtol P * - h' 0) = false).
    { apply not_true_is_false. rewrite andb_true_iff, !Rleb_t. intros [A1 A2]. apply Hr. split.
      - unfold enough. fold mu in A1. lra.
      - rewrite (Rabs_left (h' 0)) by exact Hd0. exact A2. }
    rewrite N5. exists (pt_g q), (pt_st q). split; [|exact Es].
    set (s := tilt mu h h' first' x t) in *. set (kk := fun r => h r - s * r) in *. set (kk' := fun r => h' r - s) in *.
    assert (Hm : b = true -> least x y b <= most x y b t) by (intros ->; cbn [least most]; apply Rminmax_le || (unfold Rmin, Rmax; destruct (Rle_dec x y); lra)).
    assert (Hx : b = false -> x < t) by (intros ->; exact Hw).
    pose proof (update_chooses kk kk' x y b t (least x y b) (most x y b t) Hg x' y' b' u' Hm Hx Hc) as Up.
    unfold mt_next. cbv zeta. rewrite E2. unfold v, vs. cbn [mt_iv mt_stage1 mt_width mt_prev_width mt_count].
    rewrite stmin_R, stmax_R, Eu, min2_R. cbn [i_x i_fx i_dx i_y i_fy i_dy i_t i_brackt]. un.
    assert (Efi : (if first && Rleb (h t) (h 0 + t * (p_ftol P * h' 0)) && Rleb (Rmin (p_ftol P) (p_gtol P) * h' 0) (h' t) then false else first) = first').
    { destruct (first && Rleb (h t) (h 0 + t * (p_ftol P * h' 0)) && Rleb (Rmin (p_ftol P) (p_gtol P) * h' 0) (h' t)) eqn:E.
      - apply stage_R in E. destruct first'; [|reflexivity]. destruct Hf as [F _]. destruct (F eq_refl). tauto.
      - destruct first.
        + symmetry. apply Hf. split; [reflexivity|]. intro Q. apply not_true_iff_false in E. apply E. apply stage_R. split; [reflexivity|exact Q].
        + destruct first'; [|reflexivity]. destruct Hf as [F _]. destruct (F eq_refl). discriminate. }
    change (p_ftol P) with mu in Efi |- *. change (p_gtol P) with eta in Efi |- *. rewrite Efi.
    set (r := if first' && Rltb (h 0 + t * (mu * h' 0)) (h t) && Rleb (h t) (h x) then _ else _).
    assert (Er : r = (mkInterval (N := Rnum) x' (h x') (h' x') y' (h y') (h' y') u' b', 0%Z)).
    { unfold r. clear r.
      destruct (first' && Rltb (h 0 + t * (mu * h' 0)) (h t) && Rleb (h t) (h x)) eqn:E.
      - assert (Ss : s = mu * h' 0).
        { apply andb_prop in E. destruct E as [E E3]. apply andb_prop in E. destruct E as [E4 E5]. apply Rltb_t in E5. apply Rleb_t in E3.
          unfold s, tilt, enough. rewrite E4. destruct (Rlt_dec (h 0 + mu * h' 0 * t) (h t)) as [L|L]; [|exfalso; apply L; lra]. destruct (Rle_dec (h t) (h x)); [reflexivity|contradiction]. }
        assert (Ek : forall w, h w - w * (mu * h' 0) = kk w) by (intro w; unfold kk; rewrite Ss; ring).
        assert (Ek' : forall w, h' w - mu * h' 0 = kk' w) by (intro w; unfold kk'; rewrite Ss; ring).
        rewrite !Ek, !Ek', Up. cbn [fst snd i_x i_fx i_dx i_y i_fy i_dy i_t i_brackt].
        assert (Eb : forall w, kk w + w * (mu * h' 0) = h w) by (intro w; unfold kk; rewrite Ss; ring).
        assert (Eb' : forall w, kk' w + mu * h' 0 = h' w) by (intro w; unfold kk'; rewrite Ss; ring).
        rewrite !Eb, !Eb'. reflexivity.
      - assert (Ss : s = 0).
        { unfold s, tilt, enough. destruct first'; [|reflexivity]. destruct (Rlt_dec (h 0 + mu * h' 0 * t) (h t)) as [L|L]; [|reflexivity].
          destruct (Rle_dec (h t) (h x)) as [M|M]; [|reflexivity]. exfalso. apply not_true_iff_false in E. apply E. cbn [andb]. apply andb_true_intro.
          split; [apply Rltb_t; lra|apply Rleb_t; exact M]. }
        assert (Ek : forall w, kk w = h w) by (intro w; unfold kk; rewrite Ss; ring).
        assert (Ek' : forall w, kk' w = h' w) by (intro w; unfold kk'; rewrite Ss; ring).
        rewrite !Ek, !Ek' in Up. exact Up. }
    rewrite Er. cbn [fst snd i_x i_fx i_dx i_y i_fy i_dy i_t i_brackt]. unfold halved, vs. destruct b'; [|reflexivity].
    rewrite two_thirds_R, half_R.
    assert (Eh : (if Rleb (66 / 100 * PW) (Rabs (y' - x')) then x' + 1 / 2 * (y' - x') else u') =
      (if Rle_dec (66 / 100 * PW) (Rabs (y' - x')) then (x' + y') / 2 else u')).
    { unfold Rleb. destruct Rle_dec; [field|reflexivity]. }
    rewrite Eh. reflexivity.
  Qed.

  Let v0 : mt_vars Rnum T := vs true 0 0 false t0 (hi - lo) (2 * (hi - lo)) (pt_st pt) (pt_g pt) 0.

  Lemma reach_rules fuel r ts first x y b W PW t : follows ts first x y b W PW t -> (Z.of_nat (length ts) < p_max_linesearch P)%Z ->
    loop fuel v0 = Some r ->
    exists fuel' u st g, loop fuel' (vs first x y b u W PW st g (Z.of_nat (length ts) - 1)) = Some r /\ t = Rmin hi (Rmax lo u) /\
      log st ++ [at_t t] = log (pt_st pt) ++ map (fun t => at_t t) ts.
  Proof.
    intros Hs Hl H. induction Hs as [|ts first x y b W PW t first' x' y' b' u' t' Hs IH Ht Hr Hw Hf Hc Et Hi].
    - exists fuel, t0, (pt_st pt), (pt_g pt). split; [exact H|]. split; [reflexivity|]. reflexivity.
    - rewrite app_length in *. cbn [length] in *. specialize (IH ltac:(lia)). destruct IH as (fuel' & u & st & g & L & Eu & El).
      destruct (follows_sound mu eta xtol lo hi h h' t0 Hd0 Hmu Heta Hlo0 _ _ _ _ _ _ _ _ Hs) as (_ & _ & Hne).
      destruct fuel' as [|fuel']; [discriminate|]. cbn [morethuente_loop] in L.
      destruct (round_follows ts first x y b W PW t first' x' y' b' u' u st g (Z.of_nat (length ts) - 1) Hs Ht Hr Hw Hf Hc Eu) as (g' & st' & R1 & R2); [lia|].
      match type of L with match ?u with _ => _ end = _ => assert (E : u = inl (vs first' x' y' b' (halved x' y' b' PW u') (if b' then Rabs (y' - x') else W) (if b' then W else PW) st' g' (Z.of_nat (length ts) - 1 + 1))) by exact R1 end.
      rewrite E in L. exists fuel', (halved x' y' b' PW u'), st', g'. split; [|split; [exact Et|]].
      + replace (Z.of_nat (length ts + 1) - 1)%Z with (Z.of_nat (length ts) - 1 + 1)%Z by lia. exact L.
      + rewrite R2, El, map_app, <- app_assoc. reflexivity.
  Qed.

  Hypothesis Ht0 : 0 < t0.

  Lemma search_rules fuel r ts first x y b W PW t : follows ts first x y b W PW t -> (Z.of_nat (length ts) < p_max_linesearch P)%Z ->
    line_search_morethuente P f fuel pt d t0 = Some r ->
    exists more, log (pt_st (s_pt r)) = log (pt_st pt) ++ map (fun t => at_t t) ts ++ more.
  Proof.
    intros Hs Hl H. unfold line_search_morethuente in H. unfold nzero in H. un.
    assert (H1 : Rleb t0 0 = false) by (apply Rleb_f; exact Ht0). rewrite H1 in H. cbv zeta in H. rewrite Hdg in H.
    assert (H2 : Rltb 0 (h' 0) = false) by (apply Rltb_f; lra). rewrite H2 in H. rewrite Hf0 in H.
    assert (H' : loop fuel v0 = Some r) by exact H.
    destruct (reach_rules fuel r ts first x y b W PW t Hs Hl H') as (fuel' & u & st & g & L & Eu & S3). clear H H'.
    destruct (follows_sound mu eta xtol lo hi h h' t0 Hd0 Hmu Heta Hlo0 _ _ _ _ _ _ _ _ Hs) as (_ & Hi & Hne).
    assert (Hl1 : (1 <= length ts)%nat) by (destruct ts; [contradiction|cbn; lia]).
    set (v := vs first x y b u W PW st g (Z.of_nat (length ts) - 1)) in *.
    assert (S1 : mt_step P v = t) by (rewrite Eu; apply step_R; [rewrite <- Eu; exact Hi|lia]).
    assert (S2 : mt_count v = (Z.of_nat (length ts) - 1)%Z) by reflexivity.
    destruct fuel' as [|fuel']; [discriminate|]. cbn [morethuente_loop] in L.
    assert (K : forall s1, (exists l, log s1 = (log (mt_st v) ++ [at_t t]) ++ l) -> exists more, log s1 = log (pt_st pt) ++ map (fun t => at_t t) ts ++ more).
    { intros s1 [l E]. exists l. rewrite E. change (mt_st v) with st. rewrite S3, <- app_assoc. reflexivity. }
    apply K. clear K. rewrite <- S1.
    assert (Ep : forall g, log (pt_st (call_eval f (mt_st v) (at_t (mt_step P v)) g)) = log (mt_st v) ++ [at_t (mt_step P v)]).
    { intros g1. apply Hlog. }
    match type of L with match ?u with _ => _ end = _ => destruct u as [v2|r2] eqn:E end.
    - apply mt_round_next in E. cbv zeta in E. destruct E as (E1 & E2 & _).
      match type of E1 with v2 = mt_next _ ?a1 ?a2 ?a3 ?a4 ?a5 ?a6 ?a7 => destruct (mt_next_vars P a1 a2 a3 a4 a5 a6 a7) as (C1 & C2 & _) end.
      rewrite <- E1 in C1, C2. apply mt_loop_evals in L; [|rewrite C1, S2 in *; lia]. destruct L as (k & L & _). apply (evals_log f log Hlog) in L.
      destruct L as [l L]. exists l. rewrite L, C2. exact (f_equal (fun u => u ++ l) (Ep (mt_g v))).
    - injection L as <-. apply mt_round_end in E; [|rewrite S2; lia]. destruct E as (E1 & E2 & _). exists []. rewrite app_nil_r. rewrite E2. apply Ep.
  Qed.
  (** The next step is not inside the interval: the best one is evaluated again and the search ends. *)
  Lemma round_outside first x y u W PW st g k : (k + 1 < p_max_linesearch P)%Z ->
    ~ (Rmin x y < Rmin hi (Rmax lo u) < Rmax x y) ->
    exists r, round (vs first x y true u W PW st g k) = inr r /\ s_ret r = LBFGSERR_ROUNDING_ERROR /\ log (pt_st (s_pt r)) = log st ++ [at_t x].
  Proof.
    intros Hk Ho. set (v := vs first x y true u W PW st g k).
    assert (Est : mt_step P v = x).
    { unfold mt_step. cbv zeta. unfold v, vs. cbn [mt_iv i_t i_brackt i_x mt_count mt_uinfo Z.eqb negb]. un. fold lo hi. rewrite clamp_R.
      assert (E : mt_outside (mkInterval (N := Rnum) x (h x) (h' x) y (h y) (h' y) u true) (Rmin hi (Rmax lo u)) = true).
      { unfold mt_outside. rewrite stmin_R, stmax_R. cbn [least most]. un. apply orb_true_iff. rewrite !Rleb_t. set (w := Rmin hi (Rmax lo u)) in *. clearbody w. rr. lra. }
      rewrite E. reflexivity. }
    unfold mt_round. cbv zeta. rewrite Est. set (q := call_eval f (mt_st v) (at_t x) (mt_g v)).
    assert (E : i_brackt (mt_iv v) && (mt_outside (mt_iv v) x || negb (mt_uinfo v =? 0)%Z) = true).
    { unfold v, vs. cbn [mt_iv i_brackt mt_uinfo Z.eqb negb andb]. rewrite orb_false_r. unfold mt_outside. rewrite stmin_R, stmax_R. cbn [least most]. un.
      apply orb_true_iff. rewrite !Rleb_t. unfold Rmin, Rmax. destruct (Rle_dec x y); rr; lra. }
    rewrite E. eexists. split; [reflexivity|]. split; [reflexivity|]. cbn [s_pt]. apply Hlog.
  Qed.

  Lemma search_outside fuel r ts first x y b W PW t first' x' y' u' : follows ts first x y b W PW t -> (Z.of_nat (length ts) + 1 < p_max_linesearch P)%Z ->
    lo < t < hi -> ~ acceptable mu eta h h' t -> downhill h' x b t ->
    (first' = true <-> first = true /\ ~ settled mu eta h h' t) ->
    chooses (fun r => h r - tilt mu h h' first' x t * r) (fun r => h' r - tilt mu h h' first' x t) x y b t (least x y b) (most x y b t) x' y' true u' ->
    ~ (Rmin x' y' < Rmin hi (Rmax lo (halved x' y' true PW u')) < Rmax x' y') ->
    line_search_morethuente P f fuel pt d t0 = Some r ->
    s_ret r = LBFGSERR_ROUNDING_ERROR /\ log (pt_st (s_pt r)) = log (pt_st pt) ++ map (fun t => at_t t) ts ++ [at_t x'].
  Proof.
    intros Hs Hl Ht Hr Hw Hf Hc Ho H. unfold line_search_morethuente in H. unfold nzero in H. un.
    assert (H1 : Rleb t0 0 = false) by (apply Rleb_f; exact Ht0). rewrite H1 in H. cbv zeta in H. rewrite Hdg in H.
    assert (H2 : Rltb 0 (h' 0) = false) by (apply Rltb_f; lra). rewrite H2 in H. rewrite Hf0 in H.
    assert (H' : loop fuel v0 = Some r) by exact H.
    destruct (reach_rules fuel r ts first x y b W PW t Hs ltac:(lia) H') as (fuel' & u & st & g & L & Eu & S3). clear H H'.
    destruct (follows_sound mu eta xtol lo hi h h' t0 Hd0 Hmu Heta Hlo0 _ _ _ _ _ _ _ _ Hs) as (_ & Hi & Hne).
    destruct fuel' as [|fuel']; [discriminate|]. cbn [morethuente_loop] in L.
    destruct (round_follows ts first x y b W PW t first' x' y' true u' u st g (Z.of_nat (length ts) - 1) Hs Ht Hr Hw Hf Hc Eu) as (g' & st' & R1 & R2); [lia|].
    match type of L with match ?u with _ => _ end = _ => assert (E : u = inl (vs first' x' y' true (halved x' y' true PW u') (Rabs (y' - x')) W st' g' (Z.of_nat (length ts) - 1 + 1))) by exact R1 end.
    rewrite E in L. destruct fuel' as [|fuel']; [discriminate|]. cbn [morethuente_loop] in L.
    destruct (round_outside first' x' y' (halved x' y' true PW u') (Rabs (y' - x')) W st' g' (Z.of_nat (length ts) - 1 + 1) ltac:(lia) Ho) as (r2 & Q1 & Q2 & Q3).
    match type of L with match ?u with _ => _ end = _ => assert (E2 : u = inr r2) by exact Q1 end. rewrite E2 in L. injection L as <-.
    split; [exact Q2|]. rewrite Q3, R2, S3, <- app_assoc. reflexivity.
  Qed.
End Search.
