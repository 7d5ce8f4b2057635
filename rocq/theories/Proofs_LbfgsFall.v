(** Objectives without a lower bound (C110). *)
From Coq Require Import String ZArith List Bool Arith Reals Lra Lia Psatz.
From Verif Require Import Prelude Num Spec_Rescale Proofs_Rescale Model_Lbfgs Proofs_Poisson Spec_Lbfgs Spec_LbfgsBack Spec_LbfgsQuad Spec_LbfgsFall
  Proofs_Lbfgs Proofs_LbfgsTrace Proofs_LbfgsVec Proofs_LbfgsReal Proofs_LbfgsTop Proofs_LbfgsDir Proofs_LbfgsDescent
  Proofs_LbfgsCurv Proofs_LbfgsOpts Proofs_LbfgsQuad1 Proofs_LbfgsQuad2 Proofs_LbfgsQuad3 Proofs_LbfgsBack.
Import ListNotations.
Local Open Scope R_scope.

Lemma grown_0 t0 : grown t0 0 = 0.
Proof. unfold grown. cbn. field. Qed.
Lemma grown_S t0 k : grown t0 (S k) = grown t0 k + t0 * 4 ^ k.
Proof. unfold grown. cbn [pow]. field. Qed.
Lemma grown_incr t0 k : 0 < t0 -> grown t0 k < grown t0 (S k).
Proof. intro H. rewrite grown_S. assert (0 < 4 ^ k) by (apply pow_lt; lra). nra. Qed.
Lemma grown_pos t0 k : 0 < t0 -> t0 <= grown t0 (S k).
Proof.
  intro H. induction k as [|k IH]; [rewrite grown_S, grown_0; cbn; lra|]. pose proof (grown_incr t0 (S k) H). lra.
Qed.
Lemma grown_nonneg t0 k : 0 < t0 -> 0 <= grown t0 k.
Proof. intro H. destruct k; [rewrite grown_0; lra|]. pose proof (grown_pos t0 k H). lra. Qed.

Lemma update_leap (x fx dx y fy dy t ft dt : R) : x < t -> dx < 0 -> dt <= dx -> ft <= fx ->
  update_trial_interval (N := Rnum) (mkInterval (N := Rnum) x fx dx y fy dy t false) ft dt x (t + 4 * (t - x)) =
  (mkInterval (N := Rnum) t ft dt y fy dy (t + 4 * (t - x)) false, 0%Z).
Proof.
  intros Hx Hd Ht Hf. unfold update_trial_interval. cbn [andb]. cbv zeta.
  assert (Es : fsigndiff (N := Rnum) dt dx = false).
  { unfold fsigndiff, nzero. un. assert (Q : 0 <= dt * (dx / Rabs dx)); [|now ff Q].
    rewrite (Rabs_left dx) by exact Hd. replace (dt * (dx / - dx)) with (- dt) by (field; lra). lra. }
  rewrite Es. un. ff Hf. assert (Ha : Rabs dx <= Rabs dt) by (rewrite !Rabs_left by lra; lra). ff Ha. cbv iota beta. tt Hx.
  assert (H1 : t + 4 * (t - x) <= t + 4 * (t - x)) by lra. ff H1. assert (H2 : x <= t + 4 * (t - x)) by lra. ff H2. reflexivity.
Qed.

Section Search.
  Context {T : Type}.
  Variable P : params Rnum.
  Variable f : objective Rnum T.
  Variable log : T -> list (list R).
  Hypothesis Hlog : forall st x g, log (fst (f st x g)) = log st ++ [x].
  Variables (pt : point Rnum T) (d : list R).
  Variables (t0 a f0 : R).
  Hypothesis Hdg : (vecdot (N := Rnum) (pt_g pt) d : R) = - a.
  Hypothesis Hf0 : (pt_f pt : R) = f0.
  Variables (phi psi : R -> R).
  Hypothesis Hev : forall t st g, let q := call_eval f st (vecadd (N := Rnum) (pt_x pt) d t) g in
    (vecdot (N := Rnum) (pt_g q) d : R) = - psi t /\ (pt_f q : R) = phi t.
  Hypothesis Hphi : phi 0 = f0.
  Hypothesis Hpsi : psi 0 = a.
  Hypothesis Hcc : forall s t, phi t <= phi s - psi s * (t - s).
  Hypothesis Ha : 0 < a.
  Hypothesis Ht0 : 0 < t0.
  Hypothesis Hlo : (p_min_step P : R) < t0.
  Hypothesis Hft : 0 <= (p_ftol P : R) < 1.
  Hypothesis Hgt : (p_gtol P : R) < 1.
  Hypothesis HM0 : 0 <= (p_max_step P : R).
  Notation at_t t := (vecadd (N := Rnum) (pt_x pt) d t).
  Notation M := (p_max_step P : R).
  Notation gr := (grown t0).

  Lemma steeper s t : s <= t -> psi s <= psi t.
  Proof. intro H. destruct (Req_dec s t) as [->|N]; [lra|]. pose proof (Hcc s t). pose proof (Hcc t s). nra. Qed.

  Definition leapt (stage : bool) (st : T) (g : list R) (k : nat) : mt_vars Rnum T :=
    mkMt (mkInterval (N := Rnum) (gr k) (phi (gr k)) (- psi (gr k)) 0 f0 (- a) (gr (S k)) false) stage 0 (p_max_step P - p_min_step P)
         (2 * (p_max_step P - p_min_step P)) st g (Z.of_nat k).

  Lemma leapt_step stage st g k : mt_step P (leapt stage st g k) = Rmin M (gr (S k)).
  Proof.
    unfold mt_step, leapt. cbn [mt_iv i_t i_brackt andb orb]. un. pose proof (grown_pos t0 k Ht0) as Hp.
    assert (H1 : (p_min_step P : R) <= gr (S k)) by lra. ff H1.
    destruct (Rltb M (gr (S k))) eqn:E; [apply Rltb_t in E; now rewrite Rmin_left by (rr; lra)|apply Rltb_f in E; now rewrite Rmin_right by exact E].
  Qed.

  Lemma decreases t : 0 <= t -> phi t <= f0 + t * (p_ftol P * - a) /\ a <= psi t.
  Proof. intro H. pose proof (Hcc 0 t) as C. rewrite Hphi, Hpsi in C. pose proof (steeper 0 t H) as S. rewrite Hpsi in S. split; [|exact S].
    assert (0 <= (1 - p_ftol P) * (a * t)) by (apply Rmult_le_pos; [lra|apply Rmult_le_pos; lra]). lra. Qed.

  Lemma leap_next stage st g k q : (pt_f q : R) = phi (gr (S k)) -> phi (gr (S k)) <= f0 + gr (S k) * (p_ftol P * - a) ->
    exists stage', mt_next P f0 (- a) (p_ftol P * - a) (leapt stage st g k) (gr (S k)) q (- psi (gr (S k))) = leapt stage' (pt_st q) (pt_g q) (S k).
  Proof.
    intros E2 D1. set (t := gr (S k)) in *. unfold leapt at 1, mt_next. cbv zeta. rewrite E2. unfold mt_stmin, mt_stmax.
    cbn [mt_iv i_x i_fx i_dx i_y i_fy i_dy i_t i_brackt mt_width mt_prev_width mt_count mt_stage1]. fold t. un.
    match goal with |- context [(if ?c then false else stage) && _] => set (sg := if c then false else stage) end.
    assert (Dn : Rltb (f0 + t * (p_ftol P * - a)) (phi t) = false) by (apply Rltb_f; exact D1). rewrite Dn, andb_false_r. cbn [andb].
    assert (Hk : gr k < t) by apply (grown_incr t0 k Ht0). assert (Hk0 : 0 <= gr k) by (apply grown_nonneg; exact Ht0).
    pose proof (decreases _ Hk0) as [_ Q1]. pose proof (steeper (gr k) t ltac:(lra)) as Q2. pose proof (Hcc (gr k) t) as Q3.
    rewrite update_leap by (first [lra|nra]). cbn [fst snd i_brackt].
    assert (Eg : t + 4 * (t - gr k) = gr (S (S k))) by (unfold t; rewrite !grown_S; cbn [pow]; ring).
    rewrite Eg. exists sg. unfold leapt. replace (Z.of_nat k + 1)%Z with (Z.of_nat (S k)) by lia. reflexivity.
  Qed.

  Lemma leap_round stage st g k :
    let q := call_eval f st (at_t (Rmin M (gr (S k)))) g in
    exists stage', mt_round P f (pt_x pt) d f0 (- a) (p_ftol P * - a) (leapt stage st g k) =
      if Rle_dec M (gr (S k)) then inr (mkSearch q M LBFGSERR_MAXIMUMSTEP)
      else if (p_max_linesearch P <=? Z.of_nat k + 1)%Z then inr (mkSearch q (gr (S k)) LBFGSERR_MAXIMUMLINESEARCH)
      else inl (leapt stage' (pt_st q) (pt_g q) (S k)).
  Proof.
    intro q. unfold mt_round. cbv zeta. rewrite leapt_step. change (mt_st (leapt stage st g k)) with st. change (mt_g (leapt stage st g k)) with g.
    destruct (Hev (Rmin M (gr (S k))) st g) as [E1 E2]. cbv zeta in E1, E2. fold q in E1, E2 |- *. clearbody q.
    rewrite E1, E2. change (i_brackt (mt_iv (leapt stage st g k))) with false. cbn [andb]. change (mt_count (leapt stage st g k)) with (Z.of_nat k). un.
    pose proof (grown_pos t0 k Ht0) as Hp.
    assert (Hst : 0 <= Rmin M (gr (S k))) by (apply Rmin_glb; lra).
    destruct (decreases _ Hst) as [D1 D2]. assert (D3 : - psi (Rmin M (gr (S k))) <= p_ftol P * - a) by nra.
    assert (B1 : Rleb (phi (Rmin M (gr (S k)))) (f0 + Rmin M (gr (S k)) * (p_ftol P * - a)) = true) by (apply Rleb_t; exact D1).
    assert (B2 : Rleb (- psi (Rmin M (gr (S k)))) (p_ftol P * - a) = true) by (apply Rleb_t; exact D3).
    rewrite B1, B2. cbn [andb]. destruct (Rle_dec M (gr (S k))) as [L|L].
    - rewrite Rmin_left by exact L. assert (B3 : Reqb M M = true) by (apply Reqb_t; reflexivity). rewrite B3. exists true. reflexivity.
    - apply Rnot_le_lt in L. rewrite Rmin_right in * by lra. set (t := gr (S k)) in *.
      assert (B3 : Reqb t M = false) by (apply Reqb_f; lra). rewrite B3. cbn [andb].
      assert (B4 : Reqb t (p_min_step P) = false) by (apply Reqb_f; lra). rewrite B4. cbn [andb].
      destruct (p_max_linesearch P <=? Z.of_nat k + 1)%Z eqn:Ek; [exists true; reflexivity|].
      assert (B5 : Rleb (Rabs (- psi t)) (p_gtol P * - - a) = false).
      { apply Rleb_f. rewrite Rabs_Ropp, Rabs_right by lra. nra. }
      rewrite B5. destruct (leap_next stage st g k q) as [stage' En]; [exact E2|exact D1|]. exists stage'. f_equal. exact En.
  Qed.

  Lemma leap_loop fuel : forall stage st g k r, (Z.of_nat k < p_max_linesearch P)%Z ->
    morethuente_loop P f fuel (pt_x pt) d f0 (- a) (p_ftol P * - a) (leapt stage st g k) = Some r ->
    exists K, (k < K)%nat /\ (Z.of_nat K <= p_max_linesearch P)%Z /\
      log (pt_st (s_pt r)) = log st ++ map (fun j => at_t (Rmin M (gr j))) (seq (S k) (K - k)) /\
      (forall j, (k < j < K)%nat -> gr j < M) /\
      (M <= gr K /\ s_ret r = LBFGSERR_MAXIMUMSTEP \/ gr K < M /\ Z.of_nat K = p_max_linesearch P /\ s_ret r = LBFGSERR_MAXIMUMLINESEARCH).
  Proof.
    induction fuel as [|fuel IH]; intros stage st g k r Hk H; [discriminate|]. cbn [morethuente_loop] in H.
    destruct (leap_round stage st g k) as [stage' E]. cbv zeta in E.
    match type of H with match ?u with _ => _ end = _ => change u with (mt_round P f (pt_x pt) d f0 (- a) (p_ftol P * - a) (leapt stage st g k)) in H end.
    rewrite E in H. set (q := call_eval f st (at_t (Rmin M (gr (S k)))) g) in *.
    assert (Es : log (pt_st q) = log st ++ [at_t (Rmin M (gr (S k)))]) by apply Hlog.
    destruct (Rle_dec M (gr (S k))) as [L|L]; [|destruct (p_max_linesearch P <=? Z.of_nat k + 1)%Z eqn:Ek].
    - injection H as <-. exists (S k). split; [lia|]. split; [lia|]. cbn [s_pt s_ret]. replace (S k - k)%nat with 1%nat by lia. cbn [seq map].
      split; [exact Es|]. split; [intros j Hj; lia|]. left. split; [exact L|reflexivity].
    - injection H as <-. apply Z.leb_le in Ek. exists (S k). split; [lia|]. split; [lia|]. cbn [s_pt s_ret]. replace (S k - k)%nat with 1%nat by lia. cbn [seq map].
      split; [exact Es|]. split; [intros j Hj; lia|]. right. split; [lra|]. split; [lia|reflexivity].
    - apply Z.leb_gt in Ek. apply IH in H; [|lia]. destruct H as (K & H1 & H2 & H3 & H4 & H5). exists K. split; [lia|]. split; [exact H2|].
      split; [|split; [|exact H5]].
      + rewrite H3. replace (K - k)%nat with (S (K - S k)) by lia. cbn [seq map]. rewrite Es, <- app_assoc. reflexivity.
      + intros j Hj. destruct (Nat.eq_dec j (S k)) as [->|N]; [lra|]. apply H4. lia.
  Qed.

  Lemma leap_search fuel r : (0 < p_max_linesearch P)%Z -> line_search_morethuente P f fuel pt d t0 = Some r ->
    exists K, (0 < K)%nat /\ (Z.of_nat K <= p_max_linesearch P)%Z /\
      log (pt_st (s_pt r)) = log (pt_st pt) ++ map (fun j => at_t (Rmin M (gr j))) (seq 1 K) /\
      (forall j, (0 < j < K)%nat -> gr j < M) /\
      (M <= gr K /\ s_ret r = LBFGSERR_MAXIMUMSTEP \/ gr K < M /\ Z.of_nat K = p_max_linesearch P /\ s_ret r = LBFGSERR_MAXIMUMLINESEARCH).
  Proof.
    intros Hl H. unfold line_search_morethuente in H. unfold nzero in H. un.
    assert (H1 : Rleb t0 0 = false) by (apply Rleb_f; exact Ht0). rewrite H1 in H. cbv zeta in H. rewrite Hdg in H.
    assert (H2 : Rltb 0 (- a) = false) by (apply Rltb_f; lra). rewrite H2 in H. rewrite Hf0 in H.
    assert (E : leapt true (pt_st pt) (pt_g pt) 0 = mkMt (mkInterval (N := Rnum) 0 f0 (- a) 0 f0 (- a) t0 false) true 0 (p_max_step P - p_min_step P)
         (2 * (p_max_step P - p_min_step P)) (pt_st pt) (pt_g pt) 0).
    { unfold leapt. rewrite grown_S, grown_0, Hphi, Hpsi. cbn [pow Z.of_nat]. replace (0 + t0 * 1) with t0 by ring. reflexivity. }
    assert (H' : morethuente_loop P f fuel (pt_x pt) d f0 (- a) (p_ftol P * - a) (leapt true (pt_st pt) (pt_g pt) 0) = Some r) by (rewrite E; exact H).
    apply leap_loop in H'; [|cbn; lia]. destruct H' as (K & K1 & K2 & K3 & K4 & K5). exists K. rewrite Nat.sub_0_r in K3. auto.
  Qed.
End Search.

Lemma run_first {St : Type} (P : params Rnum) (f : objective Rnum St) b e s l en : (0 < p_max_linesearch P)%Z -> run P (see f) None b e s l en ->
  exists r fuel more, run_line_search P (see f) fuel b e s = Some r /\ snd (end_state en) = snd (pt_st (s_pt r)) ++ more /\
    ((s_ret r < 0)%Z -> more = [] /\ en = Done (pt_st (s_pt r)) (pt_x (l_pt s)) (s_ret r)).
Proof.
  intros HM H. destruct H as [fuel s r E Hr | fuel s r en E Hr Ea | fuel s r s' l en E Hr Ea H]; exists r, fuel.
  - exists []. split; [exact E|]. cbn [end_state]. rewrite app_nil_r. split; [reflexivity|]. intros _. split; reflexivity.
  - exists []. split; [exact E|]. apply after_step_exit in Ea. destruct Ea as (gn & Ea & _ & _). rewrite Ea, app_nil_r. split; [reflexivity|]. intro C. lia.
  - apply run_see in H; [|exact HM]. destruct H as (r' & fuel' & more & E' & H). apply search_end in E'; [|exact HM]. destruct E' as (k & E' & _).
    apply evals_see in E'. destruct E' as [l' E']. apply after_step_next in Ea. destruct Ea as (st & pg & Est & _ & -> & _).
    cbn [next_state l_pt pt_st] in E'. exists (l' ++ more). split; [exact E|]. split; [rewrite H, E', Est, <- app_assoc; reflexivity|]. intro C. lia.
Qed.

(** The first line search of a call. *)
Section First.
  Context {St : Type}.
  Variables (n : nat) (z : nat -> bool) (O : options Rnum).
  Variable f : objective Rnum St.
  Variables (F : list R -> R) (G : list R -> list R).
  Variables (fuel lsfuel : nat) (st : St) (x0 : list R).
  Hypothesis Hf : computes n z f F G.
  Hypothesis Hx : length x0 = n.
  Hypothesis Hz : vanishes z x0.
  Hypothesis Hs : searches O MoreThuente.
  Hypothesis Hd : documented O MoreThuente n.
  Hypothesis Hm : (0 <= o_m O)%Z.
  Hypothesis Hnc : o_epsilon O * Rmax 1 (norm n x0) < norm n (G x0).
  Let t0 := 1 / norm n (G x0).
  Let d : list R := vecncpy (N := Rnum) (G x0).
  Let P := to_params O MoreThuente.

  Lemma first_search st' seen out : fmin_lbfgs O (see f) None fuel lsfuel (st, []) x0 = Some ((st', seen), out) ->
    exists lf r (pt : point Rnum (St * list (list R))) more,
      line_search_morethuente P (see f) lf pt d t0 = Some r /\ pt_x pt = x0 /\ (pt_f pt : R) = F x0 /\ pt_g pt = G x0 /\
      snd (pt_st pt) = [x0] /\ seen = snd (pt_st (s_pt r)) ++ more /\ fine n z (G x0) /\ 0 < norm n (G x0) /\
      0 < dot n (G x0) (G x0) /\ ((s_ret r < 0)%Z -> more = [] /\ out = conclude x0 (s_ret r)) /\
      (forall t st g, let q := call_eval (see f) st (vecadd (N := Rnum) x0 d t) g in
        (vecdot (N := Rnum) (pt_g q) d : R) = - dot n (G (vecadd (N := Rnum) x0 d t)) (G x0) /\ (pt_f q : R) = F (vecadd (N := Rnum) x0 d t)) /\
      (vecdot (N := Rnum) (G x0) d : R) = - dot n (G x0) (G x0).
  Proof.
    intros H. assert (Hc : (o_c O : R) = 0) by (destruct Hs as [[_ C]|[C _]]; [discriminate|exact C]).
    pose proof (see_computes n z f F G Hf) as Hf'. rewrite (fmin_unfold O MoreThuente) in H by exact Hs.
    apply minimize_start in H. destruct H as [(code & Ec & H & Ho)|(b & e & Hck & H)].
    { exfalso. rewrite <- Hx in Hd. apply (checked_documented O MoreThuente _ Hs) in Hd. destruct Hd as (b & e & C). apply check_ok in C. rr. congruence. }
    rr. rewrite Hx in Hck. destruct H as [(Hm' & _)|(_ & H)]; [exfalso; change (p_m (to_params O MoreThuente)) with (o_m O) in Hm'; lia|].
    cbv zeta in H. fold P in H, Hck. set (s := init_state P (see f) b e (st, []) x0) in *.
    assert (Eo : owl P = false) by exact (not_owl n O MoreThuente b e Hck Hc). rewrite Eo in H.
    assert (Hi : inv n z P F G b e s) by (apply init_inv; [exact Hf'|exact (kf_c n O MoreThuente b e Hck)|split; assumption]).
    assert (Ex : pt_x (l_pt s) = x0).
    { destruct (eval_at n z (see f) F G Hf' (st, []) x0 (repeat nzero (length x0)) (conj Hx Hz)) as (E & _). exact E. }
    pose proof (inv_g _ _ _ _ _ _ _ _ Hi) as Eg. rewrite Ex in Eg. destruct (inv_gf _ _ _ _ _ _ _ _ Hi) as [Ig Igz]. rewrite Eg in Ig, Igz.
    pose proof (inv_f _ _ _ _ _ _ _ _ Hi) as Ef. rewrite Ex in Ef.
    assert (Pn : 0 < norm n (G x0)).
    { pose proof (ck_epsilon _ _ _ _ Hck) as E. unfold nzero in E. rnin E. apply Rltb_f in E. change (p_epsilon P) with (o_epsilon O) in E.
      pose proof (Rmax_l 1 (norm n x0)). rr. nra. }
    assert (Pa : 0 < dot n (G x0) (G x0)).
    { destruct (Rle_lt_dec (dot n (G x0) (G x0)) 0) as [Q|Q]; [|exact Q]. unfold norm in Pn. rewrite sqrt_neg_0 in Pn by exact Q. lra. }
    destruct H as [(Hv & _)|(_ & l & en & Hr & H & Hen)].
    { exfalso. change (converged P (vec2norm (N := Rnum) (pt_x (l_pt s) : list R)) (vec2norm (N := Rnum) (pt_g (l_pt s) : list R)) = true) in Hv.
      apply (converged_le n) in Hv; [|rewrite Ex; exact Hx|rewrite Eg; exact Ig]. rewrite Ex, Eg in Hv. rr. lra. }
    apply run_first in Hr; [|exact (kf_ls n O MoreThuente b e Hck)]. destruct Hr as (r & lf & more & Er & Em & Efail).
    assert (Em' : seen = snd (pt_st (s_pt r)) ++ more) by exact (eq_trans (f_equal snd H) Em).
    pose proof (first_step_norm n z O (see f) F G b e (st, []) x0 Hf' Hck Hc Hx Hz) as Est. fold P s t0 in Est.
    assert (Ed : l_d s = d).
    { pose proof (h_d _ _ _ _ _ _ (init_hist O MoreThuente (see f) b e (st, []) x0)) as Ed. fold P s in Ed. rewrite Ed. cbn [differences]. rewrite firstn_nil. unfold dir_of.
      fold P. rewrite Eo, Eg. reflexivity. }
    unfold run_line_search in Er. rewrite Eo in Er. change (p_linesearch P) with MoreThuente in Er. cbv iota in Er.
    assert (Hld : length d = n) by (apply length_vecncpy; exact Ig).
    assert (Edg : forall v, length v = n -> (vecdot (N := Rnum) v d : R) = - dot n v (G x0)).
    { intros v Hv. rewrite (vecdot_dot n) by assumption. rewrite dot_comm. unfold d. rewrite dot_ncpy_l by assumption. rewrite dot_comm. ring. }
    assert (Er' : line_search_morethuente P (see f) lf (l_pt s) (l_d s) (l_step s) = Some r) by exact Er.
    rewrite Ed, Est in Er'.
    assert (Efy : fine n z d) by (apply fine_vecncpy; split; assumption).
    exists lf, r, (l_pt s), more. split; [exact Er'|]. split; [exact Ex|].
    split; [refine (eq_trans Ef _); unfold F1; change (p_c P) with (o_c O); rr; rewrite Hc; ring|]. split; [exact Eg|]. split; [reflexivity|]. split; [exact Em'|].
    split; [split; assumption|]. split; [exact Pn|]. split; [exact Pa|]. split.
    { intro C. destruct (Efail C) as [C1 C2]. split; [exact C1|]. rewrite C2 in Hen. exact (eq_trans Hen (f_equal (fun u => conclude (N := Rnum) u (s_ret r)) Ex)). }
    split; [|apply Edg; exact Ig].
    intros t1 st1 g1. cbv zeta. assert (Hyf : fine n z (vecadd (N := Rnum) x0 d t1)) by (apply fine_vecadd; [split; assumption|exact Efy]).
    destruct (eval_at n z (see f) F G Hf' st1 _ g1 Hyf) as (_ & Q2 & Q3 & Q4). split.
    - refine (eq_trans (f_equal (fun v => vecdot (N := Rnum) v d : R) Q2) _). apply Edg. apply Q4.
    - exact Q3.
  Qed.

  Hypothesis Hcc : below_tangents n F G.
  Hypothesis Hft : o_ftol O < 1.
  Hypothesis Hgt : o_gtol O < 1.
  Hypothesis Hlo : o_min_step O < t0.

  Lemma falls st' seen out : fmin_lbfgs O (see f) None fuel lsfuel (st, []) x0 = Some ((st', seen), out) ->
    exists K ys, (0 < K)%nat /\ (Z.of_nat K <= o_max_linesearch O)%Z /\ seen = x0 :: ys /\ leaps n x0 (G x0) t0 (o_max_step O) K ys /\
      (forall j, (0 < j < K)%nat -> grown t0 j < o_max_step O) /\
      (o_max_step O <= grown t0 K /\ out = Raises LBFGSError \/
       grown t0 K < o_max_step O /\ Z.of_nat K = o_max_linesearch O /\ out = Returned x0 (Some LBFGSERR_MAXIMUMLINESEARCH)).
  Proof.
    intro H. apply first_search in H. destruct H as (lf & r & pt & more & Hr & Ex & Ef & Eg & Es & Eseen & [Ig Igz] & Pn & Pa & Efail & Hev & Edg).
    pose proof Hd as (_ & _ & _ & _ & (D1 & D1') & D2 & _ & _ & _ & D3 & _).
    assert (Hld : length d = n) by (apply length_vecncpy; exact Ig).
    assert (Hla : forall t, length (vecadd (N := Rnum) x0 d t) = n) by (intro t; apply length_vecadd; assumption).
    assert (Hst : forall t, steepest n x0 (G x0) t (vecadd (N := Rnum) x0 d t)).
    { intro t. split; [apply Hla|]. intros i Hi. rewrite (entry_vecadd n) by assumption. unfold d. rewrite (entry_vecncpy n) by assumption. ring. }
    assert (E0 : vecadd (N := Rnum) x0 d 0 = x0).
    { symmetry. apply (steepest_vecadd n x0 Hx); [exact Ig|]. split; [exact Hx|]. intros i Hi. ring. }
    assert (Pt : 0 < t0) by (apply Rdiv_lt_0_compat; lra).
    pose proof (leap_search P (see f) snd (fun _ _ _ => eq_refl) pt d t0 (dot n (G x0) (G x0)) (F x0)) as K.
    assert (Edg' : (vecdot (N := Rnum) (pt_g pt) d : R) = - dot n (G x0) (G x0)) by exact (eq_trans (f_equal (fun v => vecdot (N := Rnum) v d : R) Eg) Edg).
    destruct pt as [pst px pg pf]. cbn [pt_x pt_f pt_g pt_st] in *. subst px. specialize (K Edg' Ef (fun t => F (vecadd (N := Rnum) x0 d t)) (fun t => dot n (G (vecadd (N := Rnum) x0 d t)) (G x0)) Hev).
    cbv beta in K. assert (E0F : F (vecadd (N := Rnum) x0 d 0) = F x0) by now rewrite E0.
    assert (E0G : dot n (G (vecadd (N := Rnum) x0 d 0)) (G x0) = dot n (G x0) (G x0)) by now rewrite E0.
    assert (Hc' : forall s t, F (vecadd (N := Rnum) x0 d t) <= F (vecadd (N := Rnum) x0 d s) - dot n (G (vecadd (N := Rnum) x0 d s)) (G x0) * (t - s)).
    { intros s t. pose proof (Hcc (vecadd (N := Rnum) x0 d s) (vecadd (N := Rnum) x0 d t) (Hla s) (Hla t)) as Q.
      assert (Ea : along n (G (vecadd (N := Rnum) x0 d s)) (vecadd (N := Rnum) x0 d s) (vecadd (N := Rnum) x0 d t) =
        - (t - s) * dot n (G (vecadd (N := Rnum) x0 d s)) (G x0)).
      { unfold along, dot. rewrite <- Sum_scal. apply Sum_ext. intros i Hi. rewrite (proj2 (Hst s) i Hi), (proj2 (Hst t) i Hi). ring. }
      rewrite Ea in Q. lra. }
    destruct (K E0F E0G Hc' Pa Pt Hlo (conj D2 Hft) Hgt (Rle_trans _ _ _ D1 D1') lf r D3 Hr) as (k & K1 & K2 & K3 & K4 & K5).
    assert (Hneg : (s_ret r < 0)%Z) by (destruct K5 as [(_ & ->)|(_ & _ & ->)]; reflexivity).
    destruct (Efail Hneg) as [-> Eout]. rewrite app_nil_r, K3 in Eseen.
    exists k, (map (fun j => vecadd (N := Rnum) x0 d (Rmin (o_max_step O) (grown t0 j))) (seq 1 k)). split; [exact K1|]. split; [exact K2|].
    split; [exact (eq_trans Eseen (f_equal (fun u => u ++ map (fun j => vecadd (N := Rnum) x0 d (Rmin (o_max_step O) (grown t0 j))) (seq 1 k)) Es))|].
    split; [|split; [exact K4|]].
    - clear -Hst. induction k as [|k IH]; [reflexivity|]. exists (map (fun j => vecadd (N := Rnum) x0 d (Rmin (o_max_step O) (grown t0 j))) (seq 1 k)).
      exists (vecadd (N := Rnum) x0 d (Rmin (o_max_step O) (grown t0 (S k)))). split; [rewrite seq_S, map_app; reflexivity|]. split; [apply Hst|exact IH].
    - destruct K5 as [(K5 & Er)|(K5 & K6 & Er)]; [left|right]; rewrite Er in Eout; auto.
  Qed.
End First.
