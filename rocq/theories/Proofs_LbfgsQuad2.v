(** The More-Thuente search when the objective is a parabola along the line. *)
From Coq Require Import ZArith List Bool Arith Reals Lra Lia.
From Verif Require Import Prelude Num Model_Lbfgs Proofs_LbfgsVec Proofs_LbfgsQuad1.
Import ListNotations.
Local Open Scope R_scope.

Ltac un := cbn [nadd nsub nmul ndiv nopp nabs nofZ nleb nltb neqb nsqrt Rnum carrier] in *.
Ltac tt H := rewrite (proj2 (Rltb_t _ _) H).
Ltac ff H := rewrite (proj2 (Rltb_f _ _) H).

Section Update.
  Variables c0 c1 a : R.
  Hypothesis Ha : 0 < a.
  Notation Q := (par c0 c1 a).
  Notation D := (slope c1 a).
  Notation T := (- c1 / a).

  Lemma low_slope u : D u < 0 <-> u < T.
  Proof.
    unfold slope. assert (E : c1 = - (a * T)) by (field; lra). set (w := T) in *. clearbody w. split; intro H.
    - apply (Rmult_lt_reg_l a); lra.
    - assert (a * u < a * w) by (apply Rmult_lt_compat_l; lra). lra.
  Qed.
  Lemma high_slope u : 0 < D u <-> T < u.
  Proof.
    unfold slope. assert (E : c1 = - (a * T)) by (field; lra). set (w := T) in *. clearbody w. split; intro H.
    - apply (Rmult_lt_reg_l a); lra.
    - assert (a * w < a * u) by (apply Rmult_lt_compat_l; lra). lra.
  Qed.
  Lemma rise u t : u < t -> (Q u < Q t <-> T < (u + t) / 2).
  Proof.
    intro H. assert (E : Q t - Q u = a * (t - u) * ((u + t) / 2 - T)) by (unfold par; field; lra).
    assert (Hp : 0 < a * (t - u)) by (apply Rmult_lt_0_compat; lra).
    set (w := T) in *. clearbody w. set (k := a * (t - u)) in *. clearbody k. split; intro G; nra.
  Qed.

  Section Cases.
    Variables u t y fy dy : R.
    Hypothesis Hu : D u < 0.
    Hypothesis Ht : u < t.
    Variables tmin tmax : R.
    Hypothesis Hlo : tmin = u.
    Hypothesis Hhi : t <= tmax.
    Notation iv := (mkInterval (N := Rnum) u (Q u) (D u) y fy dy t false).

    Lemma clip_T : T <= t -> (if Rltb tmax T then tmax else T) = T.
    Proof. intro H. assert (H' : T <= tmax) by lra. ff H'. reflexivity. Qed.
    Lemma clip_lo w : u <= w -> (if Rltb w tmin then tmin else w) = w.
    Proof. intro H. assert (H' : tmin <= w) by lra. ff H'. reflexivity. Qed.

    Lemma half_R : (half (N := Rnum) : R) = 1 / 2.
    Proof. reflexivity. Qed.
    Lemma two_thirds_R : (two_thirds (N := Rnum) : R) = 66 / 100.
    Proof. reflexivity. Qed.

    Lemma update_rise : Q u < Q t ->
      update_trial_interval (N := Rnum) iv (Q t) (D t) tmin tmax = (mkInterval (N := Rnum) u (Q u) (D u) t (Q t) (D t) T true, 0%Z).
    Proof.
      intro H. assert (HT : T < (u + t) / 2) by (apply (rise u t Ht); exact H).
      assert (HuT : u < T) by (apply low_slope; exact Hu).
      unfold update_trial_interval. cbn [andb]. cbv zeta. rewrite (cubic_par c0 c1 a Ha u t) by lra.
      rewrite (quard_par c0 c1 a Ha u t) by lra. un. tt H.
      assert (H1 : Rabs (T - u) <= Rabs (T - u)) by apply Rle_refl. ff H1.
      replace (T + half (N := Rnum) * (T - T)) with T by (rewrite half_R; lra).
      rewrite clip_T by lra. rewrite clip_lo by lra. cbn [andb]. tt Ht.
      assert (H2 : T <= u + two_thirds (N := Rnum) * (t - u)) by (rewrite two_thirds_R; lra).
      ff H2. reflexivity.
    Qed.

    Lemma dsign_eq dt : fsigndiff (N := Rnum) dt (D u) = Rltb 0 dt.
    Proof.
      unfold fsigndiff, nzero. un. rewrite Rabs_left by exact Hu.
      replace (D u / - D u) with (-1) by (field; lra).
      destruct (Rltb 0 dt) eqn:E; [apply Rltb_t in E; apply Rltb_t; lra|apply Rltb_f in E; apply Rltb_f; lra].
    Qed.

    Lemma update_cross : Q t <= Q u -> 0 < D t ->
      update_trial_interval (N := Rnum) iv (Q t) (D t) tmin tmax = (mkInterval (N := Rnum) t (Q t) (D t) u (Q u) (D u) T true, 0%Z).
    Proof.
      intros H Hd. assert (HT : T < t) by (apply high_slope; exact Hd).
      assert (HuT : u < T) by (apply low_slope; exact Hu).
      unfold update_trial_interval. cbn [andb]. cbv zeta. rewrite dsign_eq, (cubic_par c0 c1 a Ha u t) by lra.
      rewrite (quard2_par c1 a Ha u t) by lra. un. ff H. tt Hd.
      replace (if Rltb (Rabs (T - t)) (Rabs (T - t)) then T else T) with T by (destruct (Rltb _ _); reflexivity).
      rewrite clip_T by lra. rewrite clip_lo by lra. reflexivity.
    Qed.

    Lemma update_short : D t < 0 ->
      update_trial_interval (N := Rnum) iv (Q t) (D t) tmin tmax = (mkInterval (N := Rnum) t (Q t) (D t) y fy dy (Rmin T tmax) false, 0%Z).
    Proof.
      intros Hd. assert (HT : t < T) by (apply low_slope; exact Hd).
      assert (HuT : u < T) by (apply low_slope; exact Hu).
      assert (H : Q t <= Q u). { destruct (Rle_lt_dec (Q t) (Q u)) as [G|G]; [exact G|]. apply (rise u t Ht) in G. lra. }
      unfold update_trial_interval. cbn [andb]. cbv zeta. rewrite dsign_eq, (cubic2_par c0 c1 a Ha u t) by assumption.
      rewrite (quard2_par c1 a Ha u t) by lra. un. ff H. assert (Hd' : D t <= 0) by lra. ff Hd'.
      assert (Hs : Rabs (D t) < Rabs (D u)).
      { rewrite !Rabs_left by assumption. unfold slope. assert (a * u < a * t) by (apply Rmult_lt_compat_l; lra). lra. }
      tt Hs.
      replace (if Rltb (Rabs (t - T)) (Rabs (t - T)) then T else T) with T by (destruct (Rltb _ _); reflexivity).
      cbn [andb].
      assert (E : (if Rltb tmax T then tmax else T) = Rmin T tmax).
      { destruct (Rltb tmax T) eqn:E; [apply Rltb_t in E; rewrite Rmin_right; lra|apply Rltb_f in E; rewrite Rmin_left; lra]. }
      rewrite E, clip_lo; [reflexivity|]. apply Rmin_glb; lra.
    Qed.
  End Cases.
End Update.

Section Search.
  Context {St : Type}.
  Variable P : params Rnum.
  Variable f : objective Rnum St.
  Variables xp s : list R.
  Variables finit d a t0 : R.
  Hypothesis Hd : d < 0.
  Hypothesis Ha : 0 < a.
  Notation phi := (par finit d a).
  Notation dphi := (slope d a).
  Notation T := (- d / a).
  Notation lo := (p_min_step P : R).
  Notation hi := (p_max_step P : R).
  Notation ftol := (p_ftol P : R).
  Notation gtol := (p_gtol P : R).
  Notation M := (p_max_linesearch P).
  Hypothesis Heval : forall st g (t : R),
    let pt := call_eval f st (vecadd (N := Rnum) xp s t) g in
    pt_f pt = phi t /\ vecdot (N := Rnum) (pt_g pt) s = dphi t.
  Hypothesis Hlo : 0 <= lo.
  Hypothesis Hlh : 5 * lo <= hi.
  Hypothesis Hhi : 0 < hi.
  Hypothesis Hft : 0 <= ftol <= 1 / 2.
  Hypothesis Hfg : ftol <= gtol.
  Hypothesis Ht0 : 0 < t0.
  Hypothesis Hlt : lo <= t0.

  Let dgtest : R := ftol * d.
  Let tau : R := Rmin hi t0.
  (** The trial steps that grow: t0, 5 t0, 21 t0, ... *)
  Definition growth (k : nat) : R := t0 * (4 ^ k - 1) / 3.

  Lemma T_pos : 0 < T.
  Proof. unfold Rdiv. apply Rmult_lt_0_compat; [lra|apply Rinv_0_lt_compat, Ha]. Qed.
  Lemma d_eq : d = - (a * T).
  Proof. field. lra. Qed.

  Lemma growth_S k : growth (S k) = 4 * growth k + t0.
  Proof. unfold growth. cbn [pow]. field. Qed.
  Lemma growth_pos k : (0 < k)%nat -> t0 <= growth k.
  Proof.
    intro H. destruct k as [|k]; [lia|]. rewrite growth_S.
    assert (0 <= growth k); [|lra]. clear H. induction k as [|k IH]; [unfold growth; cbn; lra|].
    rewrite growth_S. lra.
  Qed.

  (** Below T the decrease is sufficient. *)
  Lemma decrease_below t : 0 <= t <= T -> phi t <= finit + t * dgtest.
  Proof.
    intros [H1 H2]. unfold par, dgtest.
    assert (E : finit + d * t + a * t * t / 2 - (finit + t * (ftol * d)) = t * (a * (t / 2 - (1 - ftol) * T))).
    { rewrite d_eq at 1 2. set (w := T). field. }
    assert (t * (a * (t / 2 - (1 - ftol) * T)) <= 0); [|lra].
    set (w := T) in *. assert (0 <= w) by lra. clearbody w.
    assert (t / 2 - (1 - ftol) * w <= 0) by nra.
    assert (a * (t / 2 - (1 - ftol) * w) <= 0) by nra. nra.
  Qed.

  (** Two ways for a search to be in progress. *)
  Definition bracketed (v : mt_vars Rnum St) : Prop :=
    let iv := mt_iv v in
    i_brackt iv = true /\ mt_count v = 1%Z /\ mt_uinfo v = 0%Z /\
    (i_x iv = 0 /\ i_y iv = tau \/ i_x iv = tau /\ i_y iv = 0) /\
    0 < (i_t iv : R) < tau /\ ((i_t iv : R) = T \/ (i_t iv : R) = (1 - ftol) * T).
  Definition growing_at (k : nat) (v : mt_vars Rnum St) : Prop :=
    let iv := mt_iv v in
    (0 < k)%nat /\ mt_count v = Z.of_nat k /\ i_brackt iv = false /\
      i_x iv = growth k /\ i_fx iv = phi (growth k) /\ i_dx iv = dphi (growth k) /\
      growth k < T /\ growth k <= hi /\ (i_t iv : R) = Rmin T (growth (S k)).

  Definition fresh (v : mt_vars Rnum St) : Prop :=
    mt_iv v = mkInterval (N := Rnum) 0 finit d 0 finit d t0 false /\ mt_stage1 v = true /\
    mt_count v = 0%Z /\ (mt_prev_width v : R) = 2 * (hi - lo).

  Lemma phi0 : phi 0 = finit.
  Proof. unfold par. lra. Qed.
  Lemma dphi0 : dphi 0 = d.
  Proof. unfold slope. lra. Qed.
  Lemma tau_pos : 0 < tau.
  Proof. unfold tau. apply Rmin_glb_lt; lra. Qed.
  Lemma tau_hi : tau <= hi.
  Proof. apply Rmin_l. Qed.
  Lemma tau_t0 : tau <= t0.
  Proof. apply Rmin_r. Qed.
  Lemma dgtest_neg : dgtest <= 0.
  Proof. unfold dgtest. nra. Qed.

  Definition moved (v w : mt_vars Rnum St) (j : interval Rnum) (info : Z) : Prop :=
    mt_count w = (mt_count v + 1)%Z /\ mt_uinfo w = info /\
    i_x (mt_iv w) = i_x j /\ i_y (mt_iv w) = i_y j /\ i_brackt (mt_iv w) = i_brackt j /\
    (i_t (mt_iv w) : R) = (if i_brackt j && Rleb (66 / 100 * mt_prev_width v) (Rabs (i_y j - i_x j))
                     then i_x j + 1 / 2 * (i_y j - i_x j) else (i_t j : R)).

  Lemma next_plain (v : mt_vars Rnum St) x fx dx y fy dy (t : R) br stp (pt : point Rnum St) (dg : R) j info :
    mt_iv v = mkInterval (N := Rnum) x fx dx y fy dy t br ->
    (pt_f pt : R) <= finit + stp * dgtest \/ (fx : R) < pt_f pt ->
    update_trial_interval (N := Rnum) (mkInterval (N := Rnum) x fx dx y fy dy stp br) (pt_f pt) dg
      (mt_stmin (mt_iv v)) (mt_stmax (mt_iv v)) = (j, info) ->
    let w := mt_next P finit d dgtest v stp pt dg in
    moved v w j info /\ i_fx (mt_iv w) = i_fx j /\ i_dx (mt_iv w) = i_dx j.
  Proof.
    destruct v as [iv st1 ui wd pw st g ct]. cbn [mt_iv]. intros -> Hor Hu. cbv zeta. unfold moved, mt_next. cbv zeta.
    cbn [mt_iv mt_stage1 mt_uinfo mt_width mt_prev_width mt_st mt_g mt_count i_x i_fx i_dx i_y i_fy i_dy i_t i_brackt].
    match goal with |- context [if ?c then (mkInterval _ _ _ _ _ _ _ _, _) else _] => assert (Ec : c = false) end.
    { un. destruct Hor as [H|H].
      - rewrite (proj2 (Rltb_f _ _) H). rewrite andb_false_r. reflexivity.
      - rewrite (proj2 (Rleb_f _ _) H). apply andb_false_r. }
    rewrite Ec, Hu. cbn [fst snd].
    destruct (i_brackt j) eqn:Eb; cbn [andb mt_count mt_uinfo mt_iv i_x i_fx i_dx i_y i_brackt i_t].
    - repeat split; reflexivity.
    - rewrite Eb. repeat split; reflexivity.
  Qed.

  Lemma next_mod (v : mt_vars Rnum St) x fx dx y fy dy (t : R) br stp (pt : point Rnum St) (dg : R) j info :
    mt_iv v = mkInterval (N := Rnum) x fx dx y fy dy t br -> mt_stage1 v = true ->
    finit + stp * dgtest < (pt_f pt : R) -> (pt_f pt : R) <= fx ->
    update_trial_interval (N := Rnum)
      (mkInterval (N := Rnum) x (fx - x * dgtest) (dx - dgtest) y (fy - y * dgtest) (dy - dgtest) stp br)
      (pt_f pt - stp * dgtest) (dg - dgtest) (mt_stmin (mt_iv v)) (mt_stmax (mt_iv v)) = (j, info) ->
    moved v (mt_next P finit d dgtest v stp pt dg) j info.
  Proof.
    destruct v as [iv st1 ui wd pw st g ct]. cbn [mt_iv mt_stage1]. intros -> -> H1 H2 Hu. unfold moved, mt_next. cbv zeta.
    cbn [mt_iv mt_stage1 mt_uinfo mt_width mt_prev_width mt_st mt_g mt_count i_x i_fx i_dx i_y i_fy i_dy i_t i_brackt].
    match goal with |- context [if ?c then (mkInterval _ _ _ _ _ _ _ _, _) else _] => assert (Ec : c = true) end.
    { un. rewrite (proj2 (Rleb_f _ _) H1), (proj2 (Rltb_t _ _) H1), (proj2 (Rleb_t _ _) H2). reflexivity. }
    rewrite Ec. un. rewrite Hu. cbn [fst snd i_x i_fx i_dx i_y i_fy i_dy i_t i_brackt].
    destruct (i_brackt j) eqn:Eb; cbn [andb mt_count mt_uinfo mt_iv i_x i_fx i_dx i_y i_brackt i_t]; repeat split; reflexivity.
  Qed.

  Lemma wide : Rleb (66 / 100 * (2 * (hi - lo))) tau = false.
  Proof. apply Rleb_f. pose proof tau_pos. pose proof tau_hi. lra. Qed.

  Lemma fresh_next (v : mt_vars Rnum St) (pt : point Rnum St) : fresh v ->
    (pt_f pt : R) = phi tau ->
    ~ (phi tau <= finit + tau * dgtest /\ Rabs (dphi tau) <= gtol * - d) ->
    ~ (tau = hi /\ phi tau <= finit + tau * dgtest /\ dphi tau <= dgtest) ->
    bracketed (mt_next P finit d dgtest v tau pt (dphi tau)) \/ growing_at 1 (mt_next P finit d dgtest v tau pt (dphi tau)).
  Proof.
    intros (Hiv & Hs1 & Hc & Hw) Hf HA HB.
    pose proof tau_pos as Htp. pose proof tau_hi as Hth. pose proof tau_t0 as Htt. pose proof T_pos as HT.
    pose proof dgtest_neg as Hdg.
    assert (Hd0 : dphi 0 < 0) by (rewrite dphi0; exact Hd).
    assert (Emin : (mt_stmin (mt_iv v) : R) = 0) by (rewrite Hiv; reflexivity).
    assert (Emax : (mt_stmax (mt_iv v) : R) = 5 * t0) by (rewrite Hiv; unfold mt_stmax; cbn [i_brackt i_t i_x]; un; lra).
    assert (Htm : tau <= mt_stmax (mt_iv v)) by (rewrite Emax; lra).
    destruct (Rle_lt_dec (phi tau) (finit + tau * dgtest)) as [HF|HF].
    - (* sufficient decrease *)
      assert (HC : gtol * - d < Rabs (dphi tau)) by (apply Rnot_le_lt; intro G; apply HA; split; assumption).
      assert (Hne : dphi tau <> 0). { intro E. rewrite E, Rabs_R0 in HC. nra. }
      assert (Hdec : phi tau <= phi 0) by (rewrite phi0; nra).
      destruct (Rtotal_order (dphi tau) 0) as [Hsl|[Hsl|Hsl]]; [|contradiction|].
      + (* short step *)
        right. assert (HtT : tau < T) by (apply (low_slope d a Ha); exact Hsl).
        assert (Etau : tau = t0).
        { unfold tau. apply Rmin_right. destruct (Rle_lt_dec t0 hi) as [G|G]; [exact G|exfalso].
          apply HB. assert (E : tau = hi) by (unfold tau; apply Rmin_left; lra). split; [exact E|]. split; [exact HF|].
          rewrite Rabs_left in HC by exact Hsl. unfold dgtest. nra. }
        pose proof (update_short finit d a Ha 0 tau 0 finit d Hd0 Htp (mt_stmin (mt_iv v)) (mt_stmax (mt_iv v)) Emin Htm Hsl) as U.
        rewrite phi0, dphi0 in U. rewrite <- Hf in U.
        destruct (next_plain v 0 finit d 0 finit d t0 false tau pt (dphi tau) _ _ Hiv (or_introl (eq_ind_r (fun q => q <= _) HF Hf)) U)
          as ((E1 & E2 & E3 & E4 & E5 & E6) & E7 & E8).
        cbn [i_x i_y i_fx i_dx i_t i_brackt andb] in *.
        unfold growing_at. assert (Eg : growth 1 = tau) by (rewrite Etau; unfold growth; cbn [pow]; field).
        rewrite Eg. split; [lia|]. split; [rewrite E1, Hc; reflexivity|]. split; [exact E5|]. split; [exact E3|].
        split; [exact (eq_trans E7 Hf)|]. split; [exact E8|]. split; [exact HtT|]. split; [exact Hth|].
        assert (E2g : growth 2 = 5 * t0) by (unfold growth; cbn [pow]; field).
        rewrite E2g. exact (eq_trans E6 (f_equal (Rmin T) Emax)).
      + (* past the lowest point *)
        left. assert (HtT : T < tau) by (apply (high_slope d a Ha); exact Hsl).
        pose proof (update_cross finit d a Ha 0 tau 0 finit d Hd0 Htp (mt_stmin (mt_iv v)) (mt_stmax (mt_iv v)) Emin Htm Hdec Hsl) as U.
        rewrite phi0, dphi0 in U. rewrite <- Hf in U.
        destruct (next_plain v 0 finit d 0 finit d t0 false tau pt (dphi tau) _ _ Hiv (or_introl (eq_ind_r (fun q => q <= _) HF Hf)) U)
          as ((E1 & E2 & E3 & E4 & E5 & E6) & E7 & E8).
        cbn [i_x i_y i_fx i_dx i_t i_brackt andb] in *.
        rewrite Hw, Rminus_0_l, Rabs_Ropp, (Rabs_right tau), wide in E6 by lra.
        split; [exact E5|]. split; [rewrite E1, Hc; reflexivity|]. split; [exact E2|]. split; [|split; [split|]].
        * right. split; assumption.
        * rewrite E6. exact HT.
        * rewrite E6. exact HtT.
        * left. exact E6.
    - destruct (Rle_lt_dec (phi tau) finit) as [HG|HG].
      + (* the modified function rises *)
        left.
        assert (Em : - (d - dgtest) / a = (1 - ftol) * T) by (unfold dgtest; field; lra).
        assert (P0 : finit - 0 * dgtest = par finit (d - dgtest) a 0) by (unfold par; lra).
        assert (P1 : d - dgtest = slope (d - dgtest) a 0) by (unfold slope; lra).
        assert (P2 : phi tau - tau * dgtest = par finit (d - dgtest) a tau) by (unfold par; lra).
        assert (P3 : dphi tau - dgtest = slope (d - dgtest) a tau) by (unfold slope; lra).
        assert (Hd1 : slope (d - dgtest) a 0 < 0) by (rewrite <- P1; unfold dgtest; nra).
        assert (Hr : par finit (d - dgtest) a 0 < par finit (d - dgtest) a tau) by (rewrite <- P0, <- P2; lra).
        pose proof (update_rise finit (d - dgtest) a Ha 0 tau 0 (finit - 0 * dgtest) (d - dgtest) Hd1 Htp
                      (mt_stmin (mt_iv v)) (mt_stmax (mt_iv v)) Emin Htm Hr) as U.
        pose proof (proj1 (rise finit (d - dgtest) a Ha 0 tau Htp) Hr) as HT2.
        rewrite Em in *. rewrite <- P0, <- P1, <- P2, <- P3 in U. rewrite <- Hf in U at 1.
        pose proof (next_mod v 0 finit d 0 finit d t0 false tau pt (dphi tau) _ _ Hiv Hs1
                      (eq_ind_r (fun q => _ < q) HF Hf) (eq_ind_r (fun q => q <= _) HG Hf) U) as (E1 & E2 & E3 & E4 & E5 & E6).
        cbn [i_x i_y i_fx i_dx i_t i_brackt andb] in *.
        rewrite Hw, Rminus_0_r, (Rabs_right tau), wide in E6 by lra.
        assert (0 < (1 - ftol) * T) by (apply Rmult_lt_0_compat; lra).
        split; [exact E5|]. split; [rewrite E1, Hc; reflexivity|]. split; [exact E2|]. split; [|split; [split|]].
        * left. split; assumption.
        * rewrite E6. assumption.
        * rewrite E6. lra.
        * right. exact E6.
      + (* the value rises *)
        left.
        assert (Hr : phi 0 < phi tau) by (rewrite phi0; exact HG).
        pose proof (update_rise finit d a Ha 0 tau 0 finit d Hd0 Htp (mt_stmin (mt_iv v)) (mt_stmax (mt_iv v)) Emin Htm Hr) as U.
        pose proof (proj1 (rise finit d a Ha 0 tau Htp) Hr) as HT2.
        rewrite phi0, dphi0 in U. rewrite <- Hf in U at 1.
        destruct (next_plain v 0 finit d 0 finit d t0 false tau pt (dphi tau) _ _ Hiv (or_intror (eq_ind_r (fun q => _ < q) HG Hf)) U)
          as ((E1 & E2 & E3 & E4 & E5 & E6) & E7 & E8).
        cbn [i_x i_y i_fx i_dx i_t i_brackt andb] in *.
        rewrite Hw, Rminus_0_r, (Rabs_right tau), wide in E6 by lra.
        split; [exact E5|]. split; [rewrite E1, Hc; reflexivity|]. split; [exact E2|]. split; [|split; [split|]].
        * left. split; assumption.
        * rewrite E6. exact HT.
        * rewrite E6. lra.
        * left. exact E6.
  Qed.

  (** ** Rounds *)
  Definition roomy (count : Z) : Prop :=
    lo < (1 - ftol) * T /\ T < hi /\ t0 <= hi /\ (p_xtol P : R) < 1 /\ (count + 1 < M)%Z.

  Lemma not_bracketed_step (v : mt_vars Rnum St) : i_brackt (mt_iv v) = false -> lo <= i_t (mt_iv v) ->
    (mt_step P v : R) = Rmin hi (i_t (mt_iv v)).
  Proof.
    intros Hb Hl. unfold mt_step. cbv zeta. rewrite Hb. cbn [andb orb]. un.
    rewrite (proj2 (Rltb_f _ _) Hl). destruct (Rltb hi (i_t (mt_iv v))) eqn:E.
    - apply Rltb_t in E. symmetry. apply Rmin_left. lra.
    - apply Rltb_f in E. symmetry. apply Rmin_right. exact E.
  Qed.

  (** A round that is not bracketed. *)
  Lemma plain_round (v : mt_vars Rnum St) (stp : R) : i_brackt (mt_iv v) = false -> (mt_step P v : R) = stp -> (0 <= mt_count v)%Z ->
    match mt_round P f xp s finit d dgtest v with
    | inr r => ((0 <= s_ret r)%Z -> s_ret r = (mt_count v + 1)%Z /\ (s_step r : R) = stp) /\
               ((s_ret r < 0)%Z -> (mt_count v + 1 < M)%Z ->
                (stp = hi /\ dphi stp <= dgtest) \/ (stp = lo /\ (finit + stp * dgtest < phi stp \/ dgtest <= dphi stp)))
    | inl w => exists pt : point Rnum St, (pt_f pt : R) = phi stp /\ w = mt_next P finit d dgtest v stp pt (dphi stp) /\
                 ~ (stp = hi /\ phi stp <= finit + stp * dgtest /\ dphi stp <= dgtest) /\
                 ~ (phi stp <= finit + stp * dgtest /\ Rabs (dphi stp) <= gtol * - d)
    end.
  Proof.
    intros Hb Hstp Hc. unfold mt_round. cbv zeta. rewrite Hb. cbn [andb].
    destruct (Heval (mt_st v) (mt_g v) stp) as [Hf Hg]. cbv zeta in Hf, Hg. rewrite Hstp.
    set (pt := call_eval f (mt_st v) (vecadd (N := Rnum) xp s stp) (mt_g v)) in *.
    rewrite Hf, Hg. un.
    destruct (Reqb stp hi && Rleb (phi stp) (finit + stp * dgtest) && Rleb (dphi stp) dgtest) eqn:E1.
    { apply andb_prop in E1. destruct E1 as [E1 E3]. apply andb_prop in E1. destruct E1 as [E1 E2].
      apply Reqb_t in E1. apply Rleb_t in E3. cbn [s_ret]. split; [intro H; exfalso; revert H; compute; intro H; apply H; reflexivity|].
      intros _ _. left. split; assumption. }
    destruct (Reqb stp lo && (Rltb (finit + stp * dgtest) (phi stp) || Rleb dgtest (dphi stp))) eqn:E2.
    { apply andb_prop in E2. destruct E2 as [E2 E3]. apply Reqb_t in E2. cbn [s_ret].
      split; [intro H; exfalso; revert H; compute; intro H; apply H; reflexivity|].
      intros _ _. right. split; [exact E2|]. apply orb_prop in E3. destruct E3 as [E3|E3]; [left; apply Rltb_t, E3|right; apply Rleb_t, E3]. }
    destruct (M <=? mt_count v + 1)%Z eqn:E3.
    { cbn [s_ret]. split; [intro H; exfalso; revert H; compute; intro H; apply H; reflexivity|].
      intros _ H. apply Z.leb_le in E3. lia. }
    destruct (Rleb (phi stp) (finit + stp * dgtest) && Rleb (Rabs (dphi stp)) (gtol * - d)) eqn:E4.
    { cbn [s_ret s_step]. split; [intros _; split; reflexivity|]. intros H. lia. }
    exists pt. split; [exact Hf|]. split; [reflexivity|]. split.
    - intros (G1 & G2 & G3). apply Reqb_t in G1. apply Rleb_t in G2. apply Rleb_t in G3. rewrite G1, G2, G3 in E1. discriminate E1.
    - intros (G2 & G3). apply Rleb_t in G2. apply Rleb_t in G3. rewrite G2, G3 in E4. discriminate E4.
  Qed.

  Lemma round_fresh (v : mt_vars Rnum St) : fresh v ->
    match mt_round P f xp s finit d dgtest v with
    | inr r => ((0 <= s_ret r)%Z -> s_ret r = 1%Z /\ (s_step r : R) = tau) /\ ((s_ret r < 0)%Z -> ~ roomy 0)
    | inl w => bracketed w \/ growing_at 1 w
    end.
  Proof.
    intro Hfr. pose proof Hfr as (Hiv & Hs1 & Hc & Hw).
    assert (Hb : i_brackt (mt_iv v) = false) by (rewrite Hiv; reflexivity).
    assert (Ht : (mt_step P v : R) = tau).
    { rewrite not_bracketed_step; [rewrite Hiv; reflexivity|exact Hb|rewrite Hiv; exact Hlt]. }
    pose proof (plain_round v tau Hb Ht ltac:(rewrite Hc; lia)) as H.
    destruct (mt_round P f xp s finit d dgtest v) as [w|r].
    - destruct H as (pt & Hf & -> & H1 & H2). apply fresh_next; assumption.
    - rewrite Hc in H. destruct H as [H1 H2]. split; [exact H1|]. intros Hr (R1 & R2 & R3 & R4 & R5).
      pose proof T_pos as HT. assert (Etau : tau = t0) by (unfold tau; apply Rmin_right; exact R3).
      destruct (H2 Hr R5) as [[G1 G2]|[G1 G2]].
      + assert (T < tau) by lra. apply (high_slope d a Ha) in H. pose proof dgtest_neg. lra.
      + assert (Hl : tau < (1 - ftol) * T) by lra. pose proof tau_pos.
        assert (tau <= T) by nra. pose proof (decrease_below tau ltac:(lra)). destruct G2 as [G2|G2]; [lra|].
        unfold slope, dgtest in G2.
        assert (a * tau < a * ((1 - ftol) * T)) by (apply Rmult_lt_compat_l; assumption).
        assert (a * ((1 - ftol) * T) = - (d - ftol * d)) by (field; lra). lra.
  Qed.

  Lemma slope_T : dphi T = 0.
  Proof. unfold slope. field. lra. Qed.
  Lemma slope_mod : dphi ((1 - ftol) * T) = dgtest.
  Proof. unfold slope, dgtest. field. lra. Qed.

  Lemma round_bracketed (v : mt_vars Rnum St) : bracketed v ->
    match mt_round P f xp s finit d dgtest v with
    | inr r => ((0 <= s_ret r)%Z -> s_ret r = 2%Z /\ ((s_step r : R) = T \/ (s_step r : R) = (1 - ftol) * T)) /\
               ((s_ret r < 0)%Z -> ~ roomy 1)
    | inl w => False
    end.
  Proof.
    intros (Hb & Hc & Hu & Hxy & Ht & HtT). pose proof T_pos as HT.
    pose proof tau_pos as Htp. pose proof tau_hi as Hth. pose proof dgtest_neg as Hdn.
    set (m := i_t (mt_iv v)) in *.
    assert (Emin : (mt_stmin (mt_iv v) : R) = 0).
    { unfold mt_stmin. rewrite Hb, min2_R. destruct Hxy as [[-> ->]|[-> ->]]; [apply Rmin_left; lra|apply Rmin_right; lra]. }
    assert (Emax : (mt_stmax (mt_iv v) : R) = tau).
    { unfold mt_stmax. rewrite Hb, max2_R. destruct Hxy as [[-> ->]|[-> ->]]; [apply Rmax_right; lra|apply Rmax_left; lra]. }
    assert (Hout : forall t : R, mt_outside (N := Rnum) (mt_iv v) t = (Rleb t 0 || Rleb tau t)%bool).
    { intro t. unfold mt_outside. rewrite Emin, Emax. reflexivity. }
    assert (Hx : mt_outside (N := Rnum) (mt_iv v) (i_x (mt_iv v)) = true).
    { rewrite Hout. destruct Hxy as [[-> _]|[-> _]].
      - rewrite (proj2 (Rleb_t 0 0) (Rle_refl 0)). reflexivity.
      - rewrite (proj2 (Rleb_t tau tau) (Rle_refl tau)). apply orb_true_r. }
    assert (Hm1 : m <= T). { destruct HtT as [-> | ->]; [lra|nra]. }
    assert (Hdm : dgtest <= dphi m). { destruct HtT as [-> | ->]; [rewrite slope_T|rewrite slope_mod]; lra. }
    assert (Hdm0 : dphi m <= 0). { destruct HtT as [-> | ->]; [rewrite slope_T|rewrite slope_mod]; lra. }
    assert (Hmhi : hi < m -> False) by lra.
    unfold mt_round. cbv zeta. rewrite Hb, Hc, Hu. cbn [andb].
    set (stp := mt_step P v).
    destruct (Heval (mt_st v) (mt_g v) stp) as [Hf Hg]. cbv zeta in Hf, Hg.
    set (pt := call_eval f (mt_st v) (vecadd (N := Rnum) xp s stp) (mt_g v)) in *.
    rewrite Hf, Hg. change (negb (0 =? 0)%Z) with false. rewrite orb_false_r.
    (* the step *)
    assert (Hs : stp = i_x (mt_iv v) /\ ~ (0 < (1 - ftol) * T /\ roomy 1) \/
                 stp = (if Rltb m lo then lo else m)).
    { unfold stp, mt_step. cbv zeta. rewrite Hb, Hc, Hu. cbn [andb]. change (negb (0 =? 0)%Z) with false. rewrite orb_false_r.
      un. fold m.
      assert (Ehi : (if Rltb hi (if Rltb m lo then lo else m) then hi else if Rltb m lo then lo else m) = (if Rltb m lo then lo else m)).
      { assert (G : (if Rltb m lo then lo else m) <= hi) by (destruct (Rltb m lo); lra). ff G. reflexivity. }
      rewrite Ehi.
      match goal with |- (if ?c then _ else _) = _ /\ _ \/ _ => destruct c eqn:E end; [left|right; reflexivity].
      split; [reflexivity|]. intros (_ & R1 & R2 & R3 & R4 & R5).
      assert (Hlm : lo <= m) by (destruct HtT as [-> | ->]; nra).
      rewrite (proj2 (Rltb_f _ _) Hlm) in E. rewrite Hout in E.
      rewrite (proj2 (Rleb_f m 0)), (proj2 (Rleb_f tau m)) in E by lra. cbn [orb] in E.
      apply orb_prop in E. destruct E as [E|E]; [apply Z.leb_le in E; lia|].
      unfold mt_narrow in E. rewrite Emin, Emax in E. un. apply Rleb_t in E. nra. }
    assert (H0 : 0 < (1 - ftol) * T) by (apply Rmult_lt_0_compat; lra).
    destruct Hs as [[Hs Hr]|Hs].
    { rewrite Hs, Hx. cbn [s_ret]. split; [intro H; exfalso; revert H; compute; intro H; apply H; reflexivity|].
      intros _ R. apply Hr. split; assumption. }
    destruct (mt_outside (N := Rnum) (mt_iv v) stp) eqn:Eo.
    { cbn [s_ret]. split; [intro H; exfalso; revert H; compute; intro H; apply H; reflexivity|].
      intros _ (R1 & R2 & R3 & R4 & R5). assert (Hlm : lo <= m) by (destruct HtT as [-> | ->]; nra).
      rewrite (proj2 (Rltb_f _ _) Hlm) in Hs. rewrite Hs, Hout in Eo.
      rewrite (proj2 (Rleb_f m 0)), (proj2 (Rleb_f tau m)) in Eo by lra. discriminate Eo. }
    un.
    destruct (Rltb m lo) eqn:Elo.
    - (* below the smallest step *)
      apply Rltb_t in Elo. rewrite Hs.
      assert (G : dgtest <= dphi lo).
      { unfold slope in *. assert (a * m <= a * lo) by (apply Rmult_le_compat_l; lra). lra. }
      assert (Gr : ~ roomy 1) by (intros (R1 & _); destruct HtT as [E | E]; nra).
      match goal with |- match (if ?c then _ else _) with _ => _ end => destruct c end.
      { cbn [s_ret]. split; [intro H; exfalso; revert H; compute; intro H; apply H; reflexivity|]. intros _. exact Gr. }
      rewrite (proj2 (Reqb_t lo lo) eq_refl), (proj2 (Rleb_t _ _) G), orb_true_r. cbn [andb s_ret].
      split; [intro H; exfalso; revert H; compute; intro H; apply H; reflexivity|]. intros _. exact Gr.
    - apply Rltb_f in Elo. rewrite Hs.
      match goal with |- match (if ?c then _ else _) with _ => _ end => destruct c eqn:E1 end.
      { cbn [s_ret]. split; [intro H; exfalso; revert H; compute; intro H; apply H; reflexivity|].
        intros _ (R1 & R2 & R3 & R4 & R5). apply andb_prop in E1. destruct E1 as [E1 _]. apply andb_prop in E1. destruct E1 as [E1 _].
        apply Reqb_t in E1. lra. }
      match goal with |- match (if ?c then _ else _) with _ => _ end => destruct c eqn:E2 end.
      { cbn [s_ret]. split; [intro H; exfalso; revert H; compute; intro H; apply H; reflexivity|].
        intros _ (R1 & R2 & R3 & R4 & R5). apply andb_prop in E2. destruct E2 as [E2 _].
        apply Reqb_t in E2. destruct HtT as [E | E]; nra. }
      match goal with |- match (if ?c then _ else _) with _ => _ end => destruct c eqn:E3 end.
      { cbn [s_ret]. split; [intro H; exfalso; revert H; compute; intro H; apply H; reflexivity|].
        intros _ (R1 & R2 & R3 & R4 & R5). unfold mt_narrow in E3. rewrite Emin, Emax in E3. un. apply Rleb_t in E3. nra. }
      match goal with |- match (if ?c then _ else _) with _ => _ end => destruct c eqn:E4 end.
      { cbn [s_ret]. split; [intro H; exfalso; revert H; compute; intro H; apply H; reflexivity|].
        intros _ (R1 & R2 & R3 & R4 & R5). apply Z.leb_le in E4. lia. }
      pose proof (decrease_below m ltac:(lra)) as G1.
      assert (G2 : Rabs (dphi m) <= gtol * - d).
      { rewrite Rabs_left1 by exact Hdm0. unfold dgtest in Hdm. nra. }
      rewrite (proj2 (Rleb_t _ _) G1), (proj2 (Rleb_t _ _) G2). cbn [andb s_ret s_step].
      split; [intros _; split; [reflexivity|exact HtT]|]. intro H. lia.
  Qed.

  Lemma growth_lt k : growth k < growth (S k).
  Proof.
    rewrite growth_S. destruct k as [|k]; [unfold growth; cbn [pow]; lra|].
    pose proof (growth_pos (S k) ltac:(lia)). lra.
  Qed.

  Lemma round_growing k (v : mt_vars Rnum St) : growing_at k v ->
    match mt_round P f xp s finit d dgtest v with
    | inr r => ((0 <= s_ret r)%Z -> s_ret r = Z.of_nat (S k) /\ (s_step r : R) = Rmin hi (Rmin T (growth (S k)))) /\
               ((s_ret r < 0)%Z -> ~ roomy (Z.of_nat k))
    | inl w => growing_at (S k) w /\ growth (S k) < T
    end.
  Proof.
    intros (Hk & Hc & Hb & Hx & Hfx & Hdx & HgT & Hgh & Ht). pose proof T_pos as HT. pose proof dgtest_neg as Hdn.
    pose proof (growth_pos k Hk) as Hg0. pose proof (growth_lt k) as Hgl.
    assert (Htg : growth k < Rmin T (growth (S k))) by (apply Rmin_glb_lt; assumption).
    assert (Hst : (mt_step P v : R) = Rmin hi (Rmin T (growth (S k)))).
    { rewrite not_bracketed_step; [rewrite Ht; reflexivity|exact Hb|rewrite Ht; lra]. }
    pose proof (plain_round v _ Hb Hst ltac:(lia)) as H.
    assert (HsT : Rmin hi (Rmin T (growth (S k))) <= T) by (eapply Rle_trans; [apply Rmin_r|apply Rmin_l]).
    assert (Hs0 : growth k <= Rmin hi (Rmin T (growth (S k)))) by (apply Rmin_glb; lra).
    destruct (mt_round P f xp s finit d dgtest v) as [w|r].
    - destruct H as (pt & Hf & -> & H1 & H2).
      set (stp := Rmin hi (Rmin T (growth (S k)))) in *.
      pose proof (decrease_below stp ltac:(lra)) as HF.
      assert (HC : gtol * - d < Rabs (dphi stp)) by (apply Rnot_le_lt; intro G; apply H2; split; assumption).
      assert (Hsl : dphi stp < 0).
      { destruct (Rtotal_order (dphi stp) 0) as [G|[G|G]]; [exact G| |].
        - rewrite G, Rabs_R0 in HC. nra.
        - apply (high_slope d a Ha) in G. lra. }
      assert (HtT : stp < T) by (apply (low_slope d a Ha); exact Hsl).
      assert (Hnh : stp <> hi).
      { intro E. apply H1. split; [exact E|]. split; [exact HF|]. rewrite Rabs_left in HC by exact Hsl. unfold dgtest. nra. }
      assert (Es : stp = growth (S k) /\ growth (S k) < T).
      { unfold stp in *. destruct (Rle_lt_dec hi (Rmin T (growth (S k)))) as [G|G].
        - exfalso. apply Hnh. apply Rmin_left. exact G.
        - rewrite Rmin_right in * by lra. destruct (Rle_lt_dec T (growth (S k))) as [G2|G2].
          + rewrite Rmin_left in HtT by exact G2. lra.
          + rewrite Rmin_right by lra. split; [reflexivity|exact G2]. }
      destruct Es as [Es HgT'].
      assert (Hhs : stp <= hi) by (unfold stp; apply Rmin_l).
      clearbody stp. rewrite Es in *. clear Es stp.
      assert (Ht' : (i_t (mt_iv v) : R) = growth (S k)) by (rewrite Ht; apply Rmin_right; lra).
      assert (Emin : (mt_stmin (mt_iv v) : R) = growth k) by (unfold mt_stmin; rewrite Hb; exact Hx).
      assert (Emax : (mt_stmax (mt_iv v) : R) = growth (S (S k))).
      { unfold mt_stmax. rewrite Hb. un. rewrite Ht', Hx. rewrite (growth_S (S k)), (growth_S k). lra. }
      assert (Htm : growth (S k) <= mt_stmax (mt_iv v)) by (rewrite Emax; pose proof (growth_lt (S k)); lra).
      assert (Hd0 : dphi (growth k) < 0) by (apply (low_slope d a Ha); exact HgT).
      pose proof (update_short finit d a Ha (growth k) (growth (S k)) (i_y (mt_iv v)) (i_fy (mt_iv v)) (i_dy (mt_iv v))
                    Hd0 Hgl (mt_stmin (mt_iv v)) (mt_stmax (mt_iv v)) Emin Htm Hsl) as U.
      rewrite <- Hf in U.
      assert (Hiv : mt_iv v = mkInterval (N := Rnum) (growth k) (phi (growth k)) (dphi (growth k))
                      (i_y (mt_iv v)) (i_fy (mt_iv v)) (i_dy (mt_iv v)) (growth (S k)) false).
      { clear - Hx Hfx Hdx Ht' Hb. destruct (mt_iv v) as [x fx dx y fy dy t br]. cbn [i_x i_fx i_dx i_y i_fy i_dy i_t i_brackt] in *. subst. reflexivity. }
      destruct (next_plain v _ _ _ _ _ _ _ _ (growth (S k)) pt (dphi (growth (S k))) _ _ Hiv
                  (or_introl (eq_ind_r (fun q => q <= _) HF Hf)) U) as ((E1 & E2 & E3 & E4 & E5 & E6) & E7 & E8).
      cbn [i_x i_y i_fx i_dx i_t i_brackt andb] in *.
      split; [|exact HgT'].
      split; [lia|]. split; [rewrite E1, Hc; lia|]. split; [exact E5|]. split; [exact E3|].
      split; [exact (eq_trans E7 Hf)|]. split; [exact E8|]. split; [exact HgT'|]. split; [exact Hhs|].
      exact (eq_trans E6 (f_equal (Rmin T) Emax)).
    - rewrite Hc in H. destruct H as [H1 H2]. split.
      + intro Hr. destruct (H1 Hr) as [G1 G2]. split; [rewrite G1; lia|exact G2].
      + intros Hr (R1 & R2 & R3 & R4 & R5). destruct (H2 Hr R5) as [[G1 G2]|[G1 G2]]; [lra|].
        rewrite Rmin_right in G1 by (pose proof (Rmin_l T (growth (S k))); lra). lra.
  Qed.

  (** ** The loop *)
  Definition outcome_of (r : search Rnum St) : Prop :=
    s_ret r = 1%Z /\ (s_step r : R) = tau \/
    s_ret r = 2%Z /\ ((s_step r : R) = T \/ (s_step r : R) = (1 - ftol) * T) \/
    exists k, (2 <= k)%nat /\ s_ret r = Z.of_nat k /\ (s_step r : R) = Rmin hi (Rmin T (growth k)).

  Lemma loop_growing fuel : forall k (v : mt_vars Rnum St) r, growing_at k v ->
    morethuente_loop P f fuel xp s finit d dgtest v = Some r -> (0 <= s_ret r)%Z -> outcome_of r.
  Proof.
    induction fuel as [|fuel IH]; intros k v r Hg H Hr; [discriminate|].
    cbn [morethuente_loop] in H. pose proof (round_growing k v Hg) as Hrd.
    destruct (mt_round P f xp s finit d dgtest v) as [w|r'].
    - eapply IH; [exact (proj1 Hrd)|exact H|exact Hr].
    - injection H as <-. destruct (proj1 Hrd Hr) as [G1 G2]. right. right. exists (S k).
      destruct Hg as (Hk & _). split; [lia|]. split; assumption.
  Qed.

  Lemma loop_fresh fuel (v : mt_vars Rnum St) r : fresh v ->
    morethuente_loop P f fuel xp s finit d dgtest v = Some r -> (0 <= s_ret r)%Z -> outcome_of r.
  Proof.
    destruct fuel as [|fuel]; intros Hv H Hr; [discriminate|].
    cbn [morethuente_loop] in H. pose proof (round_fresh v Hv) as Hrd.
    destruct (mt_round P f xp s finit d dgtest v) as [w|r'].
    - destruct Hrd as [Hb|Hg]; [|eapply loop_growing; eassumption].
      destruct fuel as [|fuel]; [discriminate|]. cbn [morethuente_loop] in H. pose proof (round_bracketed w Hb) as Hrd.
      destruct (mt_round P f xp s finit d dgtest w) as [w'|r']; [contradiction|].
      injection H as <-. right. left. exact (proj1 Hrd Hr).
    - injection H as <-. left. exact (proj1 Hrd Hr).
  Qed.

  (** Success: [K] further trials reach T. *)
  Lemma succeed_growing fuel : forall k K (v : mt_vars Rnum St), growing_at k v -> T <= growth (S K) -> (k <= K)%nat ->
    roomy (Z.of_nat K) -> (K - k < fuel)%nat ->
    exists r, morethuente_loop P f fuel xp s finit d dgtest v = Some r /\ (0 <= s_ret r <= Z.of_nat (S K))%Z.
  Proof.
    induction fuel as [|fuel IH]; intros k K v Hg HT Hk Hr Hf; [lia|].
    cbn [morethuente_loop]. pose proof (round_growing k v Hg) as Hrd.
    destruct (mt_round P f xp s finit d dgtest v) as [w|r'].
    - destruct Hrd as [Hrd HgT]. assert (k < K)%nat.
      { destruct (Nat.eq_dec k K) as [->|]; [lra|lia]. }
      apply (IH (S k)); try assumption; lia.
    - destruct Hrd as [G1 G2]. exists r'. split; [reflexivity|].
      destruct (Z_lt_le_dec (s_ret r') 0) as [G|G].
      + exfalso. apply (G2 G). destruct Hr as (R1 & R2 & R3 & R4 & R5). repeat (split; [assumption|]). lia.
      + destruct (G1 G) as [-> _]. lia.
  Qed.

  Lemma succeed_fresh fuel K (v : mt_vars Rnum St) : fresh v -> T <= growth (S K) -> (1 <= K)%nat ->
    roomy (Z.of_nat K) -> (S K <= fuel)%nat ->
    exists r, morethuente_loop P f fuel xp s finit d dgtest v = Some r /\ (0 <= s_ret r <= Z.of_nat (S K))%Z.
  Proof.
    intros Hv HT HK Hr Hf. pose proof Hr as (R1 & R2 & R3 & R4 & R5).
    destruct fuel as [|fuel]; [lia|]. cbn [morethuente_loop]. pose proof (round_fresh v Hv) as Hrd.
    destruct (mt_round P f xp s finit d dgtest v) as [w|r'].
    - destruct Hrd as [Hb|Hg]; [|apply (succeed_growing fuel 1 K); try assumption; lia].
      destruct fuel as [|fuel]; [lia|]. cbn [morethuente_loop]. pose proof (round_bracketed w Hb) as Hrd.
      destruct (mt_round P f xp s finit d dgtest w) as [w'|r']; [contradiction|].
      exists r'. split; [reflexivity|]. destruct (Z_lt_le_dec (s_ret r') 0) as [G|G].
      + exfalso. apply (proj2 Hrd G). repeat (split; [assumption|]). lia.
      + destruct (proj1 Hrd G) as [-> _]. lia.
    - exists r'. split; [reflexivity|]. destruct (Z_lt_le_dec (s_ret r') 0) as [G|G].
      + exfalso. apply (proj2 Hrd G). repeat (split; [assumption|]). lia.
      + destruct (proj1 Hrd G) as [-> _]. lia.
  Qed.
End Search.
