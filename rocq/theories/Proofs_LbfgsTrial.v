(** The trials of the default line search (C109). *)
From Coq Require Import String ZArith List Bool Arith Reals Lra Lia Psatz.
From Verif Require Import Prelude Num Spec_Rescale Proofs_Rescale Model_Lbfgs Proofs_Poisson Spec_Lbfgs Spec_LbfgsBack Spec_LbfgsTrial
  Proofs_Lbfgs Proofs_LbfgsTrace Proofs_LbfgsVec Proofs_LbfgsReal Proofs_LbfgsTop Proofs_LbfgsDir Proofs_LbfgsDescent
  Proofs_LbfgsCurv Proofs_LbfgsOpts Proofs_LbfgsQuad1 Proofs_LbfgsQuad2 Proofs_LbfgsQuad3 Proofs_LbfgsBack.
Import ListNotations.
Local Open Scope R_scope.

(** ** Interpolation *)
Section Cubic.
  Variables fu du v fv dv : R.
  Hypothesis Hv : 0 < v.
  Hypothesis Hd : du < 0.
  Hypothesis Hf : fu < fv.
  Let th := (fu - fv) * 3 / (v - 0) + du + dv.
  Let ga := sqrt (th * th - du * dv).
  Let b3 := - (du + th) / v.
  Let a3 := (du + dv + 2 * th) / (3 * (v * v)).

  Lemma th_low : th < du + dv.
  Proof.
    unfold th. replace (v - 0) with v by ring. assert (0 < / v) by now apply Rinv_0_lt_compat.
    assert ((fu - fv) * 3 / v < 0) by (unfold Rdiv; nra). lra.
  Qed.

  Lemma disc_pos : 0 < th * th - du * dv.
  Proof.
    pose proof th_low as T. clearbody th. clear -T Hd. pose proof (Rle_0_sqr th) as Q. unfold Rsqr in Q.
    destruct (Rle_lt_dec dv 0) as [D|D].
    - assert ((du + dv) * (du + dv) <= th * th) by nra. nra.
    - assert (0 < - du * dv) by (apply Rmult_lt_0_compat; lra). lra.
  Qed.

  Lemma ga_pos : 0 < ga.
  Proof. apply sqrt_lt_R0, disc_pos. Qed.
  Lemma ga_sq : ga * ga = th * th - du * dv.
  Proof. apply sqrt_sqrt. apply Rlt_le, disc_pos. Qed.

  Lemma q_pos : 0 < ga - du + ga + dv.
  Proof. pose proof th_low as T. pose proof ga_pos as P. pose proof ga_sq as S. clearbody ga th. clear -T P S Hd.
    destruct (Rle_lt_dec 0 dv) as [D|D]; [lra|]. destruct (Rle_lt_dec du dv) as [E|E]; [lra|].
    assert ((du + dv) * (du + dv) <= th * th) by nra. nra. Qed.

  Lemma p_pos : 0 < ga - du + th.
  Proof.
    pose proof th_low as T. pose proof ga_pos as P. pose proof ga_sq as S. clearbody ga th.
    destruct (Rle_lt_dec du th); [lra|]. assert (2 * th < du + dv) by (destruct (Rle_lt_dec (du + dv) 0); lra). nra.
  Qed.

  Lemma cubic_value : (cubic_minimizer (N := Rnum) 0 fu du v fv dv : R) = (ga - du + th) / (ga - du + ga + dv) * v.
  Proof.
    unfold cubic_minimizer. cbv zeta. rewrite max3_R. un. fold th. set (s := Rmax (Rmax (Rabs th) (Rabs du)) (Rabs dv)).
    assert (Hs : 0 < s).
    { unfold s. eapply Rlt_le_trans; [|apply Rmax_l]. eapply Rlt_le_trans; [|apply Rmax_r]. apply Rabs_pos_lt. lra. }
    assert (Hv' : 0 <= v) by lra. ff Hv'.
    assert (E : s * sqrt (th / s * (th / s) - du / s * (dv / s)) = ga).
    { unfold ga. replace (th * th - du * dv) with (s * s * (th / s * (th / s) - du / s * (dv / s))) by (field; lra).
      rewrite sqrt_mult_alt by nra. rewrite sqrt_square by lra. reflexivity. }
    rewrite E. replace (v - 0) with v by ring. rewrite Rplus_0_l. reflexivity.
  Qed.

  Lemma cubic_range : 0 < (cubic_minimizer (N := Rnum) 0 fu du v fv dv : R) < v.
  Proof.
    rewrite cubic_value. pose proof q_pos as Q. pose proof p_pos as Pp. pose proof th_low as T. pose proof ga_pos as P.
    assert (0 < (ga - du + th) / (ga - du + ga + dv)) by (apply Rdiv_lt_0_compat; assumption).
    assert ((ga - du + th) / (ga - du + ga + dv) < 1).
    { apply (Rmult_lt_reg_r (ga - du + ga + dv)); [exact Q|]. unfold Rdiv. rewrite Rmult_assoc, Rinv_l by lra. lra. }
    split; nra.
  Qed.

  Lemma cubic_coeffs a b : fu + du * v + b * v ^ 2 + a * v ^ 3 = fv -> du + 2 * b * v + 3 * a * v ^ 2 = dv -> a = a3 /\ b = b3.
  Proof.
    intros H1 H2. assert (Eth : th = du + dv - 3 * (du + b * v + a * v ^ 2)).
    { unfold th. rewrite <- H1. field. lra. }
    split.
    - unfold a3. rewrite Eth, <- H2. field. lra.
    - unfold b3. rewrite Eth, <- H2. field. lra.
  Qed.

  Lemma cubic_fits : fu + du * v + b3 * v ^ 2 + a3 * v ^ 3 = fv /\ du + 2 * b3 * v + 3 * a3 * v ^ 2 = dv.
  Proof. unfold a3, b3, th. split; field; lra. Qed.

  Lemma cubic_stationary : let c : R := cubic_minimizer (N := Rnum) 0 fu du v fv dv in
    du + 2 * b3 * c + 3 * a3 * c ^ 2 = 0 /\ 0 < 2 * b3 + 6 * a3 * c.
  Proof.
    cbv zeta. rewrite cubic_value. pose proof q_pos as Q. pose proof ga_sq as S. pose proof ga_pos as P.
    unfold a3, b3. clearbody ga th. split.
    - replace (du + 2 * (- (du + th) / v) * ((ga - du + th) / (ga - du + ga + dv) * v) +
        3 * ((du + dv + 2 * th) / (3 * (v * v))) * ((ga - du + th) / (ga - du + ga + dv) * v) ^ 2)
        with ((du * (ga - du + ga + dv) ^ 2 - 2 * (du + th) * (ga - du + th) * (ga - du + ga + dv) + (du + dv + 2 * th) * (ga - du + th) ^ 2) / (ga - du + ga + dv) ^ 2)
        by (field; lra).
      replace (du * (ga - du + ga + dv) ^ 2 - 2 * (du + th) * (ga - du + th) * (ga - du + ga + dv) + (du + dv + 2 * th) * (ga - du + th) ^ 2)
        with ((ga * ga - (th * th - du * dv)) * (du + dv - 2 * th)) by ring.
      rewrite S. unfold Rdiv. ring.
    - replace (2 * (- (du + th) / v) + 6 * ((du + dv + 2 * th) / (3 * (v * v))) * ((ga - du + th) / (ga - du + ga + dv) * v))
        with (2 * ((- (du + th) * (ga - du + ga + dv) + (du + dv + 2 * th) * (ga - du + th)) / (v * (ga - du + ga + dv)))) by (field; lra).
      replace (- (du + th) * (ga - du + ga + dv) + (du + dv + 2 * th) * (ga - du + th))
        with (ga * (ga - du + ga + dv) - 2 * (ga * ga - (th * th - du * dv))) by ring.
      rewrite S. apply Rmult_lt_0_compat; [lra|]. apply Rdiv_lt_0_compat; [|nra]. nra.
  Qed.
End Cubic.

Lemma cubic_point_is (f0 d0 ft dt t s c : R) : 0 < t -> d0 < s -> f0 < ft - t * s ->
  (cubic_point f0 d0 ft dt t s c <-> c = (cubic_minimizer (N := Rnum) 0 f0 (d0 - s) t (ft - t * s) (dt - s) : R)).
Proof.
  intros Ht Hd Hf. assert (Hd' : d0 - s < 0) by lra.
  pose proof (cubic_stationary f0 (d0 - s) t (ft - t * s) (dt - s) Ht Hd' Hf) as K. cbv zeta in K.
  set (c1 := (cubic_minimizer (N := Rnum) 0 f0 (d0 - s) t (ft - t * s) (dt - s) : R)) in *. split.
  - intros (a & b & E1 & E2 & E3 & E4).
    destruct (cubic_coeffs f0 (d0 - s) t (ft - t * s) (dt - s) Ht a b) as [Ea Eb]; [nra|nra|]. rewrite <- Ea, <- Eb in K.
    destruct K as [K1 K2]. clear - E3 E4 K1 K2. clearbody c1.
    assert (Q : (c - c1) * (3 * a * (c + c1) + 2 * b) = 0) by nra. apply Rmult_integral in Q. destruct Q as [Q|Q]; [lra|nra].
  - intros ->. destruct (cubic_fits f0 (d0 - s) t (ft - t * s) (dt - s) Ht) as [E1 E2]. destruct K as [K1 K2].
    eexists. eexists. split; [|split; [|split; [|exact K2]]]; [ | |].
    + clear -E1. match type of E1 with ?l = _ => match goal with |- ?g = _ => replace g with (l + t * s) by ring end end. lra.
    + clear -E2. match type of E2 with ?l = _ => match goal with |- ?g = _ => replace g with (l + s) by ring end end. lra.
    + clear -K1. match type of K1 with ?l = _ => match goal with |- ?g = _ => replace g with (l + s) by ring end end. lra.
Qed.

Lemma parabola_value (f0 d0 t ft : R) : 0 < t -> d0 < 0 -> f0 < ft ->
  let q : R := quard_minimizer (N := Rnum) 0 f0 d0 t ft in
  d0 + 2 * ((ft - f0 - d0 * t) / t ^ 2) * q = 0 /\ 0 < q < t / 2.
Proof.
  intros Ht Hd Hf. cbv zeta. unfold quard_minimizer. cbv zeta. un. replace (t - 0) with t by ring. rewrite Rplus_0_l.
  assert (Hi : 0 < / t) by now apply Rinv_0_lt_compat.
  assert (H1 : (f0 - ft) / t < 0) by (unfold Rdiv; nra).
  assert (N1 : f0 - ft + d0 * t <> 0) by nra. assert (N2 : ft - f0 - d0 * t <> 0) by nra.
  split; [field; split; lra|].
  set (w := (f0 - ft) / t + d0) in *. assert (Hw : w < d0) by (unfold w; lra).
  assert (H2 : 0 < d0 / w < 1).
  { replace (d0 / w) with (- d0 * / - w) by (field; lra). assert (0 < / - w) by (apply Rinv_0_lt_compat; lra).
    split; [apply Rmult_lt_0_compat; lra|]. apply (Rmult_lt_reg_r (- w)); [lra|]. rewrite Rmult_assoc, Rinv_l by lra. lra. }
  unfold Rdiv at 2 4. fold (d0 / w). split; nra.
Qed.

Lemma parabola_point_is (f0 d0 ft t s q : R) : 0 < t -> d0 < s -> f0 < ft - t * s ->
  (parabola_point f0 d0 ft t s q <-> q = (quard_minimizer (N := Rnum) 0 f0 (d0 - s) t (ft - t * s) : R)).
Proof.
  intros Ht Hd Hf. assert (Hd' : d0 - s < 0) by lra.
  destruct (parabola_value f0 (d0 - s) t (ft - t * s) Ht Hd' Hf) as [K _].
  set (q1 := (quard_minimizer (N := Rnum) 0 f0 (d0 - s) t (ft - t * s) : R)) in *.
  assert (Eb : (ft - t * s - f0 - (d0 - s) * t) / t ^ 2 = (ft - f0 - d0 * t) / t ^ 2) by (f_equal; ring). rewrite Eb in K. split.
  - intros (b & E1 & E2 & E3). assert (E : (ft - f0 - d0 * t) / t ^ 2 = b) by (rewrite <- E1; field; lra). rewrite E in K. nra.
  - intros ->. exists ((ft - f0 - d0 * t) / t ^ 2). split; [field; lra|]. split; [lra|].
    apply Rdiv_lt_0_compat; [nra|nra].
Qed.

(** The next step, before min_step is considered. *)
Definition cut (f0 d0 ft dt t s : R) : R :=
  let c : R := cubic_minimizer (N := Rnum) 0 f0 (d0 - s) t (ft - t * s) (dt - s) in
  let q : R := quard_minimizer (N := Rnum) 0 f0 (d0 - s) t (ft - t * s) in
  Rmin (66 / 100 * t) (if Rlt_dec c q then c else (c + q) / 2).

Lemma cut_range f0 d0 ft dt t s : 0 < t -> d0 < s -> f0 < ft - t * s -> 0 < cut f0 d0 ft dt t s <= 66 / 100 * t.
Proof.
  intros Ht Hd Hf. assert (Hd' : d0 - s < 0) by lra. unfold cut. cbv zeta.
  pose proof (cubic_range f0 (d0 - s) t (ft - t * s) (dt - s) Ht Hd' Hf) as [C1 C2].
  pose proof (parabola_value f0 (d0 - s) t (ft - t * s) Ht Hd' Hf) as [_ [Q1 Q2]].
  split; [|apply Rmin_l]. apply Rmin_glb_lt; [lra|]. destruct Rlt_dec; rr; lra.
Qed.

Lemma update_cut (f0 d0 y fy dy t ft dt tmax : R) (b : bool) : 0 < t -> d0 < 0 -> f0 < ft -> t <= tmax -> (b = true -> t < y) ->
  update_trial_interval (N := Rnum) (mkInterval (N := Rnum) 0 f0 d0 y fy dy t b) ft dt 0 tmax =
  (mkInterval (N := Rnum) 0 f0 d0 t ft dt (cut f0 d0 ft dt t 0) true, 0%Z).
Proof.
  intros Ht Hd Hf Hm Hb. unfold update_trial_interval.
  assert (G1 : b && (nleb (n := Rnum) t (min2 (N := Rnum) 0 y) || nleb (n := Rnum) (max2 (N := Rnum) 0 y) t) = false).
  { destruct b; [|reflexivity]. specialize (Hb eq_refl). cbn [andb]. unfold min2, max2. un.
    assert (E1 : Rleb 0 y = true) by (apply Rleb_t; lra). assert (E2 : Rleb y 0 = false) by (apply Rleb_f; lra). rewrite E1, E2.
    assert (E3 : Rleb t 0 = false) by (apply Rleb_f; lra). assert (E4 : Rleb y t = false) by (apply Rleb_f; lra). now rewrite E3, E4. }
  cbv zeta. rewrite G1.
  assert (G2 : b && nleb (n := Rnum) nzero (nmul (n := Rnum) d0 (nsub (n := Rnum) t 0)) = false).
  { unfold nzero. un. assert (E : Rleb 0 (d0 * (t - 0)) = false) by (apply Rleb_f; nra). rewrite E. apply andb_false_r. }
  rewrite G2. assert (G3 : b && nltb (n := Rnum) tmax 0 = false).
  { un. assert (E : 0 <= tmax) by lra. ff E. apply andb_false_r. }
  rewrite G3. un. tt Hf. cbv iota beta.
  pose proof (cubic_range f0 d0 t ft dt Ht Hd Hf) as [C1 C2]. pose proof (parabola_value f0 d0 t ft Ht Hd Hf) as [_ [Q1 Q2]].
  unfold cut. cbv zeta. rewrite !Rminus_0_r, !Rmult_0_r, !Rminus_0_r. rr.
  set (c := (cubic_minimizer (N := Rnum) 0 f0 d0 t ft dt : R)) in *. set (q := (quard_minimizer (N := Rnum) 0 f0 d0 t ft : R)) in *.
  rewrite (Rabs_right c), (Rabs_right q) by lra.
  assert (E : (if Rltb c q then c else c + half (N := Rnum) * (q - c)) = (if Rlt_dec c q then c else (c + q) / 2)).
  { rewrite half_R. destruct (Rlt_dec c q) as [L|L]; [now tt L|]. apply Rnot_lt_le in L. ff L. field. }
  rewrite E. set (w := if Rlt_dec c q then c else (c + q) / 2). assert (Hw : 0 < w < t) by (unfold w; destruct Rlt_dec; lra). clearbody w c q.
  assert (W1 : w <= tmax) by lra. ff W1. assert (W2 : 0 <= w) by lra. ff W2. cbn [andb]. tt Ht. rewrite two_thirds_R, Rplus_0_l.
  destruct (Rltb (66 / 100 * t) w) eqn:E2; [apply Rltb_t in E2; rewrite Rmin_left by lra|apply Rltb_f in E2; rewrite Rmin_right by lra]; reflexivity.
Qed.

Lemma cut_shift (f0 d0 ft dt t s : R) : cut f0 (d0 - s) (ft - t * s) (dt - s) t 0 = cut f0 d0 ft dt t s.
Proof. unfold cut. rewrite !Rminus_0_r, !Rmult_0_r, !Rminus_0_r. reflexivity. Qed.

(** ** The search *)
Section Search.
  Context {T : Type}.
  Variable P : params Rnum.
  Variable f : objective Rnum T.
  Variable log : T -> list (list R).
  Hypothesis Hlog : forall st x g, log (fst (f st x g)) = log st ++ [x].
  Variables (pt : point Rnum T) (d : list R).
  Variables (t0 a f0 : R).
  Hypothesis Hdg : (vecdot (N := Rnum) (pt_g pt) d : R) = - a.
  Hypothesis Hf0 : (pt_f pt : R) = f0.
  (** Value and negated slope along the line. *)
  Variables (phi psi : R -> R).
  Hypothesis Hev : forall t st g, let q := call_eval f st (vecadd (N := Rnum) (pt_x pt) d t) g in
    (vecdot (N := Rnum) (pt_g q) d : R) = - psi t /\ (pt_f q : R) = phi t.
  Hypothesis Ha : 0 < a.
  Hypothesis Hlo0 : 0 <= (p_min_step P : R).
  Hypothesis Hft : 0 <= (p_ftol P : R) < 1.
  Hypothesis Hxt : (p_xtol P : R) < 1.

  Definition vk (b : bool) (Y fY dY w W PW : R) (st : T) (g : list R) (k : Z) : mt_vars Rnum T :=
    mkMt (mkInterval (N := Rnum) 0 f0 (- a) Y fY dY w b) true 0 W PW st g k.

  Definition level (t : R) : R := if Rle_dec (phi t) f0 then - (p_ftol P * a) else 0.
  Definition nextcut (t : R) : R := cut f0 (- a) (phi t) (- psi t) t (level t).
  Definition fails (t : R) : Prop := f0 - p_ftol P * t * a < phi t.

  Lemma level_ok t : 0 < t -> fails t -> - a < level t /\ f0 < phi t - t * level t.
  Proof. intros Ht H. unfold fails, level in *. destruct Rle_dec as [L|L]; [|apply Rnot_le_lt in L]; split; nra. Qed.

  Lemma round_cut b Y fY dY w W PW st g k t : let v := vk b Y fY dY w W PW st g k in
    mt_step P v = t -> (p_min_step P : R) < t -> t < (p_max_step P : R) -> (b = true -> t < Y) -> (k + 1 < p_max_linesearch P)%Z ->
    t < 66 / 100 * PW -> fails t ->
    exists fY' dY' g' st', mt_round P f (pt_x pt) d f0 (- a) (p_ftol P * - a) v = inl (vk true t fY' dY' (nextcut t) t W st' g' (k + 1)) /\
      log st' = log st ++ [vecadd (N := Rnum) (pt_x pt) d t].
  Proof.
    intros v Hst Hlo Hhi Hb Hk Hw Hi. assert (Ht : 0 < t) by lra. unfold mt_round. cbv zeta. rewrite Hst.
    change (mt_st v) with st. change (mt_g v) with g.
    destruct (Hev t st g) as [E1 E2]. cbv zeta in E1, E2.
    set (q := call_eval f st (vecadd (N := Rnum) (pt_x pt) d t) g) in *.
    assert (Es : log (pt_st q) = log st ++ [vecadd (N := Rnum) (pt_x pt) d t]) by apply Hlog.
    clearbody q. rewrite E1, E2. change (mt_count v) with k. change (mt_uinfo v) with 0%Z. cbn [Z.eqb negb orb].
    assert (Ym : b = true -> mt_stmin (mt_iv v) = 0 /\ mt_stmax (mt_iv v) = Y).
    { intros ->. specialize (Hb eq_refl). unfold mt_stmin, mt_stmax, v, vk, min2, max2. cbn [mt_iv i_brackt i_x i_y]. un.
      assert (A1 : Rleb 0 Y = true) by (apply Rleb_t; lra). assert (A2 : Rleb Y 0 = false) by (apply Rleb_f; lra). now rewrite A1, A2. }
    assert (N0 : i_brackt (mt_iv v) && (mt_outside (mt_iv v) t || false) = false).
    { change (i_brackt (mt_iv v)) with b. destruct b; [|reflexivity]. destruct (Ym eq_refl) as [Y1 Y2]. specialize (Hb eq_refl).
      unfold mt_outside. rewrite Y1, Y2. un. assert (A1 : Rleb t 0 = false) by (apply Rleb_f; lra). assert (A2 : Rleb Y t = false) by (apply Rleb_f; lra).
      now rewrite A1, A2. }
    rewrite N0. un.
    assert (N1 : Reqb t (p_max_step P) = false) by (apply Reqb_f; lra). rewrite N1. cbn [andb].
    assert (N2 : Reqb t (p_min_step P) = false) by (apply Reqb_f; lra). rewrite N2. cbn [andb].
    assert (N3 : i_brackt (mt_iv v) && mt_narrow P (mt_iv v) = false).
    { change (i_brackt (mt_iv v)) with b. destruct b; [|reflexivity]. destruct (Ym eq_refl) as [Y1 Y2]. specialize (Hb eq_refl).
      unfold mt_narrow. rewrite Y1, Y2. un. assert (A1 : Rleb (Y - 0) (p_xtol P * Y) = false) by (apply Rleb_f; nra). now rewrite A1. }
    rewrite N3. assert (N4 : (p_max_linesearch P <=? k + 1)%Z = false) by (apply Z.leb_gt; lia). rewrite N4.
    assert (Hi' : f0 + t * (p_ftol P * - a) < phi t) by (unfold fails in Hi; lra).
    assert (N5 : Rleb (phi t) (f0 + t * (p_ftol P * - a)) = false) by (apply Rleb_f; exact Hi'). rewrite N5. cbn [andb].
    destruct (level_ok t Ht Hi) as [L1 L2].
    assert (Hmax : t <= mt_stmax (mt_iv v)).
    { destruct b; [destruct (Ym eq_refl) as [_ Y2]; specialize (Hb eq_refl); rewrite Y2; lra|].
      assert (Eu : mt_step P v = w \/ mt_step P v = p_min_step P \/ mt_step P v = p_max_step P).
      { unfold mt_step, v, vk. cbn [mt_iv i_t i_brackt andb orb]. un. destruct (Rltb w (p_min_step P)); destruct Rltb; auto. }
      rewrite Hst in Eu. destruct Eu as [Eu|[Eu|Eu]]; [|rr; lra|rr; lra].
      unfold mt_stmax, v, vk. cbn [mt_iv i_t i_x i_brackt]. un. rr. lra. }
    assert (Hmin : mt_stmin (mt_iv v) = 0) by (destruct b; [apply Ym; reflexivity|reflexivity]).
    set (hi := (mt_stmax (mt_iv v) : R)) in *.
    assert (Hgap : Rleb (66 / 100 * PW) (Rabs (t - 0)) = false) by (apply Rleb_f; rewrite Rminus_0_r, Rabs_right by lra; exact Hw).
    unfold mt_next. cbv zeta. rewrite E2, Hmin. fold hi. clearbody hi. unfold v, vk. un.
    cbn [mt_iv i_x i_fx i_dx i_y i_fy i_dy i_t i_brackt mt_stage1 mt_width mt_prev_width mt_count andb].
    rewrite N5. cbn [andb]. tt Hi'. cbn [andb].
    unfold nextcut, level in *. destruct (Rle_dec (phi t) f0) as [L|L].
    - assert (A1 : Rleb (phi t) f0 = true) by (apply Rleb_t; exact L). rewrite A1.
      assert (Ed : p_ftol P * - a = - (p_ftol P * a)) by ring. rewrite Ed.
      set (s := - (p_ftol P * a)) in *. rewrite Rmult_0_l, Rminus_0_r.
      rewrite update_cut by (try assumption; lra). cbn [fst snd i_x i_fx i_dx i_y i_fy i_dy i_t i_brackt].
      rewrite two_thirds_R, Hgap, cut_shift.
      assert (Ea : - a - s + s = - a) by ring. rewrite Ea. rewrite Rmult_0_l, Rplus_0_r, Rminus_0_r, (Rabs_right t) by lra.
      eexists. eexists. eexists. exists (pt_st q). split; [reflexivity|exact Es].
    - assert (A1 : Rleb (phi t) f0 = false) by (apply Rleb_f; lra). rewrite A1.
      rewrite update_cut by (try assumption; lra). cbn [fst snd i_x i_fx i_dx i_y i_fy i_dy i_t i_brackt].
      rewrite two_thirds_R, Hgap. rewrite Rminus_0_r, (Rabs_right t) by lra.
      eexists. eexists. eexists. exists (pt_st q). split; [reflexivity|exact Es].
  Qed.

  Hypothesis Ht0 : 0 < t0.
  Hypothesis Hlo : (p_min_step P : R) < t0.
  Hypothesis Hhi : t0 < (p_max_step P : R).
  Hypothesis Hgap : t0 < (p_max_step P : R) - p_min_step P.
  Notation at_t t := (vecadd (N := Rnum) (pt_x pt) d t).

  Inductive steps : list R -> R -> Prop :=
  | steps_one : steps [t0] t0
  | steps_more ts t : steps ts t -> (p_min_step P : R) < t -> fails t ->
      steps (ts ++ [Rmax (p_min_step P) (nextcut t)]) (Rmax (p_min_step P) (nextcut t)).

  Lemma nextcut_range t : 0 < t -> fails t -> 0 < nextcut t <= 66 / 100 * t.
  Proof. intros Ht H. destruct (level_ok t Ht H) as [L1 L2]. apply cut_range; assumption. Qed.

  Lemma steps_pos ts t : steps ts t -> 0 < t <= t0 /\ ts <> [].
  Proof.
    induction 1 as [|ts t H IH Hm Hf]; [split; [lra|discriminate]|]. destruct IH as [IH _]. split; [|destruct ts; discriminate].
    destruct (nextcut_range t) as [R1 R2]; [lra|assumption|]. pose proof (Rmax_r (p_min_step P) (nextcut t)). split; [lra|]. apply Rmax_lub; lra.
  Qed.

  Lemma step_vk Y fY dY W PW st g k : (p_min_step P : R) < Y -> Y < (p_max_step P : R) -> 0 < nextcut Y <= 66 / 100 * Y ->
    (k + 1 < p_max_linesearch P)%Z ->
    mt_step P (vk true Y fY dY (nextcut Y) W PW st g k) = Rmax (p_min_step P) (nextcut Y).
  Proof.
    intros H1 H2 H3 Hk. set (w := nextcut Y) in *. clearbody w. unfold mt_step. cbv zeta. unfold vk. cbn [mt_iv i_t i_x i_y i_brackt mt_count mt_uinfo Z.eqb negb].
    un. assert (E : (if Rltb w (p_min_step P) then (p_min_step P : R) else w) = Rmax (p_min_step P) w).
    { destruct (Rltb w (p_min_step P)) eqn:E; [apply Rltb_t in E; now rewrite Rmax_left by (rr; lra)|apply Rltb_f in E; now rewrite Rmax_right by exact E]. }
    rewrite E. pose proof (Rmax_r (p_min_step P) w) as M1. assert (M2 : Rmax (p_min_step P) w < Y) by (apply Rmax_lub_lt; lra).
    set (t := Rmax (p_min_step P) w) in *. clearbody t. assert (M3 : t <= (p_max_step P : R)) by lra. ff M3.
    assert (Z1 : Rleb 0 Y = true) by (apply Rleb_t; lra). assert (Z2 : Rleb Y 0 = false) by (apply Rleb_f; lra).
    unfold mt_outside, mt_narrow, mt_stmin, mt_stmax, min2, max2. cbn [mt_iv i_t i_x i_y i_brackt]. un. rewrite Z1, Z2.
    assert (Z3 : Rleb t 0 = false) by (apply Rleb_f; lra). assert (Z4 : Rleb Y t = false) by (apply Rleb_f; lra). rewrite Z3, Z4.
    assert (Z5 : Rleb (Y - 0) (p_xtol P * Y) = false) by (apply Rleb_f; nra). rewrite Z5.
    assert (Z6 : (p_max_linesearch P <=? k + 1)%Z = false) by (apply Z.leb_gt; lia). rewrite Z6. reflexivity.
  Qed.

  Let v0 : mt_vars Rnum T :=
    vk false 0 f0 (- a) t0 (p_max_step P - p_min_step P) (2 * (p_max_step P - p_min_step P)) (pt_st pt) (pt_g pt) 0.

  Lemma reach fuel r ts t : steps ts t -> (Z.of_nat (length ts) < p_max_linesearch P)%Z ->
    morethuente_loop P f fuel (pt_x pt) d f0 (- a) (p_ftol P * - a) v0 = Some r ->
    exists fuel' v, morethuente_loop P f fuel' (pt_x pt) d f0 (- a) (p_ftol P * - a) v = Some r /\
      mt_step P v = t /\ mt_count v = (Z.of_nat (length ts) - 1)%Z /\
      log (mt_st v) ++ [at_t t] = log (pt_st pt) ++ map (fun t => at_t t) ts /\
      (exists b Y fY dY w W PW st g k, v = vk b Y fY dY w W PW st g k /\ (b = true -> (p_min_step P : R) < t -> t < Y) /\
         ((p_min_step P : R) < t -> t < 66 / 100 * PW) /\ (if b then W = Y else W = p_max_step P - p_min_step P)%R /\
         (b = true -> t <= W /\ Y <= t0)).
  Proof.
    intros Hs Hl H. induction Hs as [|ts t Hs IH Hm Hf].
    - exists fuel, v0. split; [exact H|]. split; [|split; [reflexivity|split; [reflexivity|]]].
      + unfold mt_step, v0, vk. cbn [mt_iv i_t i_brackt andb orb]. un.
        assert (H1 : (p_min_step P : R) <= t0) by lra. ff H1. assert (H2 : t0 <= (p_max_step P : R)) by lra. ff H2. reflexivity.
      + unfold v0. do 10 eexists. split; [reflexivity|]. split; [discriminate|]. split; [intros _; lra|]. split; [reflexivity|discriminate].
    - rewrite app_length in Hl. cbn [length] in Hl. specialize (IH ltac:(lia)).
      destruct IH as (fuel' & v & L & S1 & S2 & S3 & (b & Y & fY & dY & w & W & PW & st & g & k & Ev & V1 & V2 & V3 & V4)).
      destruct (steps_pos ts t Hs) as [[T1 T2] T3]. destruct fuel' as [|fuel']; [discriminate|]. cbn [morethuente_loop] in L.
      assert (Ek : k = (Z.of_nat (length ts) - 1)%Z) by (rewrite Ev in S2; exact S2).
      rewrite Ev in S1. destruct (round_cut b Y fY dY w W PW st g k t S1 Hm) as (fY' & dY' & g' & st' & R1 & R2); [lra| |lia|exact (V2 Hm)|exact Hf|].
      { intro B. exact (V1 B Hm). }
      rewrite <- Ev in R1.
      match type of L with match ?u with _ => _ end = _ => change u with (mt_round P f (pt_x pt) d f0 (- a) (p_ftol P * - a) v) in L end.
      rewrite R1 in L. destruct (nextcut_range t T1 Hf) as [C1 C2].
      eexists fuel', _. split; [exact L|]. split; [apply step_vk; [exact Hm|lra|split; assumption|lia]|].
      split; [unfold vk; cbn [mt_count]; rewrite app_length; cbn [length]; lia|].
      split.
      + unfold vk at 1. cbn [mt_st]. rewrite R2, map_app. cbn [map]. assert (Es : log st = log (mt_st v)) by now rewrite Ev. rewrite Es, S3, <- app_assoc. reflexivity.
      + assert (M : (p_min_step P : R) < Rmax (p_min_step P) (nextcut t) -> Rmax (p_min_step P) (nextcut t) <= 66 / 100 * t).
        { intro M. destruct (Rle_dec (p_min_step P) (nextcut t)) as [Q|Q]; [now rewrite Rmax_right|]. rewrite Rmax_left in M by lra. lra. }
        assert (M' : Rmax (p_min_step P) (nextcut t) <= t) by (apply Rmax_lub; lra).
        do 10 eexists. split; [reflexivity|]. split; [intros _ M1; specialize (M M1); lra|].
        split; [intro M1; specialize (M M1)|split; [reflexivity|intros _; split; lra]].
        destruct b; [destruct V4 as [V4 V5]; [reflexivity|]|]; [|rewrite V3; rr; lra]. specialize (V1 eq_refl Hm). rewrite V3. lra.
  Qed.

  Lemma search_backs fuel r ts t : steps ts t -> (Z.of_nat (length ts) < p_max_linesearch P)%Z ->
    line_search_morethuente P f fuel pt d t0 = Some r ->
    exists more, log (pt_st (s_pt r)) = log (pt_st pt) ++ map (fun t => at_t t) ts ++ more.
  Proof.
    intros Hs Hl H. unfold line_search_morethuente in H. unfold nzero in H. un.
    assert (H1 : Rleb t0 0 = false) by (apply Rleb_f; exact Ht0). rewrite H1 in H. cbv zeta in H. rewrite Hdg in H.
    assert (H2 : Rltb 0 (- a) = false) by (apply Rltb_f; lra). rewrite H2 in H. rewrite Hf0 in H.
    assert (H' : morethuente_loop P f fuel (pt_x pt) d f0 (- a) (p_ftol P * - a) v0 = Some r) by exact H.
    destruct (reach fuel r ts t Hs Hl H') as (fuel' & v & L & S1 & S2 & S3 & _). clear H H'.
    destruct fuel' as [|fuel']; [discriminate|]. cbn [morethuente_loop] in L.
    destruct (steps_pos ts t Hs) as [_ Hne]. assert (Hl1 : (1 <= length ts)%nat) by (destruct ts; [contradiction|cbn; lia]).
    assert (K : forall st, (exists l, log st = (log (mt_st v) ++ [at_t t]) ++ l) -> exists more, log st = log (pt_st pt) ++ map (fun t => at_t t) ts ++ more).
    { intros st [l E]. exists l. rewrite E, S3, <- app_assoc. reflexivity. }
    apply K. clear K. rewrite <- S1.
    assert (Ep : forall g, log (pt_st (call_eval f (mt_st v) (at_t (mt_step P v)) g)) = log (mt_st v) ++ [at_t (mt_step P v)]).
    { intros g. apply Hlog. }
    match type of L with match ?u with _ => _ end = _ => destruct u as [v2|r2] eqn:E end.
    - apply mt_round_next in E. cbv zeta in E. destruct E as (E1 & E2 & _).
      match type of E1 with v2 = mt_next _ ?a1 ?a2 ?a3 ?a4 ?a5 ?a6 ?a7 => destruct (mt_next_vars P a1 a2 a3 a4 a5 a6 a7) as (C1 & C2 & _) end.
      rewrite <- E1 in C1, C2. apply mt_loop_evals in L; [|rewrite C1, S2 in *; lia]. destruct L as (k & L & _). apply (evals_log f log Hlog) in L.
      destruct L as [l L]. exists l. rewrite L, C2. exact (f_equal (fun u => u ++ l) (Ep (mt_g v))).
    - injection L as <-. apply mt_round_end in E; [|rewrite S2; lia]. destruct E as (E1 & E2 & _). exists []. rewrite app_nil_r. rewrite E2. apply Ep.
  Qed.
End Search.

(** ** From the call *)
Section Top.
  Context {St : Type}.
  Variables (n : nat) (z : nat -> bool) (O : options Rnum).
  Variable f : objective Rnum St.
  Variables (F : list R -> R) (G : list R -> list R).
  Variables (fuel lsfuel : nat) (st : St) (x0 : list R).
  Hypothesis Hf : computes n z f F G.
  Hypothesis Hx : length x0 = n.
  Hypothesis Hz : vanishes z x0.
  Hypothesis Hs : searches O MoreThuente.
  Hypothesis Hd : documented O MoreThuente n.
  Hypothesis Hm : (0 <= o_m O)%Z.
  Hypothesis Hft : o_ftol O < 1.
  Hypothesis Hxt : o_xtol O < 1.
  Hypothesis Hnc : o_epsilon O * Rmax 1 (norm n x0) < norm n (G x0).
  Let t0 := 1 / norm n (G x0).
  Hypothesis Hlo : o_min_step O < t0.
  Hypothesis Hhi : t0 < o_max_step O - o_min_step O.

  Let d : list R := vecncpy (N := Rnum) (G x0).
  Let a := dot n (G x0) (G x0).
  Let phi (t : R) := F (vecadd (N := Rnum) x0 d t).
  Let psi (t : R) := dot n (G (vecadd (N := Rnum) x0 d t)) (G x0).
  Let P := to_params O MoreThuente.

  Lemma shorter_cut t y t' : length (G x0) = n -> 0 < t -> 0 < a -> steepest n x0 (G x0) t y -> insufficient O n F G x0 t y ->
    (shorter O n F G x0 t y t' <-> t' = Rmax (o_min_step O) (nextcut P a (F x0) phi psi t)).
  Proof.
    intros Hg Ht Ha Hy Hi. assert (Ey : y = vecadd (N := Rnum) x0 d t) by (apply (steepest_vecadd n x0 Hx); assumption).
    assert (Hft0 : 0 <= (o_ftol O : R)) by (destruct Hd as (_ & _ & _ & _ & _ & D & _); exact D).
    assert (Hfl : fails P a (F x0) phi t) by (unfold fails, phi; rewrite <- Ey; exact Hi).
    destruct (level_ok P a (F x0) phi Ha (conj Hft0 Hft) t Ht Hfl) as [L1 L2].
    unfold shorter. cbv zeta. fold a. unfold nextcut.
    assert (El : (if Rle_dec (F y) (F x0) then - (o_ftol O * a) else 0) = level P a (F x0) phi t) by (unfold level, phi; now rewrite <- Ey).
    rewrite El. set (s := level P a (F x0) phi t) in *. assert (E1 : F y = phi t) by (unfold phi; now rewrite <- Ey).
    assert (E2 : dot n (G y) (G x0) = psi t) by (unfold psi; now rewrite <- Ey). rewrite E1, E2. split.
    - intros (c & q & Hc & Hq & ->). apply cubic_point_is in Hc; [|assumption|assumption|assumption].
      apply parabola_point_is in Hq; [|assumption|assumption|assumption]. rewrite Hc, Hq. reflexivity.
    - intros ->. eexists. eexists. split; [apply cubic_point_is; [assumption|assumption|assumption|reflexivity]|].
      split; [apply parabola_point_is; [assumption|assumption|assumption|reflexivity]|]. reflexivity.
  Qed.

  Lemma backs_steps ys t y : length (G x0) = n -> 0 < a -> 0 < t0 -> 0 <= o_min_step O -> backs O n F G x0 ys t y ->
    exists ts, steps P t0 a (F x0) phi psi ts t /\ ys = map (fun t => vecadd (N := Rnum) x0 d t) ts /\ length ts = length ys /\ 0 < t /\ steepest n x0 (G x0) t y.
  Proof.
    intros Hg Ha Ht0 Hlo0 H. induction H as [y Hy|ys t y t' y' H IH H1 H2 H3 H4].
    - exists [t0]. split; [constructor|]. cbn [map]. split; [|split; [reflexivity|split; [exact Ht0|exact Hy]]].
      assert (Ey : y = vecadd (N := Rnum) x0 d t0) by (apply (steepest_vecadd n x0 Hx); assumption). exact (f_equal (fun u => [u]) Ey).
    - destruct IH as (ts & I1 & I2 & I3 & I4 & I5). apply shorter_cut in H3; try assumption.
      assert (Ey : y = vecadd (N := Rnum) x0 d t) by (apply (steepest_vecadd n x0 Hx); assumption).
      assert (Hfl : fails P a (F x0) phi t) by (unfold fails, phi; rewrite <- Ey; exact H2).
      exists (ts ++ [t']). split; [rewrite H3; apply steps_more; assumption|].
      assert (Ey' : y' = vecadd (N := Rnum) x0 d t') by (apply (steepest_vecadd n x0 Hx); assumption).
      split; [rewrite map_app, I2; cbn [map]; exact (f_equal (fun u => map (fun t => vecadd (N := Rnum) x0 d t) ts ++ [u]) Ey')|].
      split; [rewrite !app_length, I3; reflexivity|]. split; [|exact H4]. rewrite H3. eapply Rlt_le_trans; [|apply Rmax_r].
      assert (Hft0 : 0 <= (o_ftol O : R)) by (destruct Hd as (_ & _ & _ & _ & _ & D & _); exact D).
      apply (nextcut_range P a (F x0) phi psi Ha (conj Hft0 Hft) t I4 Hfl).
  Qed.

  Lemma backs_seen st' seen out ys t y : backs O n F G x0 ys t y -> (Z.of_nat (length ys) < o_max_linesearch O)%Z ->
    fmin_lbfgs O (see f) None fuel lsfuel (st, []) x0 = Some ((st', seen), out) ->
    exists rest, seen = x0 :: ys ++ rest.
  Proof.
    intros Hb Hl H. assert (Hc : (o_c O : R) = 0) by (destruct Hs as [[_ C]|[C _]]; [discriminate|exact C]).
    pose proof (see_computes n z f F G Hf) as Hf'. rewrite (fmin_unfold O MoreThuente) in H by exact Hs.
    apply minimize_start in H. destruct H as [(code & Ec & H & Ho)|(b & e & Hck & H)].
    { exfalso. rewrite <- Hx in Hd. apply (checked_documented O MoreThuente _ Hs) in Hd. destruct Hd as (b & e & C). apply check_ok in C. rr. congruence. }
    rr. rewrite Hx in Hck. destruct H as [(Hm' & _)|(_ & H)]; [exfalso; change (p_m (to_params O MoreThuente)) with (o_m O) in Hm'; lia|].
    cbv zeta in H. fold P in H, Hck. set (s := init_state P (see f) b e (st, []) x0) in *.
    assert (Eo : owl P = false) by exact (not_owl n O MoreThuente b e Hck Hc). rewrite Eo in H.
    assert (Hi : inv n z P F G b e s) by (apply init_inv; [exact Hf'|exact (kf_c n O MoreThuente b e Hck)|split; assumption]).
    assert (Ex : pt_x (l_pt s) = x0).
    { destruct (eval_at n z (see f) F G Hf' (st, []) x0 (repeat nzero (length x0)) (conj Hx Hz)) as (E & _). exact E. }
    pose proof (inv_g _ _ _ _ _ _ _ _ Hi) as Eg. rewrite Ex in Eg. destruct (inv_gf _ _ _ _ _ _ _ _ Hi) as [Ig Igz]. rewrite Eg in Ig, Igz.
    pose proof (inv_f _ _ _ _ _ _ _ _ Hi) as Ef. rewrite Ex in Ef.
    assert (Pn : 0 < norm n (G x0)).
    { pose proof (ck_epsilon _ _ _ _ Hck) as E. unfold nzero in E. rnin E. apply Rltb_f in E. change (p_epsilon P) with (o_epsilon O) in E.
      pose proof (Rmax_l 1 (norm n x0)). rr. nra. }
    assert (Pa : 0 < a).
    { unfold a. destruct (Rle_lt_dec (dot n (G x0) (G x0)) 0) as [Q|Q]; [|exact Q]. unfold norm in Pn. rewrite sqrt_neg_0 in Pn by exact Q. lra. }
    destruct H as [(Hv & _)|(_ & l & en & Hr & H & _)].
    { exfalso. change (converged P (vec2norm (N := Rnum) (pt_x (l_pt s) : list R)) (vec2norm (N := Rnum) (pt_g (l_pt s) : list R)) = true) in Hv.
      apply (converged_le n) in Hv; [|rewrite Ex; exact Hx|rewrite Eg; exact Ig]. rewrite Ex, Eg in Hv. rr. lra. }
    apply run_see in Hr; [|exact (kf_ls n O MoreThuente b e Hck)]. destruct Hr as (r & lf & more & Er & Em).
    assert (Em' : seen = snd (pt_st (s_pt r)) ++ more) by exact (eq_trans (f_equal snd H) Em).
    pose proof (first_step_norm n z O (see f) F G b e (st, []) x0 Hf' Hck Hc Hx Hz) as Est. fold P s t0 in Est.
    assert (Ed : l_d s = d).
    { pose proof (h_d _ _ _ _ _ _ (init_hist O MoreThuente (see f) b e (st, []) x0)) as Ed. fold P s in Ed. rewrite Ed. cbn [differences]. rewrite firstn_nil. unfold dir_of.
      fold P. rewrite Eo, Eg. reflexivity. }
    assert (Esn : snd (pt_st (l_pt s)) = [x0]) by reflexivity.
    unfold run_line_search in Er. rewrite Eo in Er. change (p_linesearch P) with MoreThuente in Er. cbv iota in Er.
    assert (Hld : length d = n) by (apply length_vecncpy; exact Ig).
    assert (Edg : forall v, length v = n -> (vecdot (N := Rnum) v d : R) = - dot n v (G x0)).
    { intros v Hv. rewrite (vecdot_dot n) by assumption. rewrite dot_comm. unfold d. rewrite dot_ncpy_l by assumption. rewrite dot_comm. ring. }
    assert (Er' : line_search_morethuente P (see f) lf (l_pt s) (l_d s) (l_step s) = Some r) by exact Er.
    rewrite Ed, Est in Er'.
    assert (Efy : fine n z d) by (apply fine_vecncpy; split; assumption).
    assert (Pt : 0 < t0) by (apply Rdiv_lt_0_compat; lra).
    destruct Hd as (_ & _ & _ & _ & (D1 & _) & D2 & _).
    destruct (backs_steps ys t y Ig Pa Pt D1 Hb) as (ts & B1 & B2 & B3 & B4 & B5).
    pose proof (search_backs P (see f) snd (fun _ _ _ => eq_refl) (l_pt s) d t0 a (F x0)) as K.
    rewrite Ex in K. assert (Epf : (pt_f (l_pt s) : R) = F x0) by (rewrite Ef; unfold F1; change (p_c P) with (o_c O); rr; rewrite Hc; ring).
    destruct (K) with (fuel := lf) (r := r) (ts := ts) (t := t) (phi := phi) (psi := psi) as [more' Es]; try assumption.
    - rewrite Eg. apply Edg. exact Ig.
    - intros t1 st1 g1. cbv zeta. assert (Hyf : fine n z (vecadd (N := Rnum) x0 d t1)) by (apply fine_vecadd; [split; assumption|exact Efy]).
      destruct (eval_at n z (see f) F G Hf' st1 _ g1 Hyf) as (_ & Q2 & Q3 & Q4). split.
      + refine (eq_trans (f_equal (fun v => vecdot (N := Rnum) v d : R) Q2) _). apply Edg. apply Q4.
      + exact Q3.
    - exact (conj D2 Hft).
    - change (p_max_step P) with (o_max_step O). rr. lra.
    - rewrite B3. exact Hl.
    - exists (more' ++ more). rewrite Em', Es, Esn, B2, <- !app_assoc. reflexivity.
  Qed.
End Top.

Section Length.
  Variables (n : nat) (O : options Rnum) (F : list R -> R) (G : list R -> list R) (x0 : list R).
  Hypothesis Hx : length x0 = n.
  Hypothesis Hg : length (G x0) = n.
  Hypothesis Hd : documented O MoreThuente n.
  Hypothesis Hft : o_ftol O < 1.
  Hypothesis Hn : 0 < norm n (G x0).

  Lemma sq_pos : 0 < dot n (G x0) (G x0).
  Proof.
    destruct (Rle_lt_dec (dot n (G x0) (G x0)) 0) as [Q|Q]; [|exact Q]. exfalso. unfold norm in Hn. rewrite sqrt_neg_0 in Hn by exact Q. lra.
  Qed.

  Lemma next_exists t y : 0 < t -> steepest n x0 (G x0) t y -> insufficient O n F G x0 t y ->
    exists t', shorter O n F G x0 t y t' /\ (forall u, shorter O n F G x0 t y u -> u = t') /\ 0 < t' <= Rmax (o_min_step O) (66 / 100 * t).
  Proof.
    intros Ht Hy Hi. pose proof sq_pos as Ha.
    eexists. split; [apply (shorter_cut n O F G x0 Hx Hd Hft); try assumption; reflexivity|].
    split; [intros u Hu; apply (shorter_cut n O F G x0 Hx Hd Hft) in Hu; assumption|].
    assert (Hft0 : 0 <= (o_ftol O : R)) by (destruct Hd as (_ & _ & _ & _ & _ & D & _); exact D).
    assert (Ey : y = vecadd (N := Rnum) x0 (vecncpy (N := Rnum) (G x0)) t) by (apply (steepest_vecadd n x0 Hx); assumption).
    edestruct (nextcut_range (to_params O MoreThuente) (dot n (G x0) (G x0)) (F x0)
      (fun t => F (vecadd (N := Rnum) x0 (vecncpy (N := Rnum) (G x0)) t))
      (fun t => dot n (G (vecadd (N := Rnum) x0 (vecncpy (N := Rnum) (G x0)) t)) (G x0)) Ha (conj Hft0 Hft) t Ht) as [C1 C2].
    { unfold fails. rewrite <- Ey. exact Hi. }
    split; [eapply Rlt_le_trans; [exact C1|apply Rmax_r]|]. apply Rmax_lub; [apply Rmax_l|]. eapply Rle_trans; [exact C2|apply Rmax_r].
  Qed.

  Lemma backs_small ys t y : backs O n F G x0 ys t y -> 0 < t /\ steepest n x0 (G x0) t y /\ ys <> [] /\
    (o_min_step O < t -> t <= (66 / 100) ^ (length ys - 1) * (1 / norm n (G x0))).
  Proof.
    induction 1 as [y Hy|ys t y t' y' H IH H1 H2 H3 H4].
    - split; [apply Rdiv_lt_0_compat; lra|]. split; [exact Hy|]. split; [discriminate|]. intros _. cbn. lra.
    - destruct IH as (I1 & I2 & I3 & I4). destruct (next_exists t y I1 I2 H2) as (u & _ & U2 & U3). rewrite <- (U2 t' H3) in U3.
      split; [lra|]. split; [exact H4|]. split; [destruct ys; discriminate|]. intro L.
      assert (t' <= 66 / 100 * t).
      { destruct (Rle_dec (o_min_step O) (66 / 100 * t)) as [Q|Q]; [rewrite Rmax_right in U3 by exact Q; lra|rewrite Rmax_left in U3 by lra; lra]. }
      rewrite app_length. cbn [length]. replace (length ys + 1 - 1)%nat with (S (length ys - 1)) by (destruct ys; [contradiction|cbn; lia]).
      cbn [pow]. specialize (I4 H1). nra.
  Qed.

  Lemma count_bound M ys t y : 0 < M -> smooth n F G M -> backs O n F G x0 ys t y -> o_min_step O < t -> insufficient O n F G x0 t y ->
    2 * (1 - o_ftol O) / M < (66 / 100) ^ (length ys - 1) * (1 / norm n (G x0)).
  Proof.
    intros HM Hs Hb Hm Hi. destruct (backs_small ys t y Hb) as (B1 & [B2 B3] & _ & B4). specialize (B4 Hm). eapply Rlt_le_trans; [|exact B4].
    specialize (Hs x0 y Hx B2). unfold insufficient in Hi. pose proof sq_pos as Ha.
    assert (E1 : along n (G x0) x0 y = - (t * dot n (G x0) (G x0))).
    { unfold along, dot. rewrite <- Ropp_mult_distr_l_reverse, <- Sum_scal. apply Sum_ext. intros i Hi'. rewrite B3 by exact Hi'. ring. }
    assert (E2 : distance n x0 y * distance n x0 y = t * t * dot n (G x0) (G x0)).
    { unfold distance. rewrite sqrt_sqrt by (apply Sum_nonneg; intros i Hi'; apply Rle_0_sqr).
      unfold dot. rewrite <- Sum_scal. apply Sum_ext. intros i Hi'. rewrite B3 by exact Hi'. ring. }
    rewrite E1, E2 in Hs. set (a := dot n (G x0) (G x0)) in *. clearbody a.
    assert (K : 0 < (t * a) * (M / 2 * t - (1 - o_ftol O))) by nra.
    assert (K2 : 0 < M / 2 * t - (1 - o_ftol O)) by (assert (0 < t * a) by nra; nra).
    apply (Rmult_lt_reg_r (M / 2)); [lra|]. replace (2 * (1 - o_ftol O) / M * (M / 2)) with (1 - o_ftol O) by (field; lra). lra.
  Qed.
End Length.
