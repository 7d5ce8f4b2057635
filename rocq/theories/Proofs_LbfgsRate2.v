(** Runs of the optimizer on strongly convex objectives (C106). *)
From Coq Require Import String ZArith List Bool Arith Reals Lra Lia.
From Verif Require Import Prelude Num Spec_Rescale Proofs_Rescale Model_Lbfgs Proofs_Poisson Spec_Lbfgs Spec_LbfgsRate
  Proofs_Lbfgs Proofs_LbfgsTrace Proofs_LbfgsVec Proofs_LbfgsReal Proofs_LbfgsTop Proofs_LbfgsDir Proofs_LbfgsDescent
  Proofs_LbfgsCurv Proofs_LbfgsMain Proofs_LbfgsOpts Proofs_LbfgsRate.
Import ListNotations.
Local Open Scope R_scope.

(** A step with directional derivative A < 0 and length D, along d. *)
Lemma zoutendijk (A D gd d g c C M w : R) : A < 0 -> 0 < M -> 0 < c -> 0 < C -> 0 < g -> 0 <= d ->
  (1 - w) * - A <= M * (D * D) -> A * A * (d * d) = D * D * (gd * gd) -> gd <= - (c * (g * g)) -> d <= C * g ->
  (1 - w) / M * ((c / C) * (c / C)) * (g * g) <= - A.
Proof.
  intros HA HM Hc HC Hg Hd H1 H2 H3 H4.
  assert (Pg : 0 < g * g) by nra. assert (Pc : 0 < c * (g * g)) by nra.
  assert (D2 : 0 <= D * D) by apply Rle_0_sqr. assert (A2 : 0 < A * A) by nra.
  assert (K1 : (c * (g * g)) * (c * (g * g)) <= gd * gd) by nra.
  assert (K2 : d * d <= (C * g) * (C * g)) by (apply Rmult_le_compat; assumption).
  assert (K3 : D * D * ((c * (g * g)) * (c * (g * g))) <= A * A * ((C * g) * (C * g))).
  { apply Rle_trans with (D * D * (gd * gd)); [now apply Rmult_le_compat_l|]. rewrite <- H2. apply Rmult_le_compat_l; [lra|exact K2]. }
  assert (K4 : D * D * (c * c * (g * g)) <= A * A * (C * C)).
  { apply (Rmult_le_reg_r (g * g)); [exact Pg|]. lra. }
  assert (P1 : 0 < c * c * (g * g)) by (apply Rmult_lt_0_compat; nra).
  assert (K5 : (1 - w) * - A * (c * c * (g * g)) <= M * (A * A * (C * C))).
  { apply Rle_trans with (M * (D * D) * (c * c * (g * g))); [apply Rmult_le_compat_r; lra|].
    rewrite Rmult_assoc. apply Rmult_le_compat_l; lra. }
  assert (K6 : (1 - w) * (c * c * (g * g)) <= M * (- A * (C * C))).
  { apply (Rmult_le_reg_r (- A)); [lra|]. lra. }
  assert (PC : 0 < C * C) by nra.
  apply (Rmult_le_reg_r (M * (C * C))); [now apply Rmult_lt_0_compat|].
  replace ((1 - w) / M * (c / C * (c / C)) * (g * g) * (M * (C * C))) with ((1 - w) * (c * c * (g * g))) by (field; lra).
  lra.
Qed.

Section Rate.
  Context {St : Type}.
  Variables (n : nat) (z : nat -> bool) (O : options Rnum) (alg : algorithm).
  Variable f : objective Rnum St.
  Variable progress : option (observer Rnum St).
  Variables (F : list R -> R) (G : list R -> list R) (b e : nat).
  Variables mu M : R.
  Hypothesis Hf : computes n z f F G.
  Let P := to_params O alg.
  Hypothesis Hck : checked P n b e.
  Hypothesis H0 : (o_c O : R) = 0.
  Hypothesis Hcurv : curved O alg.
  Hypothesis Hmu : 0 < mu.
  Hypothesis HM : 0 < M.
  Hypothesis Hsc : strongly_convex n F G mu.
  Hypothesis Hlip : lipschitz n G M.

  Definition visited (p : list R * list R) : Prop := length (fst p) = n /\ length (snd p) = n /\ snd p = G (fst p).

  Lemma monotone (x y : list R) : length x = n -> length y = n -> length (G x) = n -> length (G y) = n ->
    mu * (norm n (vecdiff (N := Rnum) y x) * norm n (vecdiff (N := Rnum) y x)) <=
    dot n (vecdiff (N := Rnum) (G y) (G x)) (vecdiff (N := Rnum) y x).
  Proof.
    intros Hx Hy Hgx Hgy. rewrite <- distance_diff by assumption.
    pose proof (Hsc x y Hx Hy) as A. pose proof (Hsc y x Hy Hx) as B.
    assert (E : distance n y x = distance n x y).
    { unfold distance. f_equal. apply Sum_ext. intros. ring. }
    rewrite E in B.
    assert (D : dot n (vecdiff (N := Rnum) (G y) (G x)) (vecdiff (N := Rnum) y x) = - along n (G y) y x - along n (G x) x y).
    { unfold dot, along. rewrite (Sum_ext n _ (fun i => -1 * (entry (G y) i * (entry x i - entry y i)) - entry (G x) i * (entry y i - entry x i))).
      - rewrite Sum_minus, Sum_scal. ring.
      - intros i Hi. rewrite !(entry_vecdiff n) by assumption. ring. }
    rewrite D. lra.
  Qed.

  Lemma tame_differences t : Forall visited t -> Forall (good_pair n) (differences (N := Rnum) t) ->
    Forall (tame n mu M) (differences (N := Rnum) t).
  Proof.
    induction t as [|[x1 g1] [|[x0 g0] t] IH]; intros Hv Hp; [constructor|constructor|].
    change (differences ((x1, g1) :: (x0, g0) :: t)) with ((vecdiff (N := Rnum) x1 x0, vecdiff (N := Rnum) g1 g0) :: differences (N := Rnum) ((x0, g0) :: t)) in *.
    inversion Hv as [|? ? V1 V2]; subst. inversion Hp as [|? ? P1 P2]; subst. constructor; [|now apply IH].
    inversion V2 as [|? ? V3 _]; subst. destruct V1 as (A1 & A2 & A3). destruct V3 as (B1 & B2 & B3). cbn [fst snd] in *. subst g1 g0.
    split; [exact P1|]. cbn [fst snd]. split; [now apply monotone|].
    rewrite <- !distance_diff by assumption. now apply Hlip.
  Qed.

  (** The Polyak-Lojasiewicz inequality. *)
  Lemma gap_gradient (x w : list R) : length x = n -> length w = n -> length (G x) = n ->
    2 * mu * (F x - F w) <= norm n (G x) * norm n (G x).
  Proof.
    intros Hx Hw Hg. pose proof (Hsc x w Hx Hw) as A.
    pose proof (cauchy n (fun i => entry (G x) i) (fun i => entry w i - entry x i)) as C.
    change (Rabs (along n (G x) x w) <= norm n (G x) * distance n x w) in C. apply Rabs_inv in C.
    set (g := norm n (G x)) in *. set (D := distance n x w) in *.
    pose proof (Rle_0_sqr (g - mu * D)) as Q. unfold Rsqr in Q.
    assert (B : F x - F w <= g * D - mu / 2 * (D * D)) by lra.
    apply (Rmult_le_compat_l (2 * mu)) in B; [|lra]. lra.
  Qed.

  Let w := curvature_tol O alg.
  Let c := least mu M (Z.to_nat (o_m O)).
  Let C := most mu M (Z.to_nat (o_m O)).
  Let del := gain O alg mu M.

  Lemma ftol_pos : 0 <= (o_ftol O : R).
  Proof. pose proof (ck_ftol _ _ _ _ Hck) as E. unfold nzero in E. rnin E. apply Rltb_f in E. exact E. Qed.

  Lemma w_lt : w < 1.
  Proof.
    unfold w, curvature_tol. pose proof (ck_wolfe _ _ _ _ Hck) as Cw.
    assert (W : alg = Wolfe \/ alg = StrongWolfe -> (o_wolfe O : R) < 1).
    { intros Hw. destruct (Cw Hw) as [_ D]. unfold none in D. rnin D. apply Rleb_f in D. exact D. }
    clear Cw. destruct alg; unfold curved in Hcurv; [exact Hcurv|contradiction|apply W; auto|apply W; auto].
  Qed.

  Lemma ratio_pos : 0 < c / C.
  Proof.
    apply Rdiv_lt_0_compat; [now apply least_pos|]. unfold C.
    pose proof (most_pos mu M (Z.to_nat (o_m O))). lra.
  Qed.

  Lemma del_pos : 0 <= del.
  Proof.
    pose proof ftol_pos as A. pose proof w_lt as B. pose proof ratio_pos as D. unfold del, gain. fold w c C. cbv zeta.
    apply Rmult_le_pos; [|nra]. unfold Rdiv. apply Rmult_le_pos; [|apply Rlt_le, Rinv_0_lt_compat, HM].
    apply Rmult_le_pos; [exact A|lra].
  Qed.

  Lemma step_gain fuel s t r : curv n z O alg F G b e s t -> Forall visited t ->
    run_line_search P f fuel b e s = Some r -> (0 <= s_ret r)%Z ->
    F (pt_x (s_pt r)) <= F (pt_x (l_pt s)) - del * (norm n (G (pt_x (l_pt s))) * norm n (G (pt_x (l_pt s)))).
  Proof.
    intros Cu Hv E Hr. pose proof (curv_descent n z O alg F G b e Hck H0 s t Cu) as Hd.
    pose proof (step_strict n z O alg f F G b e Hf Hck H0 Hcurv fuel s r (cu_inv _ _ _ _ _ _ _ _ _ _ Cu) Hd E Hr) as [T1 _].
    pose proof (kf_ls n O alg b e Hck) as HML. pose proof (kf_max n O alg b e Hck) as Hmax.
    pose proof (kf_min n O alg b e Hck) as Hmin. pose proof (kf_c n O alg b e Hck) as Hc.
    pose proof (step_ok n z P f F G b e Hf Hc Hmin Hmax HML fuel s r (cu_inv _ _ _ _ _ _ _ _ _ _ Cu) E Hr) as Ok. cbv zeta in Ok.
    assert (Eo : owl P = false) by exact (not_owl n O alg b e Hck H0).
    rewrite Eo in Ok. destruct Ok as (Oy & Og & Ogy & _ & Op).
    apply search_end in E; [|exact HML]. destruct E as (k & _ & _ & E). destruct E as [E|(_ & _ & E)]; [lia|].
    unfold accepted in E. cbv zeta in E. rewrite Eo in E. destruct E as (_ & _ & (st & g & E1) & _).
    destruct Cu as [Ci Ch Cp _ _]. pose proof (h_d _ _ _ _ _ _ Ch) as Ed. unfold dir_of in Ed. fold P in Ed. rewrite Eo in Ed.
    destruct Ci as [[Ix Ixz] Ig [Igf Igz] If _ [Id Idz] _ _ _ _]. set (x := pt_x (l_pt s)) in *. set (y := pt_x (s_pt r)) in *.
    set (a := s_step r : R) in *. set (d := l_d s : list R) in *.
    assert (Hyf : fine n z (vecadd (N := Rnum) x d a)) by (apply fine_vecadd; split; assumption).
    assert (Ey : y = vecadd (N := Rnum) x d a).
    { unfold y. rewrite E1. apply (eval_at n z f F G Hf st _ g Hyf). }
    rewrite Ig in Igf, Ed.
    assert (EA : along n (G x) x y = a * dot n (G x) d) by (rewrite Ey; now apply along_move).
    destruct Oy as [Oy _]. destruct Ogy as [Ogy _].
    assert (ED : distance n x y * distance n x y = a * a * (norm n d * norm n d)).
    { rewrite distance_diff by assumption. rewrite !norm_sq. unfold dot. rewrite <- Sum_scal. apply Sum_ext. intros i Hi.
      rewrite !(entry_vecdiff n) by assumption. rewrite Ey. rewrite !(entry_vecadd n) by assumption. ring. }
    assert (Tm : Forall (tame n mu M) (firstn (Z.to_nat (o_m O)) (differences t))).
    { pose proof (tame_differences t Hv Cp) as T. apply Forall_forall. intros p Hp. rewrite Forall_forall in T. apply T.
      rewrite <- (firstn_skipn (Z.to_nat (o_m O)) (differences t)). apply in_or_app. left. exact Hp. }
    destruct (direction_bounds n mu M Hmu HM _ (G x) (Z.to_nat (o_m O)) Tm (firstn_le_length _ _) Igf) as [B1 B2].
    rr. rewrite <- Ed in B1, B2. fold d c C in B1, B2.
    destruct Op as (_ & Op1 & Op2). change (p_linesearch P) with alg in Op2. change (p_ftol P) with (o_ftol O) in Op1.
    assert (Cv : w * along n (G x) x y <= along n (G y) x y).
    { assert (Str : forall v, strong_curvature n G v x y -> v * along n (G x) x y <= along n (G y) x y).
      { intros v S. unfold strong_curvature in S. rewrite (Rabs_left (along n (G x) x y)) in S by exact T1. apply Rabs_inv in S. lra. }
      unfold w, curvature_tol. clear - Op2 Str Hcurv. unfold P in Op2. destruct alg; [exact (Str _ Op2)|contradiction|exact Op2|exact (Str _ Op2)]. }
    assert (LD : along n (G y) x y - along n (G x) x y <= M * (distance n x y * distance n x y)).
    { pose proof (Hlip x y Ix Oy) as L. pose proof (cauchy n (fun i => entry (G y) i - entry (G x) i) (fun i => entry y i - entry x i)) as Q.
      assert (Eu : Sum n (fun i => (entry (G y) i - entry (G x) i) * (entry y i - entry x i)) = along n (G y) x y - along n (G x) x y).
      { unfold along. rewrite <- Sum_minus. apply Sum_ext. intros. ring. }
      change (Rabs (Sum n (fun i => (entry (G y) i - entry (G x) i) * (entry y i - entry x i))) <= distance n (G x) (G y) * distance n x y) in Q.
      rewrite Eu in Q.
      apply Rabs_inv in Q. assert (PD : 0 <= distance n x y) by apply sqrt_pos.
      apply (Rmult_le_compat_r (distance n x y)) in L; [|exact PD]. lra. }
    assert (Pg : 0 < norm n (G x)).
    { destruct (Rle_lt_or_eq_dec _ _ (norm_pos n (G x))) as [|Eg]; [assumption|]. exfalso.
      pose proof (dot_le n (G x) d) as Q. rewrite <- Eg, Rmult_0_l in Q. apply Rabs_inv in Q. rr. lra. }
    pose proof (most_pos mu M (Z.to_nat (o_m O))) as PC. fold C in PC.
    pose proof (least_pos mu M Hmu HM (Z.to_nat (o_m O))) as Pc. fold c in Pc.
    assert (Z : (1 - w) / M * (c / C * (c / C)) * (norm n (G x) * norm n (G x)) <= - along n (G x) x y).
    { apply (zoutendijk _ (distance n x y) (dot n (G x) d) (norm n d)); try assumption; try lra; [apply norm_pos|].
      rewrite ED, EA. ring. }
    pose proof ftol_pos as Pf. apply (Rmult_le_compat_l _ _ _ Pf) in Z. unfold del, gain. cbv zeta. fold w c C.
    replace (o_ftol O * (1 - w) / M * (c / C * (c / C)) * (norm n (G x) * norm n (G x))) with
      (o_ftol O * ((1 - w) / M * (c / C * (c / C)) * (norm n (G x) * norm n (G x)))) by (field; rr; lra).
    rr. lra.
  Qed.

  Definition decrease (x y : list R) : Prop := lowers n F G del x y /\ contracts n F (1 - 2 * mu * del) x y.

  Lemma step_both (s : state Rnum St) t (y : list R) : curv n z O alg F G b e s t -> lowers n F G del (pt_x (l_pt s)) y -> decrease (pt_x (l_pt s)) y.
  Proof.
    intros Cu D. split; [exact D|]. intros u Hu. unfold lowers in D.
    destruct (inv_x _ _ _ _ _ _ _ _ (cu_inv _ _ _ _ _ _ _ _ _ _ Cu)) as [Ix _].
    destruct (inv_gf _ _ _ _ _ _ _ _ (cu_inv _ _ _ _ _ _ _ _ _ _ Cu)) as [Ig _].
    rewrite (inv_g _ _ _ _ _ _ _ _ (cu_inv _ _ _ _ _ _ _ _ _ _ Cu)) in Ig.
    pose proof (gap_gradient _ u Ix Hu Ig) as A. apply (Rmult_le_compat_l _ _ _ del_pos) in A. rr. lra.
  Qed.
  Definition not_yet (s : state Rnum St) : Prop := o_epsilon O < norm n (G (pt_x (l_pt s))).

  Lemma epsilon_pos : 0 <= (o_epsilon O : R).
  Proof. pose proof (ck_epsilon _ _ _ _ Hck) as E. unfold nzero in E. rnin E. apply Rltb_f in E. exact E. Qed.

  Lemma not_converged (x g : list R) : length x = n -> length g = n ->
    converged P (vec2norm (N := Rnum) x) (vec2norm (N := Rnum) g) = false -> o_epsilon O < norm n g.
  Proof.
    intros Hx Hg H. unfold converged in H. rewrite (vec2norm_norm n x Hx), (vec2norm_norm n g Hg) in H. unfold none in H. rnin H.
    apply Rleb_f in H. change (p_epsilon P) with (o_epsilon O) in H. apply Rlt_le_trans with (1 := H).
    pose proof (norm_pos n g) as Pg.
    assert (K : forall q : R, 1 <= q -> norm n g / q <= norm n g).
    { intros q Hq. apply (Rmult_le_reg_r q); [lra|]. unfold Rdiv. rewrite Rmult_assoc, Rinv_l, Rmult_1_r by lra. nra. }
    destruct (Rltb (norm n x) 1) eqn:E; [apply K; lra|]. apply Rltb_f in E. apply K. exact E.
  Qed.

  Lemma next_visited fuel s t r s' : curv n z O alg F G b e s t -> Forall visited t ->
    run_line_search P f fuel b e s = Some r -> (0 <= s_ret r)%Z -> after_step P progress b e s r = Next s' ->
    Forall visited ((pt_x (s_pt r), pt_g (s_pt r)) :: t) /\ not_yet s'.
  Proof.
    intros Cu Hv E Hr Ea. pose proof (kf_ls n O alg b e Hck) as HML. pose proof (kf_max n O alg b e Hck) as Hmax.
    pose proof (kf_min n O alg b e Hck) as Hmin. pose proof (kf_c n O alg b e Hck) as Hc.
    pose proof (step_ok n z P f F G b e Hf Hc Hmin Hmax HML fuel s r (cu_inv _ _ _ _ _ _ _ _ _ _ Cu) E Hr) as Ok. cbv zeta in Ok.
    destruct Ok as (Oy & Og & Ogy & _ & _). destruct Oy as [Oy _]. destruct Ogy as [Ogy _].
    assert (Eo : owl P = false) by exact (not_owl n O alg b e Hck H0).
    split.
    - constructor; [|exact Hv]. split; [exact Oy|]. cbn [fst snd]. split; [now rewrite Og|exact Og].
    - apply after_step_next in Ea. destruct Ea as (st & pg & _ & _ & -> & _ & _ & Hcv). rewrite Eo in Hcv.
      unfold not_yet. cbn [next_state l_pt pt_x]. rewrite <- Og. apply (not_converged (pt_x (s_pt r))); [exact Oy|now rewrite Og|exact Hcv].
  Qed.

  Lemma run_rate s t l en (L : R) : curv n z O alg F G b e s t -> Forall visited t -> not_yet s ->
    (forall x, length x = n -> L <= F x) -> run P f progress b e s l en ->
    chain decrease (pt_x (l_pt s)) (map (fun r => pt_x (s_pt r)) l) /\
    INR (length l) * (del * (o_epsilon O * o_epsilon O)) <= F (pt_x (l_pt s)) - L.
  Proof.
    intros Cu Hv Hn HL H. pose proof del_pos as Pd. pose proof epsilon_pos as Pe.
    assert (K : forall s, not_yet s -> del * (o_epsilon O * o_epsilon O) <= del * (norm n (G (pt_x (l_pt s))) * norm n (G (pt_x (l_pt s))))).
    { intros s1 Hs1. unfold not_yet in Hs1. apply Rmult_le_compat_l; [exact Pd|]. rr. apply Rmult_le_compat; lra. }
    revert t Cu Hv Hn. induction H as [fuel s r E Hr | fuel s r en E Hr Ea | fuel s r s' l en E Hr Ea H IH]; intros t Cu Hv Hn.
    - split; [exact Logic.I|]. cbn [length INR]. rewrite Rmult_0_l.
      destruct (inv_x _ _ _ _ _ _ _ _ (cu_inv _ _ _ _ _ _ _ _ _ _ Cu)) as [Ix _]. specialize (HL _ Ix). rr. lra.
    - pose proof (step_gain fuel s t r Cu Hv E Hr) as D. split; [split; [exact (step_both s t _ Cu D)|exact Logic.I]|].
      change (INR (length [r])) with 1. specialize (K s Hn).
      pose proof (step_ok n z P f F G b e Hf (kf_c n O alg b e Hck) (kf_min n O alg b e Hck) (kf_max n O alg b e Hck) (kf_ls n O alg b e Hck)
        fuel s r (cu_inv _ _ _ _ _ _ _ _ _ _ Cu) E Hr) as Ok. cbv zeta in Ok. destruct Ok as ([Oy _] & _).
      specialize (HL _ Oy). rr. lra.
    - pose proof (step_gain fuel s t r Cu Hv E Hr) as D. specialize (K s Hn).
      destruct (next_visited fuel s t r s' Cu Hv E Hr Ea) as [Hv' Hn'].
      destruct (curv_next n z O alg f progress F G b e Hf Hck H0 Hcurv fuel s t r s' Cu E Hr Ea) as [Ex Cu'].
      destruct (IH _ Cu' Hv' Hn') as [I1 I2]. rewrite Ex in I1, I2. split; [split; [exact (step_both s t _ Cu D)|exact I1]|].
      cbn [length]. rewrite S_INR. rr. lra.
  Qed.

  Lemma loop_total lsfuel (L : R) : (Z.to_nat (o_max_linesearch O) <= lsfuel)%nat -> (forall x, length x = n -> L <= F x) ->
    forall fuel s t, curv n z O alg F G b e s t -> Forall visited t -> not_yet s ->
    F (pt_x (l_pt s)) - L < INR fuel * (del * (o_epsilon O * o_epsilon O)) -> main_loop P f progress fuel lsfuel b e s <> None.
  Proof.
    intros Hls HL. pose proof del_pos as Pd. pose proof epsilon_pos as Pe.
    induction fuel as [|fuel IH]; intros s t Cu Hv Hn Hb.
    - exfalso. cbn [INR] in Hb. rewrite Rmult_0_l in Hb.
      destruct (inv_x _ _ _ _ _ _ _ _ (cu_inv _ _ _ _ _ _ _ _ _ _ Cu)) as [Ix _]. specialize (HL _ Ix). rr. lra.
    - cbn [main_loop]. unfold iterate. destruct (run_line_search P f lsfuel b e s) as [r|] eqn:E.
      2: { exfalso. revert E. apply search_total; [exact (kf_ls n O alg b e Hck)|exact Hls]. }
      destruct (s_ret r <? 0)%Z eqn:Es; [discriminate|]. apply Z.ltb_ge in Es.
      destruct (after_step P progress b e s r) as [s'|en] eqn:Ea; [|discriminate].
      pose proof (step_gain lsfuel s t r Cu Hv E Es) as D.
      destruct (next_visited lsfuel s t r s' Cu Hv E Es Ea) as [Hv' Hn'].
      destruct (curv_next n z O alg f progress F G b e Hf Hck H0 Hcurv lsfuel s t r s' Cu E Es Ea) as [Ex Cu'].
      apply (IH s' _ Cu' Hv' Hn'). rewrite Ex. rewrite S_INR in Hb.
      assert (K : del * (o_epsilon O * o_epsilon O) <= del * (norm n (G (pt_x (l_pt s))) * norm n (G (pt_x (l_pt s))))).
      { unfold not_yet in Hn. apply Rmult_le_compat_l; [exact Pd|]. rr. apply Rmult_le_compat; lra. }
      rr. lra.
  Qed.
End Rate.

Section Calls.
  Context {St : Type}.
  Variables (n : nat) (z : nat -> bool) (O : options Rnum) (alg : algorithm).
  Variable f : objective Rnum St.
  Variable progress : option (observer Rnum St).
  Variables (F : list R -> R) (G : list R -> list R).
  Variables mu M : R.
  Variables (fuel lsfuel : nat) (st : St) (x0 : list R).
  Hypothesis Hf : computes n z f F G.
  Hypothesis Hx : length x0 = n.
  Hypothesis Hz : vanishes z x0.
  Hypothesis Hs : searches O alg.
  Hypothesis H0 : (o_c O : R) = 0.
  Hypothesis Hcurv : curved O alg.
  Hypothesis Hmu : 0 < mu.
  Hypothesis HM : 0 < M.
  Hypothesis Hsc : strongly_convex n F G mu.
  Hypothesis Hlip : lipschitz n G M.

  Lemma g0_length : length (G x0) = n.
  Proof. destruct (Hf st x0 [] Hx Hz) as (_ & H & _). exact H. Qed.

  Lemma below (x : list R) : length x = n -> F x0 - norm n (G x0) * norm n (G x0) / (2 * mu) <= F x.
  Proof.
    intros Hl. pose proof (gap_gradient n F G mu Hmu Hsc x0 x Hx Hl g0_length) as A.
    apply (Rmult_le_reg_r (2 * mu)); [lra|].
    replace ((F x0 - norm n (G x0) * norm n (G x0) / (2 * mu)) * (2 * mu)) with (2 * mu * F x0 - norm n (G x0) * norm n (G x0)) by (field; lra).
    lra.
  Qed.

  Lemma rate_call st' log out : recorded O f progress fuel lsfuel st x0 = Some (st', log, out) ->
    chain (decrease n O alg F G mu M) x0 (map r_x log) /\
    INR (length log) * (gain O alg mu M * (o_epsilon O * o_epsilon O)) <= norm n (G x0) * norm n (G x0) / (2 * mu).
  Proof.
    intros H. assert (Pz : 0 <= norm n (G x0) * norm n (G x0) / (2 * mu)).
    { apply Rmult_le_pos; [pose proof (norm_pos n (G x0)); nra|apply Rlt_le, Rinv_0_lt_compat; lra]. }
    assert (Emp : log = [] -> chain (decrease n O alg F G mu M) x0 (map r_x log) /\
      INR (length log) * (gain O alg mu M * (o_epsilon O * o_epsilon O)) <= norm n (G x0) * norm n (G x0) / (2 * mu)).
    { intros ->. split; [exact Logic.I|]. cbn [length INR]. rr. lra. }
    unfold recorded in H. rewrite (fmin_unfold O alg) in H by exact Hs.
    apply minimize_start in H. destruct H as [(code & Ec & H & Ho)|(b & e & Hck & H)]; [apply Emp; congruence|].
    rr. rewrite Hx in Hck. destruct H as [(_ & H & Ho)|(Hm & H)]; [apply Emp; congruence|].
    cbv zeta in H. set (P := to_params O alg) in *. set (s := init_state P (keep_log f) b e (st, []) x0) in *.
    assert (Hsn : snd (pt_st (l_pt s)) = []) by reflexivity.
    pose proof (keep_log_computes n z f F G Hf) as Hf'.
    assert (Hs' : pt_x (l_pt s) = x0).
    { destruct (eval_at n z (keep_log f) F G Hf' (st, []) x0 (repeat nzero (length x0)) (conj Hx Hz)) as (E & _). exact E. }
    destruct H as [(_ & H & Ho)|(Ev & l & en & Hr & H & Ho)].
    { apply Emp. rewrite <- H in Hsn. exact Hsn. }
    assert (Eo : owl P = false) by exact (not_owl n O alg b e Hck H0). rewrite Eo in Ev.
    pose proof (init_curv n z O alg (keep_log f) F G b e Hf' Hck H0 (st, []) x0 Hx Hz Ev) as Cu. fold P s in Cu.
    pose proof (cu_inv _ _ _ _ _ _ _ _ _ _ Cu) as Ci. destruct (inv_x _ _ _ _ _ _ _ _ Ci) as [Ix _]. destruct (inv_gf _ _ _ _ _ _ _ _ Ci) as [Ig _].
    pose proof (inv_g _ _ _ _ _ _ _ _ Ci) as Eg.
    assert (Hn : not_yet n O G s).
    { unfold not_yet. rewrite <- Eg. exact (not_converged n O alg _ _ Ix Ig Ev). }
    assert (Hv : Forall (visited n G) [(pt_x (l_pt s), pt_g (l_pt s))]) by (constructor; [repeat split; assumption|constructor]).
    destruct (run_rate n z O alg (keep_log f) (Some (write_log progress)) F G b e mu M Hf' Hck H0 Hcurv Hmu HM Hsc Hlip s _ l en _ Cu Hv Hn below Hr) as [R1 R2].
    destruct (run_log P f progress b e s l en (kf_ls n O alg b e Hck) Hr) as (reps & Q1 & Q2 & _).
    rewrite Hsn in Q1. cbn [app] in Q1. rewrite <- H in Q1. cbn [snd] in Q1. subst reps.
    assert (Em : map r_x log = map (fun r => pt_x (s_pt r)) l).
    { clear - Q2. induction Q2 as [|q r log l Hq H IH]; [reflexivity|]. cbn [map]. f_equal; [apply Hq|exact IH]. }
    rewrite Hs' in R1, R2. split; [rr; rewrite Em; exact R1|]. assert (El : length log = length l) by (apply (f_equal (@length _)) in Em; rewrite !map_length in Em; exact Em).
    rewrite El. rr. lra.
  Qed.

  Lemma call_total : (Z.to_nat (o_max_linesearch O) <= lsfuel)%nat ->
    norm n (G x0) * norm n (G x0) / (2 * mu) < INR fuel * (gain O alg mu M * (o_epsilon O * o_epsilon O)) ->
    fmin_lbfgs O f progress fuel lsfuel st x0 <> None.
  Proof.
    intros Hls Hb. rewrite (fmin_unfold O alg) by exact Hs. unfold minimize, lbfgs. set (P := to_params O alg) in *.
    match goal with |- context [check_params ?p ?q] => destruct (check_params p q) as [code|[b e]] eqn:Ec end; [discriminate|].
    apply check_ok in Ec. rr. rewrite Hx in Ec. destruct (p_m P <? 0)%Z; [discriminate|]. cbv zeta.
    set (s := init_state P f b e st x0) in *.
    assert (Eo : owl P = false) by exact (not_owl n O alg b e Ec H0). rewrite Eo.
    destruct (converged P (vec2norm (pt_x (l_pt s))) (vec2norm (pt_g (l_pt s)))) eqn:Ev; [discriminate|].
    pose proof (init_curv n z O alg f F G b e Hf Ec H0 st x0 Hx Hz Ev) as Cu. fold P s in Cu.
    pose proof (cu_inv _ _ _ _ _ _ _ _ _ _ Cu) as Ci. destruct (inv_x _ _ _ _ _ _ _ _ Ci) as [Ix _]. destruct (inv_gf _ _ _ _ _ _ _ _ Ci) as [Ig _].
    pose proof (inv_g _ _ _ _ _ _ _ _ Ci) as Eg.
    assert (Hs' : pt_x (l_pt s) = x0).
    { destruct (eval_at n z f F G Hf st x0 (repeat nzero (length x0)) (conj Hx Hz)) as (E & _). exact E. }
    assert (Hn : not_yet n O G s).
    { unfold not_yet. rewrite <- Eg. exact (not_converged n O alg _ _ Ix Ig Ev). }
    assert (Hv : Forall (visited n G) [(pt_x (l_pt s), pt_g (l_pt s))]) by (constructor; [repeat split; assumption|constructor]).
    pose proof (loop_total n z O alg f progress F G b e mu M Hf Ec H0 Hcurv Hmu HM Hsc Hlip lsfuel _ Hls below fuel s _ Cu Hv Hn) as T.
    fold P in T. destruct (main_loop P f progress fuel lsfuel b e s) as [[]|] eqn:El; [discriminate|discriminate|].
    exfalso. apply T; [|reflexivity]. rewrite Hs'. rr. lra.
  Qed.

  Lemma gain_positive : documented O alg n -> 0 < (o_ftol O : R) -> 0 < gain O alg mu M.
  Proof.
    intros Hd Hft. apply (checked_documented O alg n Hs) in Hd. destruct Hd as (b & e & Hck).
    assert (B : curvature_tol O alg < 1) by (eapply w_lt; eassumption).
    pose proof (ratio_pos O mu M Hmu HM) as D. unfold gain. cbv zeta.
    apply Rmult_lt_0_compat; [|nra]. apply Rdiv_lt_0_compat; [|exact HM]. apply Rmult_lt_0_compat; [exact Hft|lra].
  Qed.

  Lemma call_ends : documented O alg n -> 0 < (o_ftol O : R) -> 0 < (o_epsilon O : R) -> (Z.to_nat (o_max_linesearch O) <= lsfuel)%nat ->
    norm n (G x0) * norm n (G x0) / (2 * mu * gain O alg mu M * (o_epsilon O * o_epsilon O)) < INR fuel ->
    fmin_lbfgs O f progress fuel lsfuel st x0 <> None.
  Proof.
    intros Hd Hft He Hls Hb. pose proof (gain_positive Hd Hft) as Pg. apply call_total; [exact Hls|].
    assert (Pe : 0 < gain O alg mu M * (o_epsilon O * o_epsilon O)) by (apply Rmult_lt_0_compat; [exact Pg|rr; nra]).
    apply (Rmult_lt_compat_r _ _ _ Pe) in Hb. eapply Rle_lt_trans; [|exact Hb]. right. field. rr. lra.
  Qed.

  Lemma returned_accuracy st' x : never_says LBFGS_ALREADY_MINIMIZED progress ->
    fmin_lbfgs O f progress fuel lsfuel st x0 = Some (st', Returned x None) ->
    forall u, length u = n ->
      F x - F u <= (o_epsilon O * Rmax 1 (norm n x)) * (o_epsilon O * Rmax 1 (norm n x)) / (2 * mu) /\
      (F u <= F x -> distance n x u <= 2 * (o_epsilon O * Rmax 1 (norm n x)) / mu).
  Proof.
    intros Hn H u Hu. destruct (returned_stationary n z O f progress F G fuel lsfuel st x0 st' x Hf Hx Hz Hn H) as (_ & _ & Hl & v & Hv & Hb).
    assert (Ev : norm n v = norm n (G x)).
    { destruct Hv as [[_ Hv] _]. unfold norm, dot. f_equal. apply Sum_ext. intros i Hi.
      assert (E : entry v i = entry (G x) i); [|now rewrite E]. destruct (Hv i Hi) as [V1 V2].
      destruct (in_range (range_start O) (range_end O n) i) eqn:Er.
      - apply pen_range in Er. destruct (V2 Er) as (V3 & V4 & V5). rr. rewrite H0 in *.
        destruct (Rtotal_order (entry x i) 0) as [X|[X|X]]; [rewrite (V4 X); ring| |rewrite (V3 X); ring].
        specialize (V5 X). apply Rabs_inv in V5. lra.
      - apply V1. intros Er'. apply pen_range in Er'. congruence. }
    rewrite Ev in Hb. set (q := o_epsilon O * Rmax 1 (norm n x)) in *. pose proof (Hsc x u Hl Hu) as A.
    pose proof (cauchy n (fun i => entry (G x) i) (fun i => entry u i - entry x i)) as C.
    change (Rabs (along n (G x) x u) <= norm n (G x) * distance n x u) in C. apply Rabs_inv in C.
    assert (PD : 0 <= distance n x u) by apply sqrt_pos. pose proof (norm_pos n (G x)) as PG.
    assert (K : norm n (G x) * distance n x u <= q * distance n x u) by (apply Rmult_le_compat_r; assumption).
    split.
    - pose proof (Rle_0_sqr (q - mu * distance n x u)) as Q. unfold Rsqr in Q.
      apply (Rmult_le_reg_r (2 * mu)); [lra|]. unfold Rdiv. rewrite (Rmult_assoc (q * q)), Rinv_l, Rmult_1_r by lra.
      assert (B : F x - F u <= q * distance n x u - mu / 2 * (distance n x u * distance n x u)) by lra.
      apply (Rmult_le_compat_l (2 * mu)) in B; [|lra]. rr. lra.
    - intros Hle. destruct (Rle_lt_or_eq_dec _ _ PD) as [Pd|E].
      + apply (Rmult_le_reg_r (distance n x u)); [exact Pd|]. apply (Rmult_le_reg_r (mu / 2)); [lra|].
        replace (2 * q / mu * distance n x u * (mu / 2)) with (q * distance n x u) by (field; lra). rr. lra.
      + rewrite <- E. apply Rmult_le_pos; [|apply Rlt_le, Rinv_0_lt_compat, Hmu]. rr. lra.
  Qed.
End Calls.
