(** Curvature along a run, and what a point returned without warning satisfies. *)
From Coq Require Import String ZArith List Bool Arith Reals Lra Lia.
From Verif Require Import Prelude Num Spec_Rescale Proofs_Rescale Model_Lbfgs Proofs_Poisson Spec_Lbfgs
  Proofs_Lbfgs Proofs_LbfgsTrace Proofs_LbfgsVec Proofs_LbfgsReal Proofs_LbfgsTop Proofs_LbfgsDir Proofs_LbfgsDescent.
Import ListNotations.
Local Open Scope R_scope.

(** ** Auxiliary facts *)
Lemma some_nonzero n (g : list R) : 0 < norm n g -> exists i, (i < n)%nat /\ entry g i <> 0.
Proof.
  intros H.
  assert (K : forall k, (exists i, (i < k)%nat /\ entry g i <> 0) \/ forall i, (i < k)%nat -> entry g i = 0).
  { induction k as [|k [(i & Hi & E)|IH]]; [right; intros; lia|left; exists i; split; [lia|exact E]|].
    destruct (Req_dec (entry g k) 0) as [E|E]; [|left; exists k; split; [lia|exact E]].
    right. intros i Hi. destruct (Nat.eq_dec i k) as [->|]; [exact E|]. apply IH. lia. }
  destruct (K n) as [E|E]; [exact E|]. exfalso. unfold norm in H. rewrite dot_zero_l in H by exact E. rewrite sqrt_0 in H. lra.
Qed.

Lemma cauchy n (a b : nat -> R) :
  Rabs (Sum n (fun i => a i * b i)) <= sqrt (Sum n (fun i => a i * a i)) * sqrt (Sum n (fun i => b i * b i)).
Proof.
  set (A := Sum n (fun i => a i * a i)). set (B := Sum n (fun i => b i * b i)). set (D := Sum n (fun i => a i * b i)).
  assert (HA : 0 <= A) by (apply Sum_nonneg; intros; nra).
  assert (HB : 0 <= B) by (apply Sum_nonneg; intros; nra).
  assert (Q : forall t, 0 <= A - 2 * t * D + t * t * B).
  { intros t. replace (A - 2 * t * D + t * t * B) with (Sum n (fun i => (a i - t * b i) * (a i - t * b i))).
    - apply Sum_nonneg. intros. apply Rle_0_sqr.
    - unfold A, B, D. rewrite (Sum_ext n _ (fun i => (a i * a i + (-2 * t) * (a i * b i)) + (t * t) * (b i * b i))) by (intros; ring).
      rewrite !Sum_plus, !Sum_scal. ring. }
  assert (S : D * D <= A * B).
  { destruct (Req_dec B 0) as [E|E].
    - rewrite E in Q. assert (D = 0); [|nra].
      destruct (Req_dec D 0) as [|Hd]; [assumption|]. exfalso. specialize (Q ((A + 1) / (2 * D))).
      replace (A - 2 * ((A + 1) / (2 * D)) * D + (A + 1) / (2 * D) * ((A + 1) / (2 * D)) * 0) with (-1) in Q by (field; lra). lra.
    - specialize (Q (D / B)). replace (A - 2 * (D / B) * D + D / B * (D / B) * B) with ((A * B - D * D) / B) in Q by (field; lra).
      assert (0 < B) by lra. apply (Rmult_le_compat_r B) in Q; [|lra]. unfold Rdiv in Q. rewrite Rmult_0_l, Rmult_assoc, Rinv_l, Rmult_1_r in Q by lra. lra. }
  rewrite <- sqrt_mult by assumption. rewrite <- sqrt_Rsqr_abs. apply sqrt_le_1_alt. exact S.
Qed.

Lemma Sum_range (h : nat -> R) b e n :
  Sum n (fun i => if in_range b e i then h i else 0) = Sum (Nat.min n e - b) (fun i => h (b + i)%nat).
Proof.
  induction n as [|n IH]; [rewrite !Sum_0; reflexivity|]. rewrite Sum_S, IH.
  destruct (in_range b e n) eqn:E.
  - apply pen_range in E. replace (Nat.min (S n) e - b)%nat with (S (Nat.min n e - b)) by lia.
    rewrite Sum_S. f_equal. f_equal. lia.
  - rewrite Rplus_0_r. f_equal.
    assert (~ (b <= n < e)%nat) by (intros C; apply pen_range in C; congruence). lia.
Qed.

(** ** Convex problems *)
Lemma subgradient_bound n (O : options Rnum) F G (x w v : list R) : 0 <= o_c O -> (range_end O n <= n)%nat ->
  above_tangents n F G -> length x = n -> length w = n ->
  subgradient (o_c O) (penalized_coord O n) n x (G x) v ->
  penalized O n F x + along n v x w <= penalized O n F w.
Proof.
  intros Hc He HF Hx Hw [_ Hv]. specialize (HF x w Hx Hw). unfold penalized.
  set (b := range_start O) in *. set (e := range_end O n) in *. set (c := o_c O : R) in *.
  assert (L : forall u, l1 b e u = Sum n (fun i => if in_range b e i then Rabs (entry u i) else 0)).
  { intros u. unfold l1. rewrite Sum_range. f_equal. lia. }
  assert (K : along n v x w <= along n (G x) x w + c * (l1 b e w - l1 b e x)); [|rr; lra].
  rewrite !L, <- Sum_minus, <- Sum_scal. unfold along. rewrite <- Sum_plus. apply Sum_le. intros i Hi.
  destruct (Hv i Hi) as [V1 V2]. destruct (in_range b e i) eqn:E.
  - apply pen_range in E. destruct (V2 E) as (V3 & V4 & V5). fold c in V3, V4, V5.
    set (xi := entry x i) in *. set (wi := entry w i) in *. set (vi := entry v i) in *. set (gi := entry (G x) i) in *.
    assert (Hd : (vi - gi) * (wi - xi) <= c * (Rabs wi - Rabs xi)); [|lra].
    pose proof (Rle_abs wi) as A1. pose proof (Rle_abs (- wi)) as A2. rewrite Rabs_Ropp in A2.
    destruct (Rtotal_order xi 0) as [X|[X|X]].
    + rewrite (Rabs_left xi) by lra. rewrite (V4 X). nra.
    + specialize (V5 X). rewrite X, Rabs_R0, !Rminus_0_r. apply Rle_trans with (Rabs (vi - gi) * Rabs wi).
      * rewrite <- Rabs_mult. apply Rle_abs.
      * apply Rmult_le_compat_r; [apply Rabs_pos|exact V5].
    + rewrite (Rabs_right xi) by lra. rewrite (V3 X). nra.
  - rewrite V1; [lra|]. intros C. apply pen_range in C. unfold b, e in E. congruence.
Qed.

Lemma stationary_gap n (O : options Rnum) F G (x w : list R) : 0 <= o_c O -> (range_end O n <= n)%nat ->
  above_tangents n F G -> length x = n -> length w = n -> nearly_stationary O n G x ->
  penalized O n F x - penalized O n F w <= o_epsilon O * Rmax 1 (norm n x) * distance n x w.
Proof.
  intros Hc He HF Hx Hw (v & [Hv _] & Hn). pose proof (subgradient_bound n O F G x w v Hc He HF Hx Hw Hv) as B.
  pose proof (cauchy n (fun i => entry v i) (fun i => entry w i - entry x i)) as C.
  change (Rabs (along n v x w) <= norm n v * distance n x w) in C. apply Rabs_inv in C.
  assert (D : 0 <= distance n x w) by apply sqrt_pos.
  apply (Rmult_le_compat_r (distance n x w)) in Hn; [|exact D]. rr. lra.
Qed.

(** ** Returned points *)
Lemma conclude_none {N : NumOps} (x : list N) code y : conclude x code = Returned y None ->
  code = LBFGS_SUCCESS \/ code = LBFGS_ALREADY_MINIMIZED.
Proof.
  unfold conclude. intros H. destruct (code =? LBFGS_SUCCESS)%Z eqn:E1; [left; now apply Z.eqb_eq|].
  destruct (code =? LBFGS_ALREADY_MINIMIZED)%Z eqn:E2; [right; now apply Z.eqb_eq|]. exfalso. cbn [orb] in H.
  repeat match type of H with (if ?q then _ else _) = _ => destruct q end; discriminate H.
Qed.

Lemma returned_stationary {St} n z (O : options Rnum) (f : objective Rnum St) progress F G fuel lsfuel st (x0 : list R) st' x :
  computes n z f F G -> length x0 = n -> vanishes z x0 -> never_says LBFGS_ALREADY_MINIMIZED progress ->
  fmin_lbfgs O f progress fuel lsfuel st x0 = Some (st', Returned x None) ->
  0 <= o_c O /\ (range_end O n <= n)%nat /\ length x = n /\ nearly_stationary O n G x.
Proof.
  intros Hf Hx Hz Hn H. apply fmin_minimize in H. destruct H as [(ex & _ & H)|(Hc & alg & Ha & H)]; [discriminate|].
  apply minimize_cases in H. destruct H as [(code & Hcode & _ & H)|(b & e & Hck & H)].
  { exfalso. symmetry in H. apply conclude_none in H. revert Hcode. unfold check_params. cbv zeta. intros Hcode.
    repeat match type of Hcode with (if ?q then _ else _) = _ => destruct q end; try discriminate Hcode;
      injection Hcode as <-; destruct H as [H|H]; discriminate H. }
  rr. rewrite Hx in Hck. split; [exact Hc|]. set (P := to_params O alg) in *.
  assert (He : (range_end O n <= n)%nat) by (rewrite <- (kf_e n O alg b e Hck); apply (ck_e _ _ _ _ Hck)).
  split; [exact He|].
  destruct H as [(_ & _ & H)|(Hm & H)]; [discriminate|]. cbv zeta in H.
  set (s := init_state P f b e st x0) in *.
  assert (Hi : inv n z P F G b e s) by (apply init_inv; [exact Hf|exact Hc|split; assumption]).
  destruct H as [(Hv & _ & H)|(l & en & Hr & _ & H)].
  - assert (Ex : x = pt_x (l_pt s)) by congruence. clear H. destruct (inv_x _ _ _ _ _ _ _ _ Hi) as [Hl Hvz]. subst x. split; [exact Hl|].
    apply (test_at n z O alg f F G b e Hf Hck st); [split; assumption|]. fold P.
    pose proof (inv_g _ _ _ _ _ _ _ _ Hi) as Eg. rr. rewrite <- Eg. revert Hv. unfold s at 2, init_state. cbv zeta. cbn [l_pg].
    destruct (owl P) eqn:Eo; intros Hv; exact Hv.
  - destruct en as [st1 x1 code|]; [|discriminate]. pose proof H as H'. symmetry in H. apply conclude_none in H.
    symmetry in H'. apply conclude_returned in H'. subst x1.
    destruct (run_success P f progress b e s l st1 x code Hn Hr H) as (r & Hin & Er & Hv).
    destruct (run_sound n z P f progress F G b e Hf Hc (kf_min n O alg b e Hck) (kf_max n O alg b e Hck) (kf_ls n O alg b e Hck) s l _ Hi Hr)
      as (S1 & _ & _). rewrite Forall_forall in S1. destruct (S1 r Hin) as (P1 & P2 & P3). rr. rewrite Er in P1, P2.
    split; [apply P1|]. apply (test_at n z O alg f F G b e Hf Hck st); [exact P1|]. fold P. rewrite <- P2. exact Hv.
Qed.

(** ** Curvature *)

Definition ordinary_code (code : Z) : Prop :=
  code = LBFGS_SUCCESS \/ code = LBFGS_STOP \/ code = LBFGSERR_MAXIMUMITERATION \/ code = LBFGSERR_MINIMUMSTEP \/
  code = LBFGSERR_MAXIMUMSTEP \/ code = LBFGSERR_MAXIMUMLINESEARCH \/ code = LBFGSERR_ROUNDING_ERROR \/ code = LBFGSERR_WIDTHTOOSMALL.


Section Curvature.
  Context {St : Type}.
  Variables (n : nat) (z : nat -> bool) (O : options Rnum) (alg : algorithm).
  Variable f : objective Rnum St.
  Variable progress : option (observer Rnum St).
  Variables (F : list R -> R) (G : list R -> list R) (b e : nat).
  Hypothesis Hf : computes n z f F G.
  Let P := to_params O alg.
  Hypothesis Hck : checked P n b e.
  Hypothesis H0 : (o_c O : R) = 0.
  Hypothesis Hcurv : curved O alg.

  Lemma not_owl : owl P = false.
  Proof. destruct (R_owl O alg (kf_c n O alg b e Hck)) as [[_ C]|[C _]]; [rr; lra|exact C]. Qed.

  Lemma failed_code fuel s r : 0 < (l_step s : R) -> (vecdot (N := Rnum) (pt_g (l_pt s)) (l_d s) : R) <= 0 ->
    run_line_search P f fuel b e s = Some r -> (s_ret r < 0)%Z -> ordinary_code (s_ret r).
  Proof.
    intros Hs Hd E Hr. pose proof (kf_ls n O alg b e Hck) as HM. unfold run_line_search in E. rewrite not_owl in E.
    assert (E1 : nleb (l_step s) nzero = false) by (unfold nzero; rn; apply Rleb_f; exact Hs).
    assert (E2 : nltb nzero (vecdot (pt_g (l_pt s)) (l_d s)) = false) by (unfold nzero; rn; apply Rltb_f; exact Hd).
    assert (Bt : line_search_backtracking P f fuel (l_pt s) (l_d s) (l_step s) = Some r -> ordinary_code (s_ret r)).
    { unfold line_search_backtracking. cbv zeta. rewrite E1, E2. intros E'. apply bt_loop_end in E'; [|cbn; lia].
      destruct E' as (_ & [[E' _]|E']); [lia|]. unfold ordinary_code. tauto. }
    destruct (p_linesearch P); try exact (Bt E).
    unfold line_search_morethuente in E. cbv zeta in E. rewrite E1, E2 in E. apply mt_loop_end in E; [|cbn; lia].
    destruct E as (_ & [[E' _]|E']); [cbn in E'; lia|]. unfold mt_error in E'. unfold ordinary_code. tauto.
  Qed.

  Lemma step_strict fuel s r : inv n z P F G b e s -> dot n (G (pt_x (l_pt s))) (l_d s) < 0 ->
    run_line_search P f fuel b e s = Some r -> (0 <= s_ret r)%Z ->
    strict_step n G (pt_x (l_pt s)) (pt_x (s_pt r)).
  Proof.
    intros Hi Hd E Hr. pose proof (kf_ls n O alg b e Hck) as HM. pose proof (kf_max n O alg b e Hck) as Hmax.
    pose proof (kf_min n O alg b e Hck) as Hmin. pose proof (kf_c n O alg b e Hck) as Hc.
    pose proof (step_ok n z P f F G b e Hf Hc Hmin Hmax HM fuel s r Hi E Hr) as Ok. cbv zeta in Ok.
    rewrite not_owl in Ok. destruct Ok as (Oy & Og & Ogy & _ & Op).
    pose proof (search_step P f fuel b e s r HM Hmax E Hr) as Hs. rewrite not_owl in Hs.
    apply search_end in E; [|exact HM]. destruct E as (k & _ & _ & E). destruct E as [E|(_ & _ & E)]; [lia|].
    unfold accepted in E. cbv zeta in E. rewrite not_owl in E. destruct E as (_ & _ & (st & g & E1) & E2).
    destruct Hi as [[Ix Ixz] Ig [Igf Igz] If _ [Id Idz] _ _ _ _]. set (x := pt_x (l_pt s)) in *. set (y := pt_x (s_pt r)) in *.
    set (t := s_step r : R) in *.
    assert (Hyf : fine n z (vecadd (N := Rnum) x (l_d s) t)) by (apply fine_vecadd; split; assumption).
    assert (Ey : y = vecadd (N := Rnum) x (l_d s) t).
    { unfold y. rewrite E1. apply (eval_at n z f F G Hf st _ g Hyf). }
    assert (Ea : forall v, length v = n -> along n v x y = t * dot n v (l_d s)).
    { intros v Hv. rewrite Ey. now apply along_move. }
    rewrite Ig in Igf.
    assert (Ht : 0 < t).
    { destruct (p_linesearch P) eqn:El; try exact Hs. destruct Hs as [Hs _]. destruct (Rle_lt_or_eq_dec 0 t) as [|Et]; [exact (Rle_trans _ _ _ Hmin Hs)|assumption|].
      exfalso. assert (Eyx : y = x).
      { rewrite Ey, <- Et. apply (nth_ext _ _ 0 0); [rewrite (length_vecadd n) by assumption; now symmetry|].
        intros i Hi. rewrite (length_vecadd n) in Hi by assumption. change (entry (vecadd (N := Rnum) x (l_d s) 0) i = entry x i).
        rewrite (entry_vecadd n) by assumption. ring. }
      destruct E2 as [_ E2]. rewrite Og, Ig in E2. fold y in E2. rewrite Eyx in E2. rewrite !(vecdot_dot n) in E2 by assumption.
      rnin E2. apply Rleb_t in E2. rr. rewrite Rabs_left in E2 by exact Hd.
      change (p_linesearch P) with alg in El. unfold curved in Hcurv. rewrite El in Hcurv.
      change (p_gtol P) with (o_gtol O) in E2. rr. nra. }
    assert (A : along n (G x) x y < 0) by (rewrite Ea by exact Igf; nra). split; [exact A|].
    destruct Op as (_ & _ & Op). change (p_linesearch P) with alg in Op. pose proof (ck_wolfe _ _ _ _ Hck) as Cw.
    assert (Str : forall w, w < 1 -> strong_curvature n G w x y -> along n (G x) x y < along n (G y) x y).
    { intros w Hw S. unfold strong_curvature in S. rewrite (Rabs_left (along n (G x) x y)) in S by exact A.
      apply Rabs_inv in S. nra. }
    assert (W : alg = Wolfe \/ alg = StrongWolfe -> (o_wolfe O : R) < 1).
    { intros Hw. destruct (Cw Hw) as [_ C]. unfold none in C. rnin C. apply Rleb_f in C. exact C. }
    destruct alg; unfold curved in Hcurv.
    - exact (Str _ Hcurv Op).
    - contradiction.
    - unfold curvature in Op. specialize (W (or_introl eq_refl)). change (p_wolfe P) with (o_wolfe O) in Op. rr. nra.
    - exact (Str _ (W (or_intror eq_refl)) Op).
  Qed.

  Record curv (s : state Rnum St) (t : list (list R * list R)) : Prop := mkCurv {
    cu_inv : inv n z P F G b e s;
    cu_hist : hist O alg b e s t;
    cu_pairs : Forall (good_pair n) (differences (N := Rnum) t);
    cu_step : 0 < (l_step s : R);
    cu_g : exists i, (i < n)%nat /\ entry (G (pt_x (l_pt s))) i <> 0
  }.

  Lemma curv_descent s t : curv s t -> dot n (G (pt_x (l_pt s))) (l_d s) < 0.
  Proof.
    intros [Ci Ch Cp _ Cg]. rewrite (h_d _ _ _ _ _ _ Ch). unfold dir_of. fold P. rewrite not_owl.
    pose proof (inv_gf _ _ _ _ _ _ _ _ Ci) as [Hg _]. rewrite <- (inv_g _ _ _ _ _ _ _ _ Ci) in *.
    apply direction_descends; [|exact Hg|exact Cg].
    apply Forall_forall. intros p Hp. rewrite Forall_forall in Cp. apply Cp.
    rewrite <- (firstn_skipn (Z.to_nat (o_m O)) (differences t)). apply in_or_app. left. exact Hp.
  Qed.

  Lemma gradient_nonzero (x g : list R) : length x = n -> length g = n ->
    converged P (vec2norm (N := Rnum) x) (vec2norm (N := Rnum) g) = false -> 0 < norm n g.
  Proof.
    intros Hx Hg H. unfold converged in H. rewrite (vec2norm_norm n x Hx), (vec2norm_norm n g Hg) in H. unfold none in H. rnin H.
    apply Rleb_f in H. pose proof (ck_epsilon _ _ _ _ Hck) as He. unfold nzero in He. rnin He. apply Rltb_f in He.
    destruct (Rle_lt_or_eq_dec 0 (norm n g)) as [|E]; [apply sqrt_pos|assumption|]. exfalso. rr. rewrite <- E in H.
    unfold Rdiv in H. rewrite Rmult_0_l in H. lra.
  Qed.

  Lemma curv_next fuel s t r s' : curv s t -> run_line_search P f fuel b e s = Some r -> (0 <= s_ret r)%Z ->
    after_step P progress b e s r = Next s' -> pt_x (l_pt s') = pt_x (s_pt r) /\ curv s' ((pt_x (s_pt r), pt_g (s_pt r)) :: t).
  Proof.
    intros C E Hr Ea. pose proof (step_strict fuel s r (cu_inv _ _ C) (curv_descent s t C) E Hr) as [T1 T2].
    pose proof (kf_ls n O alg b e Hck) as HM. pose proof (kf_max n O alg b e Hck) as Hmax.
    pose proof (kf_min n O alg b e Hck) as Hmin. pose proof (kf_c n O alg b e Hck) as Hc.
    pose proof (step_ok n z P f F G b e Hf Hc Hmin Hmax HM fuel s r (cu_inv _ _ C) E Hr) as Ok. cbv zeta in Ok.
    destruct Ok as (Oy & Og & Ogy & Of & _).
    apply after_step_next in Ea. destruct Ea as (st & pg & _ & Epg & -> & _ & Hm & Hv). rewrite not_owl in Hv.
    split; [reflexivity|]. destruct C as [Ci Ch Cp Cs Cg]. constructor.
    - apply next_inv; cbn [pt_x pt_g pt_f]; auto; [lia|now rewrite Og|]. intros Ho. rewrite not_owl in Ho. discriminate.
    - apply (next_hist O alg n b e (kf_b n O alg b e Hck) (kf_e n O alg b e Hck) s t (mkPoint st (pt_x (s_pt r)) (pt_g (s_pt r)) (pt_f (s_pt r))) pg); auto.
      + cbn in Hm. lia.
      + intros Ho. fold P in Ho. rewrite not_owl in Ho. discriminate.
    - destruct (h_top _ _ _ _ _ _ Ch) as (older & Et). rewrite Et in *.
      change (differences ((pt_x (s_pt r), pt_g (s_pt r)) :: (pt_x (l_pt s), pt_g (l_pt s)) :: older)) with
        ((vecdiff (N := Rnum) (pt_x (s_pt r)) (pt_x (l_pt s)), vecdiff (N := Rnum) (pt_g (s_pt r)) (pt_g (l_pt s))) ::
         differences (N := Rnum) ((pt_x (l_pt s), pt_g (l_pt s)) :: older)).
      constructor; [|exact Cp]. destruct Oy as [Oy _]. destruct Ogy as [Ogy _].
      destruct (inv_x _ _ _ _ _ _ _ _ Ci) as [Hx _]. destruct (inv_gf _ _ _ _ _ _ _ _ Ci) as [Hg _].
      pose proof (inv_g _ _ _ _ _ _ _ _ Ci) as Eg. rewrite Og. rewrite Eg in *.
      unfold good_pair. cbn [fst snd]. split; [now apply length_vecdiff|]. split; [now apply length_vecdiff|].
      unfold dot. unfold along in T1, T2.
      rewrite (Sum_ext n _ (fun i => entry (G (pt_x (s_pt r))) i * (entry (pt_x (s_pt r)) i - entry (pt_x (l_pt s)) i)
         - entry (G (pt_x (l_pt s))) i * (entry (pt_x (s_pt r)) i - entry (pt_x (l_pt s)) i))).
      + rewrite Sum_minus. rr. lra.
      + intros i Hi. rewrite !(entry_vecdiff n) by assumption. ring.
    - cbn [next_state l_step]. unfold none. rn. rr. lra.
    - cbn [next_state l_pt pt_x]. rewrite <- Og. apply some_nonzero. apply (gradient_nonzero (pt_x (s_pt r))); [apply Oy|rewrite Og; apply Ogy|exact Hv].
  Qed.

  Lemma run_curved s t l en : curv s t -> run P f progress b e s l en ->
    chain (strict_step n G) (pt_x (l_pt s)) (map (fun r => pt_x (s_pt r)) l) /\
    (never_stops progress -> forall st x code, en = Done st x code -> ordinary_code code).
  Proof.
    intros C H. revert t C. induction H as [fuel s r E Hr | fuel s r en E Hr Ea | fuel s r s' l en E Hr Ea H IH]; intros t C.
    - split; [exact Logic.I|]. intros _ st x code [= _ _ <-]. apply (failed_code fuel s r); auto; [apply (cu_step _ _ C)|].
      pose proof (curv_descent s t C) as D. destruct (inv_gf _ _ _ _ _ _ _ _ (cu_inv _ _ C)) as [Hg _].
      destruct (inv_d _ _ _ _ _ _ _ _ (cu_inv _ _ C)) as [Hd _]. rewrite (vecdot_dot n) by assumption.
      rewrite (inv_g _ _ _ _ _ _ _ _ (cu_inv _ _ C)). rr. lra.
    - split; [split; [|exact Logic.I]; exact (step_strict fuel s r (cu_inv _ _ C) (curv_descent s t C) E Hr)|].
      intros Hn st x code ->. unfold after_step in Ea. cbv zeta in Ea.
      match type of Ea with context [call_progress progress ?a ?q] =>
        assert (E0 : snd (call_progress progress a q) = 0%Z);
        [unfold call_progress; destruct progress as [h|]; [|reflexivity]; cbn [snd]; specialize (Hn h a q eq_refl);
         destruct (snd (h a q)); congruence|] end.
      rewrite E0 in Ea. cbn [Z.eqb negb] in Ea. unfold ordinary_code.
      repeat match type of Ea with (if ?q then _ else _) = _ => destruct q end; try discriminate Ea; injection Ea as _ _ <-; auto.
    - destruct (curv_next fuel s t r s' C E Hr Ea) as [Ex C']. destruct (IH _ C') as [I1 I2].
      split; [|exact I2]. split; [exact (step_strict fuel s r (cu_inv _ _ C) (curv_descent s t C) E Hr)|].
      rewrite Ex in I1. exact I1.
  Qed.

  Lemma init_curv st (x0 : list R) : length x0 = n -> vanishes z x0 ->
    let s := init_state P f b e st x0 in
    converged P (vec2norm (pt_x (l_pt s))) (vec2norm (pt_g (l_pt s))) = false ->
    curv s [(pt_x (l_pt s), pt_g (l_pt s))].
  Proof.
    intros Hx Hz s Hv. assert (Hi : inv n z P F G b e s).
    { apply init_inv; [exact Hf|exact (kf_c n O alg b e Hck)|split; assumption]. }
    destruct (inv_x _ _ _ _ _ _ _ _ Hi) as [Ix _]. destruct (inv_gf _ _ _ _ _ _ _ _ Hi) as [Ig _].
    pose proof (gradient_nonzero _ _ Ix Ig Hv) as Hn.
    constructor; [exact Hi|apply init_hist|constructor| |].
    - assert (Ed : l_d s = vecncpy (N := Rnum) (pt_g (l_pt s))).
      { pose proof (h_d _ _ _ _ _ _ (init_hist O alg f b e st x0)) as Ed. fold P s in Ed. rewrite Ed. cbn [differences]. rewrite firstn_nil. unfold dir_of.
        fold P. rewrite not_owl. reflexivity. }
      assert (Es : l_step s = vec2norminv (N := Rnum) (l_d s)) by reflexivity. rewrite Es, Ed. unfold vec2norminv, none.
      assert (Hl : length (vecncpy (N := Rnum) (pt_g (l_pt s))) = n) by now apply length_vecncpy.
      rewrite (vec2norm_norm n _ Hl). rn. change (0 < 1 / norm n (vecncpy (N := Rnum) (pt_g (l_pt s)))).
      assert (En : norm n (vecncpy (N := Rnum) (pt_g (l_pt s))) = norm n (pt_g (l_pt s))).
      { unfold norm, dot. f_equal. apply Sum_ext. intros i Hi'. rewrite !(entry_vecncpy n) by assumption. ring. }
      rewrite En. apply Rdiv_lt_0_compat; [lra|exact Hn].
    - rewrite <- (inv_g _ _ _ _ _ _ _ _ Hi). now apply some_nonzero.
  Qed.
End Curvature.
