(** The theorems of Props_Lbfgs.v. *)
From Coq Require Import String ZArith List Bool Arith Reals Lra Lia.
From Verif Require Import Prelude Num Spec_Rescale Proofs_Rescale Model_Lbfgs Proofs_Poisson Spec_Lbfgs
  Proofs_Lbfgs Proofs_LbfgsTrace Proofs_LbfgsVec Proofs_LbfgsReal Proofs_LbfgsTop Proofs_LbfgsDir Proofs_LbfgsDescent
  Proofs_LbfgsCurv.
Import ListNotations.
Local Open Scope R_scope.

Lemma recorded_of {N : NumOps} {St} (O : options N) (f : objective N St) progress fuel lsfuel st x0 st' out :
  fmin_lbfgs O f progress fuel lsfuel st x0 = Some (st', out) ->
  exists log, recorded O f progress fuel lsfuel st x0 = Some (st', log, out).
Proof.
  rewrite recording_faithful. destruct (recorded O f progress fuel lsfuel st x0) as [[[s l] o]|]; [|discriminate].
  cbn. intros [= <- <-]. eauto.
Qed.

Section Calls.
  Context {St : Type}.
  Variables (n : nat) (z : nat -> bool) (O : options Rnum).
  Variable f : objective Rnum St.
  Variable progress : option (observer Rnum St).
  Variables (F : list R -> R) (G : list R -> list R).
  Variables (fuel lsfuel : nat) (st : St) (x0 : list R).
  Hypothesis Hf : computes n z f F G.
  Hypothesis Hx : length x0 = n.
  Hypothesis Hz : vanishes z x0.

  (** C45 *)
  Lemma iterates_decrease st' log out : (0 < o_c O -> forall i, (i < n)%nat -> penalized_coord O n i) ->
    recorded O f progress fuel lsfuel st x0 = Some (st', log, out) ->
    chain (fun u v => penalized O n F v <= penalized O n F u) x0 (map r_x log) /\
    penalized O n F (last (map r_x log) x0) <= penalized O n F x0.
  Proof.
    intros Hcov H. destruct (trace n z O f progress F G Hf fuel lsfuel st x0 st' log out Hx Hz H) as (_ & T & _ & _).
    destruct log as [|q log]; [split; [exact Logic.I|apply Rle_refl]|].
    destruct (T ltac:(discriminate)) as (alg & b & e & _ & Hck & C).
    destruct (chain_decreases n O F G alg _ (kf_ftol n O alg b e Hck) (kf_c n O alg b e Hck) Hcov x0 C) as [A B].
    split; assumption.
  Qed.
  Lemma never_worse st' x w : (0 < o_c O -> forall i, (i < n)%nat -> penalized_coord O n i) ->
    fmin_lbfgs O f progress fuel lsfuel st x0 = Some (st', Returned x w) ->
    penalized O n F x <= penalized O n F x0.
  Proof.
    intros Hcov H. apply recorded_of in H. destruct H as [log H].
    destruct (trace n z O f progress F G Hf fuel lsfuel st x0 st' log _ Hx Hz H) as (_ & _ & _ & T).
    rewrite (T x w eq_refl). eapply iterates_decrease; eassumption.
  Qed.

  (** C47 *)
  Lemma steps_accepted alg st' log out : o_c O = 0 -> line_search_algo (o_line_search O) = Some alg ->
    recorded O f progress fuel lsfuel st x0 = Some (st', log, out) ->
    chain (step_condition O alg n F G) x0 (map r_x log) /\
    forall x w, out = Returned x w -> x = last (map r_x log) x0.
  Proof.
    intros Hc Ha H. destruct (trace n z O f progress F G Hf fuel lsfuel st x0 st' log out Hx Hz H) as (T0 & T & _ & T1).
    split; [|exact T1]. destruct log as [|q log]; [exact Logic.I|].
    destruct (T ltac:(discriminate)) as (alg' & b & e & Hu & Hck & C). apply used_plain in Hu; [|exact Hc].
    assert (alg' = alg) by congruence. subst alg'. revert C. apply (chain_weaken (fun _ => True)); auto.
    - intros x y _ [_ C]. apply C. exact Hc.
    - clear. induction (map r_x (q :: log)); constructor; auto.
  Qed.

  (** C48 *)
  Lemma steps_orthant st' log out : 0 < o_c O ->
    recorded O f progress fuel lsfuel st x0 = Some (st', log, out) -> chain (owl_condition O n F G) x0 (map r_x log).
  Proof.
    intros Hc H. destruct (trace n z O f progress F G Hf fuel lsfuel st x0 st' log out Hx Hz H) as (T0 & T & _ & T1).
    destruct log as [|q log]; [exact Logic.I|].
    destruct (T ltac:(discriminate)) as (alg' & b & e & Hu & Hck & C). revert C. apply (chain_weaken (fun _ => True)); auto.
    - intros x y _ [C _]. apply C. exact Hc.
    - clear. induction (map r_x (q :: log)); constructor; auto.
  Qed.

  (** C54 *)
  Lemma stays_zero st' log out : recorded O f progress fuel lsfuel st x0 = Some (st', log, out) ->
    Forall (fun q => length (r_x q) = n /\ vanishes z (r_x q) /\ r_g q = G (r_x q) /\ r_fx q = penalized O n F (r_x q)) log /\
    map r_k log = map Z.of_nat (seq 1 (length log)) /\
    forall x w, out = Returned x w -> length x = n /\ vanishes z x /\ x = last (map r_x log) x0.
  Proof.
    intros H. destruct (trace n z O f progress F G Hf fuel lsfuel st x0 st' log out Hx Hz H) as (T0 & T & Tk & T1).
    split; [exact T0|]. split; [exact Tk|]. intros x w E. rewrite (T1 x w E).
    assert (K : forall l u, length u = n /\ vanishes z u -> Forall (true_report n z O F G) l ->
      length (last (map r_x l) u) = n /\ vanishes z (last (map r_x l) u)).
    { induction l as [|q l IH]; intros u Hu HF; [exact Hu|]. inversion HF as [|? ? Hq Hl]; subst.
      destruct Hq as (Q1 & Q2 & _). specialize (IH (r_x q) (conj Q1 Q2) Hl). cbn [map]. destruct l as [|q' l]; [split; assumption|].
      replace (last (r_x q :: map r_x (q' :: l)) u) with (last (map r_x (q' :: l)) (r_x q)); [exact IH|].
      clear. cbn [map]. generalize (r_x q'). induction (map r_x l) as [|a t IHt]; intros y; [reflexivity|]. cbn [last] in *.
      destruct t; [reflexivity|]. apply (IHt a). }
    destruct (K log x0 (conj Hx Hz) T0) as [K1 K2]. split; [exact K1|]. split; [exact K2|reflexivity].
  Qed.

  (** C87 *)
  Lemma steps_curved alg st' log out : o_c O = 0 -> line_search_algo (o_line_search O) = Some alg -> curved O alg ->
    recorded O f progress fuel lsfuel st x0 = Some (st', log, out) ->
    chain (strict_step n G) x0 (map r_x log).
  Proof.
    intros Hc Ha Hcu H. unfold recorded in H.
    apply fmin_minimize in H. destruct H as [(ex & H & ->)|(Hc' & alg' & Hu & H)]; [injection H as _ ->; exact Logic.I|].
    apply used_plain in Hu; [|exact Hc]. assert (alg' = alg) by congruence. subst alg'.
    apply minimize_start in H. destruct H as [(code & _ & H & _)|(b & e & Hck & H)]; [injection H as _ ->; exact Logic.I|].
    rr. rewrite Hx in Hck. destruct H as [(_ & H & _)|(Hm & H)]; [injection H as _ ->; exact Logic.I|]. cbv zeta in H.
    set (P := to_params O alg) in *. set (s := init_state P (keep_log f) b e (st, []) x0) in *.
    assert (Hs : snd (pt_st (l_pt s)) = []) by reflexivity.
    pose proof (keep_log_computes n z f F G Hf) as Hf'.
    assert (Hs' : pt_x (l_pt s) = x0).
    { destruct (eval_at n z (keep_log f) F G Hf' (st, []) x0 (repeat nzero (length x0)) (conj Hx Hz)) as (E & _). exact E. }
    destruct H as [(_ & H & _)|(Ev & l & en & Hr & H & Ho)]; [rewrite <- H in Hs; cbn [snd] in Hs; subst log; exact Logic.I|].
    pose proof (not_owl n O alg b e Hck Hc) as Eo. fold P in Eo. rewrite Eo in Ev.
    pose proof (init_curv n z O alg (keep_log f) F G b e Hf' Hck Hc (st, []) x0 Hx Hz Ev) as C.
    destruct (run_curved n z O alg (keep_log f) (Some (write_log progress)) F G b e Hf' Hck Hc Hcu _ _ l en C Hr) as [R _].
    destruct (run_log P f progress b e s l en (kf_ls n O alg b e Hck) Hr) as (reps & R1 & R2 & R3).
    rewrite Hs in R1. cbn [app] in R1. rewrite <- H in R1. cbn [snd] in R1. subst reps.
    assert (Em : map r_x log = map (fun r => pt_x (s_pt r)) l).
    { clear - R2. induction R2 as [|q r log l Hq H IH]; [reflexivity|]. cbn [map]. f_equal; [apply Hq|exact IH]. }
    rr. rewrite Em. change (chain (strict_step n G) (pt_x (l_pt s)) (map (fun r => pt_x (s_pt r)) l)) in R. rewrite Hs' in R. exact R.
  Qed.

  Lemma curved_codes alg st' x code : o_c O = 0 -> curved O alg -> never_stops progress ->
    lbfgs (to_params O alg) f progress fuel lsfuel st x0 = Some (Done st' x code) ->
    code <> LBFGSERR_INVALIDPARAMETERS /\ code <> LBFGSERR_INCREASEGRADIENT /\ code <> LBFGSERR_LOGICERROR.
  Proof.
    intros Hc Hcu Hn H. unfold lbfgs in H. rr. rewrite Hx in H.
    destruct (check_params (to_params O alg) (Z.of_nat n)) as [c|[b e]] eqn:Ec.
    - injection H as _ _ <-. revert Ec. unfold check_params. cbv zeta. intros Ec.
      repeat match type of Ec with (if ?q then _ else _) = _ => destruct q end; try discriminate Ec;
        injection Ec as <-; repeat split; discriminate.
    - apply check_ok in Ec. destruct (p_m _ <? 0)%Z; [injection H as _ _ <-; repeat split; discriminate|]. cbv zeta in H.
      rewrite (not_owl n O alg b e Ec Hc) in H. 
      match type of H with (if ?q then _ else _) = _ => destruct q eqn:Ev end; [injection H as _ _ <-; repeat split; discriminate|].
      apply main_loop_run in H. destruct H as [l H].
      pose proof (init_curv n z O alg f F G b e Hf Ec Hc st x0 Hx Hz Ev) as C.
      destruct (run_curved n z O alg f progress F G b e Hf Ec Hc Hcu _ _ l _ C H) as [_ R].
      specialize (R Hn _ _ _ eq_refl). unfold ordinary_code in R.
      destruct R as [->|[->|[->|[->|[->|[->|[->| ->]]]]]]]; repeat split; discriminate.
  Qed.

  (** C88 *)
  Lemma returned_gap st' x w : never_says LBFGS_ALREADY_MINIMIZED progress -> above_tangents n F G -> length w = n ->
    fmin_lbfgs O f progress fuel lsfuel st x0 = Some (st', Returned x None) ->
    penalized O n F x - penalized O n F w <= o_epsilon O * Rmax 1 (norm n x) * distance n x w.
  Proof.
    intros Hn HF Hw H. destruct (returned_stationary n z O f progress F G fuel lsfuel st x0 st' x Hf Hx Hz Hn H) as (A & B & C & D).
    now apply (stationary_gap n O F G).
  Qed.
End Calls.

(** ** C46 *)
Lemma calls_bounded {N : NumOps} {St : Type} (O : options N) (f : objective N St) progress fuel lsfuel st x0 :
  (0 < o_max_iterations O)%Z -> (o_max_iterations O <= Z.of_nat fuel)%Z -> (o_max_linesearch O <= Z.of_nat lsfuel)%Z ->
  exists st' calls reports out,
    fmin_lbfgs O (count_calls f) (option_map count_reports progress) fuel lsfuel (st, (0%nat, 0%nat)) x0 = Some ((st', (calls, reports)), out) /\
    fmin_lbfgs O f progress fuel lsfuel st x0 = Some (st', out) /\
    (Z.of_nat calls <= 1 + o_max_iterations O * Z.max 0 (o_max_linesearch O))%Z /\
    (Z.of_nat reports <= o_max_iterations O)%Z.
Proof.
  intros H1 H2 H3. pose proof (fmin_total O (count_calls f) (option_map count_reports progress) fuel lsfuel (st, (0%nat, 0%nat)) x0 H1 H2 H3) as T.
  destruct (fmin_lbfgs O (count_calls f) _ fuel lsfuel (st, (0%nat, 0%nat)) x0) as [[[st' [calls reports]] out]|] eqn:E; [|contradiction].
  exists st', calls, reports, out. split; [reflexivity|]. split.
  - rewrite (counting_faithful O f progress fuel lsfuel st (0%nat, 0%nat) x0), E. reflexivity.
  - eapply count_bound; eassumption.
Qed.

(** One line search, for every number type. *)
Lemma search_bounded {N : NumOps} {St : Type} (P : params N) (f : objective N St) fuel b e (s : state N (St * (nat * nat))) :
  (0 < p_max_linesearch P)%Z -> (p_max_linesearch P <= Z.of_nat fuel)%Z ->
  exists r, run_line_search P (count_calls f) fuel b e s = Some r /\
    (Z.of_nat (fst (snd (pt_st (s_pt r)))) <= Z.of_nat (fst (snd (pt_st (l_pt s)))) + p_max_linesearch P)%Z.
Proof.
  intros HM Hl. destruct (run_line_search P (count_calls f) fuel b e s) as [r|] eqn:E.
  - exists r. split; [reflexivity|]. apply search_end in E; [|exact HM]. destruct E as (k & E1 & E2 & _).
    assert (K : forall k (a c : St * (nat * nat)), evals (count_calls f) k a c -> fst (snd c) = (fst (snd a) + k)%nat).
    { clear. induction 1 as [|n st x g st' H IH]; [lia|]. rewrite IH. cbn. lia. }
    apply K in E1. lia.
  - exfalso. revert E. apply search_total; [exact HM|lia].
Qed.

(** ** C48: the pseudo-gradient *)
Section Pseudo.
  Variables (n : nat) (c : R) (b e : nat) (x g : list R).
  Hypothesis Hc : 0 <= c.
  Hypothesis Hx : length x = n.
  Hypothesis Hg : length g = n.

  Lemma pseudo_least_range : least_subgradient c (fun i => (b <= i < e)%nat) n x g (owlqn_pseudo_gradient (N := Rnum) x g c b e).
  Proof. apply pseudo_least; auto. intros i. symmetry. apply pen_range. Qed.

  Lemma pseudo_zero : (forall i, (i < n)%nat -> entry (owlqn_pseudo_gradient (N := Rnum) x g c b e) i = 0) <->
    (forall i, (i < n)%nat ->
       (~ (b <= i < e)%nat -> entry g i = 0) /\
       ((b <= i < e)%nat -> (0 < entry x i -> entry g i = - c) /\ (entry x i < 0 -> entry g i = c) /\
                            (entry x i = 0 -> Rabs (entry g i) <= c))).
  Proof.
    split.
    - intros H i Hi. specialize (H i Hi). destruct pseudo_least_range as [[_ S] _]. destruct (S i Hi) as [S1 S2]. rewrite H in *. split.
      + intros Hn. symmetry. auto.
      + intros Hp. destruct (S2 Hp) as (S3 & S4 & S5). repeat split; intros Hq.
        * specialize (S3 Hq). lra.
        * specialize (S4 Hq). lra.
        * specialize (S5 Hq). rewrite Rminus_0_l, Rabs_Ropp in S5. exact S5.
    - intros H i Hi. destruct pseudo_least_range as [_ L].
      set (w := repeat 0 n). assert (Hw : forall j, entry w j = 0).
      { intros j. unfold entry, w. destruct (Nat.lt_ge_cases j n); [now apply nth_repeat|]. apply nth_overflow. rewrite repeat_length. exact H0. }
      assert (Sw : subgradient c (fun i => (b <= i < e)%nat) n x g w).
      { split; [apply repeat_length|]. intros j Hj. rewrite Hw. destruct (H j Hj) as [A B]. split; [intros Hn; symmetry; auto|].
        intros Hp. destruct (B Hp) as (B1 & B2 & B3). repeat split; intros Hq.
        - rewrite (B1 Hq). lra.
        - rewrite (B2 Hq). lra.
        - rewrite Rminus_0_l, Rabs_Ropp. auto. }
      specialize (L w Sw i Hi). rewrite Hw, Rabs_R0 in L.
      apply Rabs_inv in L. lra.
  Qed.

  (** A trial point of the OWL-QN search in direction [d] stays in the orthant. *)
  Lemma trial_orthant (pg d : list R) (t : R) i : length pg = n -> length d = n -> (i < n)%nat -> (b <= i < e)%nat ->
    let trial := owlqn_project (N := Rnum) (vecadd (N := Rnum) x d t)
                   (map2 (fun u v => if neqb (n := Rnum) u nzero then nopp v else u) x pg) b e in
    0 <= entry x i * entry trial i /\ (entry x i = 0 -> entry trial i * entry pg i <= 0) /\
    (entry trial i = 0 \/ entry trial i = entry x i + t * entry d i).
  Proof.
    intros Hp Hd Hi Hr. cbv zeta.
    change (map2 (fun u v => if neqb (n := Rnum) u nzero then nopp v else u) x pg) with (wp_of x pg).
    assert (Hw : length (wp_of x pg) = n) by (apply length_map2n; assumption).
    rewrite (entry_project n); [|now apply length_vecadd|exact Hw|exact Hi].
    apply pen_range in Hr. rewrite Hr. cbn [andb]. rewrite (entry_vecadd n) by assumption.
    assert (Ew : entry (wp_of x pg) i = if Reqb (entry x i) 0 then - entry pg i else entry x i).
    { unfold wp_of. rewrite (entry_map2n _ n) by assumption. reflexivity. }
    rewrite Ew. destruct (Rleb _ 0) eqn:El; [rewrite !Rmult_0_r, Rmult_0_l; repeat split; auto; lra|].
    apply Rleb_f in El. destruct (Reqb (entry x i) 0) eqn:Ex; [apply Reqb_t in Ex; rewrite Ex in *|apply Reqb_f in Ex].
    - repeat split; auto; nra.
    - repeat split; auto; [nra|]. intros C. contradiction.
  Qed.
End Pseudo.

Lemma stationary_minimizes n (O : options Rnum) F G (x : list R) : 0 <= o_c O -> (range_end O n <= n)%nat ->
  above_tangents n F G -> length x = n -> length (G x) = n ->
  (forall i, (i < n)%nat -> entry (owlqn_pseudo_gradient (N := Rnum) x (G x) (o_c O) (range_start O) (range_end O n)) i = 0) ->
  forall w, length w = n -> penalized O n F x <= penalized O n F w.
Proof.
  intros Hc He HF Hx Hg Hz w Hw.
  pose proof (pseudo_least_range n (o_c O) (range_start O) (range_end O n) x (G x) Hc Hx Hg) as [S _].
  pose proof (subgradient_bound n O F G x w _ Hc He HF Hx Hw S) as B.
  assert (E : along n (owlqn_pseudo_gradient (N := Rnum) x (G x) (o_c O) (range_start O) (range_end O n)) x w = 0).
  { unfold along. apply Sum_zero. intros i Hi. rewrite (Hz i Hi). ring. }
  rr. rewrite E in B. lra.
Qed.
