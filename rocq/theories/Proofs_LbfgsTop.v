(** Theorems about whole calls of fmin_lbfgs over the reals. *)
From Coq Require Import String ZArith List Bool Arith Reals Lra Lia.
From Verif Require Import Prelude Num Spec_Rescale Proofs_Rescale Model_Lbfgs Proofs_Poisson Spec_Lbfgs
  Proofs_Lbfgs Proofs_LbfgsTrace Proofs_LbfgsVec Proofs_LbfgsReal.
Import ListNotations.
Local Open Scope R_scope.

Lemma Rabs_inv a c : Rabs a <= c -> - c <= a <= c.
Proof. unfold Rabs. destruct (Rcase_abs a); lra. Qed.

(** ** The least subgradient *)
Lemma pen_range (b e i : nat) : in_range b e i = true <-> (b <= i < e)%nat.
Proof.
  unfold in_range. rewrite andb_true_iff, Nat.leb_le, Nat.ltb_lt. tauto.
Qed.

Lemma pseudo_least n (c : R) (pen : nat -> Prop) b e (x g : list R) : 0 <= c -> length x = n -> length g = n ->
  (forall i, pen i <-> in_range b e i = true) ->
  least_subgradient c pen n x g (owlqn_pseudo_gradient (N := Rnum) x g c b e).
Proof.
  intros Hc Hx Hg Hp. set (v := owlqn_pseudo_gradient x g c b e).
  assert (Hv : forall i, (i < n)%nat -> entry v i = if in_range b e i then rpseudo c (entry x i) (entry g i) else entry g i).
  { intros i Hi. now apply (entry_pseudo n). }
  assert (Hsub : subgradient c pen n x g v).
  { split; [now apply length_pseudo|]. intros i Hi. rewrite (Hv i Hi). split.
    - intros Hn. destruct (in_range b e i) eqn:E; [exfalso; apply Hn, Hp, E|reflexivity].
    - intros Hn. apply Hp in Hn. rewrite Hn.
      destruct (rpseudo_cases c (entry x i) (entry g i) Hc) as [[]|[[]|[(?&?&?)|[(?&?&?)|(?&?&?)]]]];
        (split; [intros; lra|]); (split; [intros; lra|]); intros; try lra.
      + replace (rpseudo c (entry x i) (entry g i) - entry g i) with c by lra. rewrite Rabs_right; lra.
      + replace (rpseudo c (entry x i) (entry g i) - entry g i) with (- c) by lra. rewrite Rabs_Ropp, Rabs_right; lra.
      + replace (rpseudo c (entry x i) (entry g i) - entry g i) with (- entry g i) by lra.
        rewrite Rabs_Ropp. apply Rabs_le. lra. }
  split; [exact Hsub|]. intros w [Hwl Hw] i Hi. destruct (Hw i Hi) as [W1 W2]. rewrite (Hv i Hi).
  destruct (in_range b e i) eqn:E.
  - destruct (W2 (proj2 (Hp i) E)) as (W3 & W4 & W5).
    destruct (rpseudo_cases c (entry x i) (entry g i) Hc) as [[H1 ->]|[[H1 ->]|[(H1&H2& ->)|[(H1&H2& ->)|(H1&H2& ->)]]]].
    + rewrite W4 by assumption. apply Rle_refl.
    + rewrite W3 by assumption. apply Rle_refl.
    + specialize (W5 H1). apply Rabs_inv in W5. rewrite !Rabs_left; lra.
    + specialize (W5 H1). apply Rabs_inv in W5. rewrite !Rabs_right; lra.
    + rewrite Rabs_R0. apply Rabs_pos.
  - rewrite W1; [apply Rle_refl|]. intros Hn. apply Hp in Hn. congruence.
Qed.

(** ** From the names and options to the parameters *)
Lemma R_owl (O : options Rnum) alg : 0 <= (o_c O : R) ->
  owl (to_params O alg) = true /\ 0 < (o_c O : R) \/ owl (to_params O alg) = false /\ (o_c O : R) = 0.
Proof.
  intros H. unfold owl, nnonzero, nzero. rn. cbn [to_params p_c]. destruct (Reqb (o_c O) 0) eqn:E.
  - apply Reqb_t in E. right. auto.
  - apply Reqb_f in E. left. cbn. split; [reflexivity|]. rr. lra.
Qed.

(** The line search in use. *)
Definition used (O : options Rnum) (alg : algorithm) : Prop := line_search_algo (fst (choose_line_search O)) = Some alg.

Lemma used_plain (O : options Rnum) alg : (o_c O : R) = 0 -> used O alg -> line_search_algo (o_line_search O) = Some alg.
Proof.
  intros Hc. unfold used, choose_line_search, nzero. rn. rewrite Hc.
  destruct (Rltb 0 0) eqn:E; [apply Rltb_t in E; lra|]. cbn [andb fst]. auto.
Qed.

Lemma fmin_minimize {St} (O : options Rnum) (f : objective Rnum St) progress fuel lsfuel st x0 st' out :
  fmin_lbfgs O f progress fuel lsfuel st x0 = Some (st', out) ->
  (exists ex, st' = st /\ out = Raises ex) \/
  (0 <= (o_c O : R) /\ exists alg, used O alg /\ minimize (to_params O alg) f progress fuel lsfuel st x0 = Some (st', out)).
Proof.
  unfold fmin_lbfgs. intros H. destruct (nleb nzero (o_c O)) eqn:E; cbn [negb] in H; [|injection H as <- <-; eauto].
  unfold nzero in E. rnin E. apply Rleb_t in E.
  destruct (line_search_algo (fst (choose_line_search O))) as [alg|] eqn:Ea; [|injection H as <- <-; eauto].
  right. split; [exact E|]. exists alg. auto.
Qed.

Section Facts.
  Context {St : Type}.
  Variables (n : nat) (z : nat -> bool) (O : options Rnum) (alg : algorithm).
  Variable f : objective Rnum St.
  Variable progress : option (observer Rnum St).
  Variables (F : list R -> R) (G : list R -> list R) (b e : nat).
  Hypothesis Hf : computes n z f F G.
  Let P := to_params O alg.
  Hypothesis Hck : checked P n b e.

  Lemma kf_c : 0 <= (o_c O : R).
  Proof. pose proof (ck_c _ _ _ _ Hck) as H. unfold nzero in H. rnin H. apply Rltb_f in H. exact H. Qed.
  Lemma kf_min : 0 <= (o_min_step O : R).
  Proof. pose proof (ck_min _ _ _ _ Hck) as H. unfold nzero in H. rnin H. apply Rltb_f in H. exact H. Qed.
  Lemma kf_max : (o_min_step O : R) <= o_max_step O.
  Proof. pose proof (ck_max _ _ _ _ Hck) as H. rnin H. apply Rltb_f in H. exact H. Qed.
  Lemma kf_ftol : 0 <= (o_ftol O : R).
  Proof. pose proof (ck_ftol _ _ _ _ Hck) as H. unfold nzero in H. rnin H. apply Rltb_f in H. exact H. Qed.
  Lemma kf_ls : (0 < o_max_linesearch O)%Z.
  Proof. exact (ck_ls _ _ _ _ Hck). Qed.
  Lemma kf_b : b = range_start O.
  Proof. apply (ck_b _ _ _ _ Hck). Qed.
  Lemma kf_e : e = range_end O n.
  Proof. apply (ck_e _ _ _ _ Hck). Qed.
  Lemma kf_pen i : penalized_coord O n i <-> in_range b e i = true.
  Proof. rewrite pen_range, kf_b, kf_e. reflexivity. Qed.
  Lemma kf_F1 x : F1 P F b e x = penalized O n F x.
  Proof. unfold F1, penalized. rewrite kf_b, kf_e. reflexivity. Qed.

  Lemma pgrad_least x : length x = n -> length (G x) = n ->
    least_subgradient (o_c O) (penalized_coord O n) n x (G x) (pgrad P G b e x).
  Proof. intros. apply pseudo_least; auto; [apply kf_c|]. intros i. apply kf_pen. Qed.

  (** The documented condition on each step. *)
  Definition step_spec (x y : list R) : Prop :=
    (0 < o_c O -> owl_condition O n F G x y) /\
    (o_c O = 0 -> step_condition O alg n F G x y).

  Lemma step_rel_spec x y : length x = n -> length (G x) = n -> step_rel n P F G b e x y -> step_spec x y.
  Proof.
    intros Hx Hg H. unfold step_rel in H. destruct (R_owl O alg kf_c) as [[Ho Hc]|[Ho Hc]]; fold P in Ho; rewrite Ho in H.
    - split; [intros _|intros; lra]. destruct H as [H1 H2]. split.
      + exists (pgrad P G b e x). split; [now apply pgrad_least|]. rewrite !kf_F1 in H1. split; [exact H1|].
        intros i Hi Hp. apply kf_pen in Hp. specialize (H2 i Hi Hp). tauto.
      + intros i Hi Hp. apply kf_pen in Hp. now apply H2.
    - split; [intros; lra|intros _]. exact H.
  Qed.

  Definition good_point (x : list R) : Prop := length x = n /\ vanishes z x.

  Lemma chain_weaken {A} (Q : A -> Prop) (R1 R2 : A -> A -> Prop) : (forall x y, Q x -> R1 x y -> R2 x y) ->
    forall l x, Q x -> Forall Q l -> chain R1 x l -> chain R2 x l.
  Proof.
    intros H. induction l as [|y l IH]; intros x Hx Hl Hc; [exact Logic.I|]. destruct Hc as [H1 H2]. inversion Hl; subst.
    split; auto.
  Qed.

  Lemma vec2norm_norm (x : list R) : length x = n -> vec2norm (N := Rnum) x = norm n x.
  Proof. intros H. unfold vec2norm, norm. rewrite (vecdot_dot n) by assumption. reflexivity. Qed.

  Lemma converged_spec (x v : list R) : length x = n -> length v = n ->
    converged P (vec2norm (N := Rnum) x) (vec2norm (N := Rnum) v) = true -> norm n v <= o_epsilon O * Rmax 1 (norm n x).
  Proof.
    intros Hx Hv H. unfold converged in H. rewrite (vec2norm_norm _ Hx), (vec2norm_norm _ Hv) in H. unfold none in H. rnin H.
    rr. apply Rleb_t in H.
    assert (Hm : 0 < (if Rltb (norm n x) 1 then 1 else norm n x) <= Rmax 1 (norm n x)).
    { destruct (Rltb (norm n x) 1) eqn:E; [apply Rltb_t in E|apply Rltb_f in E]; split; try lra; [apply Rmax_l|apply Rmax_r]. }
    set (D := if Rltb (norm n x) 1 then 1 else norm n x) in *. change (norm n v / D <= o_epsilon O) in H.
    assert (He : 0 <= (o_epsilon O : R)).
    { pose proof (ck_epsilon _ _ _ _ Hck) as He. unfold nzero in He. rnin He. apply Rltb_f in He. exact He. }
    apply Rle_trans with (o_epsilon O * D); [|apply Rmult_le_compat_l; [exact He|apply Hm]].
    apply (Rmult_le_compat_r D) in H; [|lra]. unfold Rdiv in H. rewrite Rmult_assoc, Rinv_l, Rmult_1_r in H by lra. exact H.
  Qed.

  Lemma test_at (st : St) (x : list R) : fine n z x ->
    converged P (vec2norm (N := Rnum) x)
      (vec2norm (N := Rnum) (if owl P then owlqn_pseudo_gradient (N := Rnum) x (G x) (p_c P) b e else G x)) = true ->
    nearly_stationary O n G x.
  Proof.
    intros Hx H. destruct (Hf st x [] (proj1 Hx) (proj2 Hx)) as (_ & Hg & _). pose proof (proj1 Hx) as Hl.
    assert (E : (if owl P then owlqn_pseudo_gradient (N := Rnum) x (G x) (p_c P) b e else G x) = pgrad P G b e x).
    { destruct (R_owl O alg kf_c) as [[Ho Hc]|[Ho Hc]]; fold P in Ho; rewrite Ho; [reflexivity|].
      assert (Hlp : length (pgrad P G b e x) = n) by (apply length_pseudo; assumption).
      apply (nth_ext _ _ 0 0); [congruence|]. intros i Hi. rewrite Hg in Hi. change (entry (G x) i = entry (pgrad P G b e x) i).
      unfold pgrad. rewrite (entry_pseudo n) by assumption. destruct (in_range b e i); [|reflexivity].
      change (p_c P) with (o_c O). rewrite Hc.
      destruct (rpseudo_cases 0 (entry x i) (entry (G x) i)) as [[]|[[]|[(?&?&?)|[(?&?&?)|(?&?&?)]]]]; lra. }
    rewrite E in H. exists (pgrad P G b e x). split; [now apply pgrad_least|].
    apply converged_spec in H; auto. now apply length_pseudo.
  Qed.
End Facts.

(** How a run that returns no error ends, for every number type. *)
Section Codes.
  Context {N : NumOps} {St : Type}.
  Variable P : params N.
  Variable f : objective N St.
  Variable progress : option (observer N St).
  Local Open Scope Z_scope.

  Definition final_point (s : state N St) (l : list (search N St)) : point N St := last (map (fun r => s_pt r) l) (l_pt s).
  Lemma run_success b e s l st x code : never_says LBFGS_ALREADY_MINIMIZED progress -> run P f progress b e s l (Done st x code) ->
    code = LBFGS_SUCCESS \/ code = LBFGS_ALREADY_MINIMIZED ->
    exists r, In r l /\ pt_x (s_pt r) = x /\
      converged P (vec2norm x)
        (vec2norm (if owl P then owlqn_pseudo_gradient x (pt_g (s_pt r)) (p_c P) b e else pt_g (s_pt r))) = true.
  Proof.
    intros Hn H Hc. remember (Done st x code) as en eqn:Een.
    induction H as [fuel s r E Hr | fuel s r en E Hr Ea | fuel s r s' l en E Hr Ea H IH].
    - exfalso. injection Een as _ _ <-. destruct Hc as [Hc|Hc]; rewrite Hc in Hr; discriminate Hr.
    - exists r. split; [left; reflexivity|]. subst en. unfold after_step in Ea. cbv zeta in Ea.
      match type of Ea with context [call_progress progress ?a ?q] =>
        assert (E0 : snd (call_progress progress a q) <> LBFGS_ALREADY_MINIMIZED);
        [unfold call_progress; destruct progress as [h|]; [|discriminate]; cbn [snd]; specialize (Hn h a q eq_refl);
         destruct (snd (h a q)); [discriminate|intro C; apply Hn; f_equal; exact C|discriminate]|];
        destruct (Z.eqb_spec (snd (call_progress progress a q)) 0) as [E1|E1] end; cbn [negb] in Ea;
        [|exfalso; injection Ea as _ _ E2; destruct Hc as [Hc|Hc]; [apply E1|apply E0]; rewrite E2; exact Hc].
      destruct (converged P _ _) eqn:Ev.
      + injection Ea as _ <- <-. split; [reflexivity|]. destruct (owl P); exact Ev.
      + exfalso. repeat match type of Ea with (if ?q then _ else _) = _ => destruct q end; try discriminate Ea;
          injection Ea as _ _ <-; destruct Hc as [Hc|Hc]; discriminate Hc.
    - destruct (IH Een) as (r' & H1 & H2 & H3). exists r'. split; [right; exact H1|auto].
  Qed.
End Codes.

(** ** Whole calls *)
Section Calls.
  Context {St : Type}.
  Variables (n : nat) (z : nat -> bool) (O : options Rnum).
  Variable f : objective Rnum St.
  Variable progress : option (observer Rnum St).
  Variables (F : list R -> R) (G : list R -> list R).
  Hypothesis Hf : computes n z f F G.

  (** The reported values are those of the objective. *)
  Definition true_report (q : report Rnum) : Prop :=
    length (r_x q) = n /\ vanishes z (r_x q) /\ r_g q = G (r_x q) /\ r_fx q = penalized O n F (r_x q).

  Lemma keep_log_computes : computes n z (keep_log f) F G.
  Proof. intros st x g Hx Hz. exact (Hf (fst st) x g Hx Hz). Qed.

  Lemma trace fuel lsfuel st (x0 : list R) st' log out : length x0 = n -> vanishes z x0 ->
    recorded O f progress fuel lsfuel st x0 = Some (st', log, out) ->
    Forall true_report log /\
    (log <> [] -> exists alg b e, used O alg /\ checked (to_params O alg) n b e /\ chain (step_spec n O alg F G) x0 (map r_x log)) /\
    map r_k log = map Z.of_nat (seq 1 (length log)) /\
    forall x w, out = Returned x w -> x = last (map r_x log) x0.
  Proof.
    intros Hx Hz H. unfold recorded in H.
    assert (Triv : log = [] -> (forall x w, out = Returned x w -> x = x0) ->
      Forall true_report log /\ (log <> [] -> exists alg b e, used O alg /\ checked (to_params O alg) n b e /\ chain (step_spec n O alg F G) x0 (map r_x log)) /\
      map r_k log = map Z.of_nat (seq 1 (length log)) /\ (forall x w, out = Returned x w -> x = last (map r_x log) x0)).
    { intros -> Ho. split; [constructor|]. split; [intros C; contradiction|]. split; [reflexivity|exact Ho]. }
    apply fmin_minimize in H. destruct H as [(ex & H & ->)|(Hc & alg & Ha & H)].
    { injection H as _ ->. apply Triv; [reflexivity|discriminate]. }
    apply minimize_cases in H. destruct H as [(code & Hcode & H & ->)|(b & e & Hck & H)].
    { injection H as _ ->. apply Triv; [reflexivity|]. intros x w. apply conclude_returned. }
    rr. rewrite Hx in Hck.
    destruct H as [(_ & H & ->)|(Hm & H)]; [injection H as _ ->; apply Triv; [reflexivity|discriminate]|]. cbv zeta in H.
    set (P := to_params O alg) in *. set (s := init_state P (keep_log f) b e (st, []) x0) in *.
    assert (Hi : inv n z P F G b e s).
    { apply init_inv; [exact keep_log_computes|exact Hc|split; assumption]. }
    assert (Hs : snd (pt_st (l_pt s)) = []) by reflexivity.
    assert (Hs' : pt_x (l_pt s) = x0).
    { destruct (eval_at n z (keep_log f) F G keep_log_computes (st, []) x0 (repeat nzero (length x0)) (conj Hx Hz)) as (E & _). exact E. }
    destruct H as [(_ & H & ->)|(l & en & Hr & H & Ho)].
    { rewrite <- H in Hs. cbn [snd] in Hs. apply Triv; [exact Hs|]. intros x w [= <- _]. exact Hs'. }
    pose proof (kf_ls n O alg b e Hck) as HM.
    destruct (run_log P f progress b e s l en HM Hr) as (reps & R1 & R2 & R3).
    rewrite Hs in R1. cbn [app] in R1. rewrite <- H in R1. cbn [snd] in R1. subst reps.
    destruct (run_sound n z P (keep_log f) (Some (write_log progress)) F G b e keep_log_computes Hc (kf_min n O alg b e Hck) (kf_max n O alg b e Hck) HM s l en Hi Hr)
      as (S1 & S2 & S3). rewrite Hs' in S2, S3.
    assert (Em : map r_x log = map (fun r => pt_x (s_pt r)) l).
    { clear - R2. induction R2 as [|q r log l Hq H IH]; [reflexivity|]. cbn [map]. f_equal; [apply Hq|exact IH]. }
    split; [|split; [|split]].
    - clear - R2 S1 Hck. induction R2 as [|q r log l Hq H IH]; constructor.
      + inversion S1 as [|? ? Hp Hl]; subst. destruct Hp as ([P1 P2] & P3 & P4). destruct Hq as (Q1 & Q2 & Q3 & _).
        unfold true_report. rewrite Q1, Q2, Q3. split; [exact P1|]. split; [exact P2|]. split; [exact P3|].
        rewrite P4. apply (kf_F1 n O alg F b e Hck).
      + apply IH. now inversion S1.
    - intros _. exists alg, b, e. split; [exact Ha|]. split; [exact Hck|]. rr. rewrite Em. revert S2. apply (chain_weaken (good_point n z)).
      + intros x y [X1 X2]. apply (step_rel_spec n O alg F G b e Hck); [exact X1|].
        apply (Hf st x [] X1 X2).
      + split; assumption.
      + clear - S1. induction S1 as [|r l Hr H IH]; constructor; [apply Hr|exact IH].
    - exact R3.
    - intros x w ->. rr. rewrite Em. destruct en as [st1 x1 code|st1]; [|discriminate].
      symmetry in Ho. apply conclude_returned in Ho. subst x. eapply S3. reflexivity.
  Qed.

  (** Monotone decrease. *)
  Definition covers : Prop := forall i, (i < n)%nat -> penalized_coord O n i.

  Lemma along_nonpos (v x y : list R) : (forall i, (i < n)%nat -> entry v i * (entry y i - entry x i) <= 0) -> along n v x y <= 0.
  Proof.
    intros H. unfold along. assert (0 <= - Sum n (fun i => entry v i * (entry y i - entry x i))); [|lra].
    replace (- Sum n _) with (Sum n (fun i => -1 * (entry v i * (entry y i - entry x i)))) by (rewrite Sum_scal; ring).
    apply Sum_nonneg. intros i Hi. specialize (H i Hi). lra.
  Qed.

  Lemma step_decreases alg x y : 0 <= o_ftol O -> 0 <= o_c O -> (0 < o_c O -> covers) -> step_spec n O alg F G x y ->
    penalized O n F y <= penalized O n F x.
  Proof.
    intros Ht Hc Hcov [H1 H2]. destruct (Req_dec (o_c O) 0) as [E|E].
    - destruct (H2 E) as (A1 & A2 & _). unfold sufficient_decrease in A2. unfold penalized. rewrite E. rr. nra.
    - assert (Hp : 0 < o_c O) by lra. destruct (H1 Hp) as [(v & _ & A2 & A3) _]. unfold sufficient_decrease in A2.
      assert (A4 : along n v x y <= 0). { apply along_nonpos. intros i Hi. apply A3; [exact Hi|]. now apply Hcov. }
      rr. nra.
  Qed.

  Lemma chain_decreases alg l : 0 <= o_ftol O -> 0 <= o_c O -> (0 < o_c O -> covers) -> forall x, chain (step_spec n O alg F G) x l ->
    penalized O n F (last l x) <= penalized O n F x /\ chain (fun u v => penalized O n F v <= penalized O n F u) x l.
  Proof.
    intros Ht Hc Hcov. induction l as [|y l IH]; intros x H; [split; [apply Rle_refl|exact Logic.I]|].
    destruct H as [H1 H2]. pose proof (step_decreases alg x y Ht Hc Hcov H1) as D. destruct (IH y H2) as [I1 I2].
    split; [|split; [exact D|exact I2]]. replace (last (y :: l) x) with (last l y); [lra|].
    clear. revert y. induction l as [|a l IH]; intros; [reflexivity|]. cbn [last] in *. destruct l; auto.
  Qed.
End Calls.
