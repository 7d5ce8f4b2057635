(** The past/delta criterion and the values returned by the progress callback. *)
From Coq Require Import String ZArith List Bool Arith Reals Lra Lia.
From Verif Require Import Prelude Num Spec_Rescale Proofs_Rescale Model_Lbfgs Proofs_Poisson Spec_Lbfgs
  Proofs_Lbfgs Proofs_LbfgsTrace Proofs_LbfgsVec Proofs_LbfgsReal Proofs_LbfgsTop Proofs_LbfgsMain Proofs_LbfgsOpts.
Import ListNotations.
Local Open Scope R_scope.

Section Past.
  Context {N : NumOps} {St : Type}.
  Variable P : params N.
  Variable f : objective N St.
  Variable progress : option (observer N St).
  Variables (b e : nat).
  Let past := Z.to_nat (p_past P).
  Hypothesis Hpast : (0 < past)%nat.

  (** [fs]: the objective values so far, that of x0 first. *)
  Record past_inv (s : state N St) (fs : list N) : Prop := mkPast {
    pa_k : length fs = l_k s;
    pa_len : length (l_pf s) = past;
    pa_val : forall j, (j < l_k s)%nat -> (l_k s <= j + past)%nat -> nth (Nat.modulo j past) (l_pf s) nzero = nth j fs nzero
  }.

  Lemma past_init st x : let s := init_state P f b e st x in past_inv s [pt_f (l_pt s)].
  Proof.
    cbv zeta. unfold init_state. cbv zeta. constructor; cbn [l_k l_pf l_pt pt_f].
    - reflexivity.
    - rewrite length_lset, repeat_length. reflexivity.
    - intros j Hj _. assert (j = 0)%nat by lia. subst j. rewrite Nat.mod_small by exact Hpast. cbn [nth].
      rewrite nth_lset by (rewrite repeat_length; exact Hpast). reflexivity.
  Qed.

  Lemma mod_apart j k : (j < k)%nat -> (k < j + past)%nat -> Nat.modulo j past <> Nat.modulo k past.
  Proof.
    intros H1 H2 E. pose proof (Nat.div_mod j past ltac:(lia)) as D1. pose proof (Nat.div_mod k past ltac:(lia)) as D2.
    rewrite E in D1. assert (k - j = past * (k / past - j / past))%nat by nia.
    destruct (k / past - j / past)%nat; nia.
  Qed.

  Lemma past_next s fs (pt : point N St) pg : past_inv s fs -> past_inv (next_state P b e s pt pg) (fs ++ [pt_f pt]).
  Proof.
    intros [Hk Hl Hv]. unfold next_state. cbv zeta. fold past. constructor; cbn [l_k l_pf].
    - rewrite app_length, Hk. cbn. lia.
    - destruct (Nat.ltb_spec 0 past); [|lia]. now rewrite length_lset.
    - intros j Hj Hj2. destruct (Nat.ltb_spec 0 past) as [_|]; [|lia].
      assert (Hm : (l_k s mod past < past)%nat) by (apply Nat.mod_upper_bound; lia).
      rewrite nth_lset by (rewrite Hl; exact Hm).
      destruct (Nat.eq_dec j (l_k s)) as [->|Hne].
      + rewrite Nat.eqb_refl. rewrite app_nth2 by lia. rewrite Hk, Nat.sub_diag. reflexivity.
      + pose proof (mod_apart j (l_k s) ltac:(lia) ltac:(lia)) as Hap.
        destruct (Nat.eqb_spec (j mod past) (l_k s mod past)) as [C|_]; [contradiction|].
        rewrite app_nth1 by lia. apply Hv; lia.
  Qed.

  (** The criterion, over the values. *)
  Definition fires (fs : list N) (k : nat) : Prop :=
    (past <= k)%nat /\
    nltb (nabs (ndiv (nsub (nth (k - past) fs nzero) (nth k fs nzero)) (nth k fs nzero))) (p_delta P) = true.

  Lemma run_delta s l en fs i r : never_stops progress -> run P f progress b e s l en -> past_inv s fs ->
    nth_error l i = Some r ->
    converged P (vec2norm (pt_x (s_pt r)))
      (vec2norm (if owl P then owlqn_pseudo_gradient (pt_x (s_pt r)) (pt_g (s_pt r)) (p_c P) b e else pt_g (s_pt r))) = false ->
    fires (fs ++ map (fun r => pt_f (s_pt r)) l) (l_k s + i) ->
    length l = S i /\ exists st, en = Done st (pt_x (s_pt r)) LBFGS_STOP.
  Proof.
    intros Hn H. revert fs i.
    assert (Here : forall fuel s l fs, run_line_search P f fuel b e s = Some r -> past_inv s fs ->
      converged P (vec2norm (pt_x (s_pt r)))
        (vec2norm (if owl P then owlqn_pseudo_gradient (pt_x (s_pt r)) (pt_g (s_pt r)) (p_c P) b e else pt_g (s_pt r))) = false ->
      fires (fs ++ pt_f (s_pt r) :: l) (l_k s) ->
      exists st, after_step P progress b e s r = Exit (Done st (pt_x (s_pt r)) LBFGS_STOP)).
    { intros fuel s0 l0 fs E [Hk Hl Hv] Hc [F1 F2]. unfold after_step. cbv zeta. fold past.
      match goal with |- context [call_progress progress ?a ?q] =>
        assert (E0 : snd (call_progress progress a q) = 0%Z);
        [unfold call_progress; destruct progress as [h|]; [|reflexivity]; cbn [snd]; specialize (Hn h a q eq_refl);
         destruct (snd (h a q)); congruence|] end.
      rewrite E0. cbn [Z.eqb negb].
      match goal with |- context [converged P ?u ?v] => assert (Ec : converged P u v = false) by (rewrite <- Hc; destruct (owl P); reflexivity) end.
      rewrite Ec.
      rewrite app_nth1 in F2 by lia. rewrite (app_nth2 fs) in F2 by lia. rewrite Hk, Nat.sub_diag in F2. cbn [nth] in F2.
      assert (Ev : nth (Nat.modulo (l_k s0) past) (l_pf s0) nzero = nth (l_k s0 - past) fs nzero).
      { rewrite <- Hv by lia. f_equal. replace (l_k s0) with ((l_k s0 - past) + 1 * past)%nat at 1 by lia. now rewrite Nat.mod_add by lia. }
      rewrite Ev. destruct (Nat.ltb_spec 0 past); [|lia]. destruct (Nat.leb_spec past (l_k s0)); [|lia]. cbn [andb]. rewrite F2.
      eexists. reflexivity. }
    induction H as [fuel s r0 E Hr | fuel s r0 en E Hr Ea | fuel s r0 s' l en E Hr Ea H IH]; intros fs i Hp Hi Hc Hf.
    - destruct i; discriminate.
    - destruct i as [|[|i]]; try discriminate. injection Hi as ->. rewrite Nat.add_0_r in Hf. cbn [map] in Hf.
      destruct (Here fuel s [] fs E Hp Hc Hf) as [st Es]. split; [reflexivity|]. exists st. congruence.
    - destruct i as [|i].
      + injection Hi as ->. rewrite Nat.add_0_r in Hf. cbn [map] in Hf. destruct (Here fuel s _ fs E Hp Hc Hf) as [st Es]. congruence.
      + cbn [nth_error] in Hi. apply after_step_next in Ea. destruct Ea as (st & pg & _ & _ & -> & _).
        enough (K : length l = S i /\ exists st, en = Done st (pt_x (s_pt r)) LBFGS_STOP) by (cbn [length]; destruct K; split; [lia|assumption]).
        apply (IH (fs ++ [pt_f (s_pt r0)]) i); auto.
        * exact (past_next s fs (mkPoint st (pt_x (s_pt r0)) (pt_g (s_pt r0)) (pt_f (s_pt r0))) pg Hp).
        * rewrite <- app_assoc. cbn [next_state l_k app map] in *. replace (S (l_k s) + i)%nat with (l_k s + S i)%nat by lia. exact Hf.
  Qed.
End Past.

Lemma never_stops_log {N : NumOps} {St} (progress : option (observer N St)) : never_stops progress -> never_stops (Some (write_log progress)).
Proof.
  intros H h st q [= <-]. unfold write_log. destruct progress as [g|]; [|exact Logic.I]. cbn [snd]. exact (H g (fst st) q eq_refl).
Qed.

Lemma delta_keyerror {St} n z (O : options Rnum) (f : objective Rnum St) progress F G fuel lsfuel st (x0 : list R) st' log out i q :
  computes n z f F G -> length x0 = n -> vanishes z x0 -> never_stops progress ->
  recorded O f progress fuel lsfuel st x0 = Some (st', log, out) ->
  nth_error log i = Some q -> ~ nearly_stationary O n G (r_x q) ->
  delta_fires O (map (penalized O n F) (x0 :: map r_x log)) (S i) ->
  out = Raises KeyError /\ length log = S i.
Proof.
  intros Hf Hx Hz Hn H Hq Hs Hd. pose proof H as H0. unfold recorded in H.
  assert (Ne : log <> []) by (destruct log; [destruct i; discriminate|discriminate]).
  apply fmin_minimize in H. destruct H as [(ex & H & ->)|(Hc & alg & Ha & H)]; [injection H as _ ->; contradiction|].
  apply minimize_cases in H. destruct H as [(code & _ & H & _)|(b & e & Hck & H)]; [injection H as _ ->; contradiction|].
  rr. rewrite Hx in Hck. destruct H as [(_ & H & _)|(Hm & H)]; [injection H as _ ->; contradiction|]. cbv zeta in H.
  set (P := to_params O alg) in *. set (s := init_state P (keep_log f) b e (st, []) x0) in *.
  assert (Es : snd (pt_st (l_pt s)) = []) by reflexivity.
  pose proof (keep_log_computes n z f F G Hf) as Hf'.
  assert (Hi : inv n z P F G b e s) by (apply init_inv; [exact Hf'|exact Hc|split; assumption]).
  assert (Hs' : pt_x (l_pt s) = x0).
  { destruct (eval_at n z (keep_log f) F G Hf' (st, []) x0 (repeat nzero (length x0)) (conj Hx Hz)) as (E & _). exact E. }
  destruct H as [(_ & H & _)|(l & en & Hr & H & Ho)]; [rewrite <- H in Es; cbn [snd] in Es; contradiction|].
  pose proof (kf_ls n O alg b e Hck) as HM.
  destruct (run_log P f progress b e s l en HM Hr) as (reps & R1 & R2 & R3).
  rewrite Es in R1. cbn [app] in R1. rewrite <- H in R1. cbn [snd] in R1. subst reps.
  destruct (run_sound n z P (keep_log f) (Some (write_log progress)) F G b e Hf' Hc (kf_min n O alg b e Hck) (kf_max n O alg b e Hck) HM s l en Hi Hr)
    as (S1 & _ & _).
  assert (Hnth : exists r, nth_error l i = Some r /\ describes q r).
  { clear - R2 Hq. revert i Hq. induction R2 as [|q0 r0 log l Hd H IH]; intros [|i] Hq; try discriminate; cbn [nth_error] in *; eauto.
    injection Hq as ->. eauto. }
  destruct Hnth as (r & Hri & Q1 & Q2 & Q3 & _).
  assert (Hrs : sound_point n z P F G b e r).
  { rewrite Forall_forall in S1. apply S1. eapply nth_error_In. exact Hri. }
  destruct Hrs as (P1 & P2 & P3).
  assert (Efs : [pt_f (l_pt s)] ++ map (fun r => pt_f (s_pt r)) l = map (penalized O n F) (x0 :: map r_x log)).
  { cbn [app map]. f_equal.
    - rewrite (inv_f _ _ _ _ _ _ _ _ Hi), Hs'. apply (kf_F1 n O alg F b e Hck).
    - clear - R2 S1 Hck. induction R2 as [|q0 r0 log l Hd H IH]; [reflexivity|]. inversion S1 as [|? ? A B]; subst.
      cbn [map]. f_equal; [|exact (IH B)]. destruct A as (_ & _ & A). rewrite A. destruct Hd as (Hd & _). rewrite Hd.
      apply (kf_F1 n O alg F b e Hck). }
  destruct Hd as [D1 D2].
  assert (Hend : length l = S i /\ exists st1, en = Done st1 (pt_x (s_pt r)) LBFGS_STOP).
  { apply (run_delta P (keep_log f) (Some (write_log progress)) b e ltac:(exact (proj1 D1)) s l en [pt_f (l_pt s)] i r); auto.
    - now apply never_stops_log.
    - apply past_init. exact (proj1 D1).
    - match goal with |- ?c = false => destruct c eqn:Ec; [|reflexivity] end. exfalso. apply Hs. rewrite Q1.
      apply (test_at n z O alg f F G b e Hf Hck st); [exact P1|]. fold P. rewrite <- P2. exact Ec.
    - change (l_k s) with 1%nat. unfold fires. rr. rewrite Efs. split; [exact (proj2 D1)|].
      rn. apply Rltb_t. exact D2. }
  destruct Hend as (Hlen & st1 & ->). split; [exact Ho|].
  rewrite <- Hlen. clear - R2. induction R2; cbn; congruence.
Qed.

(** ** The value returned by the progress callback *)
Section Reply.
  Context {N : NumOps} {St : Type}.
  Variable P : params N.
  Variable f : objective N St.
  Variable h : observer N St.
  Variable reply_of : report N -> reply.
  Hypothesis Hh : forall st q, snd (h st q) = reply_of q.
  Variables (b e : nat).
  Local Open Scope Z_scope.

  Definition stops_with (k : Z) (q : report N) : Prop := reply_of q = Code k /\ k <> 0.

  Lemma run_reply s l en : 0 < p_max_linesearch P -> run P (keep_log f) (Some (write_log (Some h))) b e s l en ->
    exists reps, snd (end_state en) = snd (pt_st (l_pt s)) ++ reps /\
      forall i q k, nth_error reps i = Some q -> stops_with k q -> length reps = S i /\ exists st, en = Done st (r_x q) k.
  Proof.
    intros HM H. induction H as [fuel s r E Hr | fuel s r en E Hr Ea | fuel s r s' l en E Hr Ea H IH].
    - apply search_end in E; [|exact HM]. destruct E as (n & E1 & _). apply evals_log in E1.
      exists []. cbn [end_state]. rewrite app_nil_r. split; [exact E1|]. intros [|i]; discriminate.
    - apply search_end in E; [|exact HM]. destruct E as (n & E1 & _). apply evals_log in E1.
      pose proof Ea as Ea0. apply after_step_exit in Ea0. destruct Ea0 as (gn & E2 & E3 & _). rewrite E2, write_log_spec, E1.
      eexists. split; [reflexivity|]. intros i q k Hi [Hq Hk]. destruct i as [|[|i]]; try discriminate. injection Hi as <-. split; [reflexivity|].
      unfold after_step in Ea. cbv zeta in Ea. cbn [r_x].
      match type of Ea with context [call_progress ?pr ?st0 ?q0] => set (qq := q0) in Ea;
        assert (Ek : snd (call_progress pr st0 qq) = k) end.
      { unfold call_progress, write_log. cbn [fst snd]. rewrite Hh.
        assert (Eq : reply_of qq = Code k) by (rewrite <- Hq; f_equal; unfold qq; f_equal; rewrite E3; destruct (owl P); reflexivity).
        rewrite Eq. reflexivity. }
      rewrite Ek in Ea. destruct (Z.eqb_spec k 0) as [C|_]; [contradiction|]. cbn [negb] in Ea. injection Ea as <-. eexists. reflexivity.
    - apply search_end in E; [|exact HM]. destruct E as (n & E1 & _). apply evals_log in E1.
      pose proof Ea as Ea0. apply after_step_next in Ea. destruct Ea as (st & pg & Est & Epg & -> & _). cbn [next_state l_pt l_k pt_st] in IH.
      match type of Est with context [call_progress _ _ ?q0] => set (q1 := q0) in * end.
      assert (Es : snd st = snd (pt_st (l_pt s)) ++ [q1]).
      { rewrite Est, write_log_spec, E1. reflexivity. }
      destruct IH as (reps & I1 & I2). rewrite Es in I1. rewrite <- app_assoc in I1. cbn [app] in I1.
      exists (q1 :: reps). split; [exact I1|]. intros [|i] q k Hi Hq.
      + exfalso. injection Hi as <-. destruct Hq as [Hq Hk]. unfold after_step in Ea0. cbv zeta in Ea0.
        match type of Ea0 with context [call_progress ?pr ?st0 ?q0] => set (qq := q0) in Ea0;
          assert (Ek : snd (call_progress pr st0 qq) = k) end.
        { unfold call_progress, write_log. cbn [fst snd]. rewrite Hh.
          assert (Eq : reply_of qq = Code k) by (rewrite <- Hq; f_equal; unfold qq, q1; f_equal; rewrite Epg; destruct (owl P); reflexivity).
          rewrite Eq. reflexivity. }
        rewrite Ek in Ea0. destruct (Z.eqb_spec k 0) as [C|_]; [contradiction|]. discriminate.
      + cbn [nth_error] in Hi. destruct (I2 i q k Hi Hq) as [L D]. split; [cbn; congruence|exact D].
  Qed.

  Lemma conclude_stop (x : list N) k : k <> 0 -> stop_outcome x k (conclude x k).
  Proof.
    intros Hk. unfold stop_outcome, conclude.
    unfold LBFGS_SUCCESS, LBFGS_ALREADY_MINIMIZED, LBFGSERR_ROUNDING_ERROR, LBFGSERR_MAXIMUMLINESEARCH, LBFGSERR_MAXIMUMITERATION,
      LBFGSERR_OUTOFMEMORY, LBFGS_ALLZERO.
    destruct (Z.eqb_spec k 0) as [|_]; [contradiction|]. destruct (Z.eqb_spec k 2) as [->|N2]; [left; split; reflexivity|]. cbn [orb]. right.
    match goal with |- context [if ?c then Returned x (Some k) else _] => destruct c eqn:E1 end.
    { left. split; [|reflexivity]. rewrite !orb_true_iff, !Z.eqb_eq in E1. lia. }
    rewrite !orb_false_iff, !Z.eqb_neq in E1. right.
    match goal with |- context [if (k =? ?c) then Raises MemoryError else _] => destruct (Z.eqb_spec k c) as [->|N3] end; [left; split; reflexivity|]. right.
    match goal with |- context [if (k =? ?c) then Raises AllZeroLBFGSError else _] => destruct (Z.eqb_spec k c) as [->|N4] end; [left; split; reflexivity|]. right.
    destruct (existsb (Z.eqb k) error_codes) eqn:Ee.
    - left. split; [|reflexivity]. apply existsb_exists in Ee. destruct Ee as (c & Ci & Ce). apply Z.eqb_eq in Ce. subst c.
      assert (-1024 <= k <= -994); [|lia].
      revert Ci. vm_compute (error_codes). cbn [In]. clear. intros Ci. repeat destruct Ci as [<-|Ci]; try lia; contradiction.
    - right. split; [|reflexivity].
      assert (~ (-1024 <= k <= -994)); [|lia]. intros R.
      assert (Hin : In k error_codes).
      { vm_compute (error_codes). cbn [In]. lia. }
      enough (existsb (Z.eqb k) error_codes = true) by congruence. apply existsb_exists. exists k. split; [exact Hin|apply Z.eqb_refl].
  Qed.
End Reply.

Lemma progress_stop {N : NumOps} {St} (O : options N) (f : objective N St) h reply_of fuel lsfuel st (x0 : list N) st' log out i q k :
  (forall st q, snd (h st q) = reply_of q) ->
  recorded O f (Some h) fuel lsfuel st x0 = Some (st', log, out) ->
  nth_error log i = Some q -> reply_of q = Code k -> k <> 0%Z ->
  length log = S i /\ stop_outcome (r_x q) k out.
Proof.
  intros Hh H Hq Hk Hk0. assert (Ne : log <> []) by (destruct log; [destruct i; discriminate|discriminate]).
  unfold recorded, fmin_lbfgs in H. destruct (negb _); [injection H as _ <- _; contradiction|].
  destruct (line_search_algo _) as [alg|]; [|injection H as _ <- _; contradiction].
  apply minimize_cases in H. destruct H as [(code & _ & H & _)|(b & e & Hck & H)]; [injection H as _ ->; contradiction|].
  destruct H as [(_ & H & _)|(Hm & H)]; [injection H as _ ->; contradiction|]. cbv zeta in H.
  set (P := to_params O alg) in *. set (s := init_state P (keep_log f) b e (st, []) x0) in *.
  assert (Es : snd (pt_st (l_pt s)) = []) by reflexivity.
  destruct H as [(_ & H & _)|(l & en & Hr & H & Ho)]; [rewrite <- H in Es; cbn [snd] in Es; contradiction|].
  destruct (run_reply P f h reply_of Hh b e s l en (ck_ls _ _ _ _ Hck) Hr) as (reps & R1 & R2).
  rewrite Es in R1. cbn [app] in R1. rewrite <- H in R1. cbn [snd] in R1. subst reps.
  destruct (R2 i q k Hq (conj Hk Hk0)) as (L & st1 & ->). split; [exact L|]. rewrite Ho. now apply conclude_stop.
Qed.
