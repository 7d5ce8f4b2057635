(** Facts about the optimizer that hold for every number type. *)
From Coq Require Import ZArith List Bool Arith Lia.
From Verif Require Import Prelude Num Model_Lbfgs.
Import ListNotations.
Local Open Scope Z_scope.

Section Generic.
  Context {N : NumOps} {St : Type}.
  Variable P : params N.
  Variable f : objective N St.
  Variable progress : option (observer N St).
  Let M := p_max_linesearch P.

  (** ** How line searches end *)

  (** An evaluation of the objective at [x]. *)
  Definition evaluated (x : list N) (pt : point N St) : Prop := exists st g, pt = call_eval f st x g.

  Definition bt_ok (finit dginit dgtest : N) (s : list N) (r : search N St) : Prop :=
    nltb (nadd finit (nmul (s_step r) dgtest)) (pt_f (s_pt r)) = false /\
    (p_linesearch P <> Armijo -> nltb (vecdot (pt_g (s_pt r)) s) (nmul (p_wolfe P) dginit) = false) /\
    (p_linesearch P <> Armijo -> p_linesearch P <> Wolfe ->
       nltb (nmul (nopp (p_wolfe P)) dginit) (vecdot (pt_g (s_pt r)) s) = false).

  Lemma bt_loop_end fuel : forall xp s finit dginit dgtest st g stp count r, 0 <= count < M ->
    backtracking_loop P f fuel xp s finit dginit dgtest st g stp count = Some r ->
    evaluated (vecadd xp s (s_step r)) (s_pt r) /\
    (count < s_ret r <= M /\ bt_ok finit dginit dgtest s r \/
     s_ret r = LBFGSERR_MINIMUMSTEP \/ s_ret r = LBFGSERR_MAXIMUMSTEP \/ s_ret r = LBFGSERR_MAXIMUMLINESEARCH).
  Proof.
    induction fuel as [|fuel IH]; intros xp s finit dginit dgtest st g stp count r Hc H; [discriminate|].
    cbn [backtracking_loop] in H. set (pt := call_eval f st (vecadd xp s stp) g) in *.
    assert (Hpt : evaluated (vecadd xp s stp) pt) by (exists st, g; reflexivity).
    assert (K : forall v, (v = None -> bt_ok finit dginit dgtest s (mkSearch pt stp (count + 1))) ->
      match v with
      | None => Some (mkSearch pt stp (count + 1))
      | Some width =>
        if nltb stp (p_min_step P) then Some (mkSearch pt stp LBFGSERR_MINIMUMSTEP)
        else if nltb (p_max_step P) stp then Some (mkSearch pt stp LBFGSERR_MAXIMUMSTEP)
        else if p_max_linesearch P <=? count + 1 then Some (mkSearch pt stp LBFGSERR_MAXIMUMLINESEARCH)
        else backtracking_loop P f fuel xp s finit dginit dgtest (pt_st pt) (pt_g pt) (nmul stp width) (count + 1)
      end = Some r ->
      evaluated (vecadd xp s (s_step r)) (s_pt r) /\
      (count < s_ret r <= M /\ bt_ok finit dginit dgtest s r \/
       s_ret r = LBFGSERR_MINIMUMSTEP \/ s_ret r = LBFGSERR_MAXIMUMSTEP \/ s_ret r = LBFGSERR_MAXIMUMLINESEARCH)).
    { intros [w|] Hv E.
      - destruct (nltb stp (p_min_step P)); [injection E as <-; cbn; auto|].
        destruct (nltb (p_max_step P) stp); [injection E as <-; cbn; auto|].
        destruct (p_max_linesearch P <=? count + 1) eqn:El; [injection E as <-; cbn; auto|].
        apply Z.leb_gt in El. fold M in El. apply IH in E; [|lia]. destruct E as [E1 E2]. split; [exact E1|].
        destruct E2 as [[E2 E3]|E2]; [left; split; [lia|exact E3]|right; exact E2].
      - injection E as <-. cbn. split; [exact Hpt|]. left. split; [lia|]. exact (Hv eq_refl). }
    revert H. apply K. clear K IH. intros H.
    destruct (nltb (nadd finit (nmul stp dgtest)) (pt_f pt)) eqn:E1; [discriminate|].
    unfold bt_ok. cbn [s_pt s_step]. split; [exact E1|].
    destruct (p_linesearch P); destruct (nltb (vecdot (pt_g pt) s) (nmul (p_wolfe P) dginit)) eqn:E2;
      destruct (nltb (nmul (nopp (p_wolfe P)) dginit) (vecdot (pt_g pt) s)) eqn:E3; try discriminate H;
      split; intros; first [assumption | congruence].
  Qed.

  Lemma bt_loop_total fuel : forall xp s finit dginit dgtest st g stp count, 0 <= count < M ->
    (Z.to_nat (M - count) <= fuel)%nat ->
    backtracking_loop P f fuel xp s finit dginit dgtest st g stp count <> None.
  Proof.
    induction fuel as [|fuel IH]; intros xp s finit dginit dgtest st g stp count Hc Hf; [lia|].
    cbn [backtracking_loop]. set (pt := call_eval f st (vecadd xp s stp) g).
    match goal with |- context [match ?v with Some _ => _ | None => _ end] => destruct v as [w|] end; [|discriminate].
    destruct (nltb stp (p_min_step P)); [discriminate|].
    destruct (nltb (p_max_step P) stp); [discriminate|].
    destruct (p_max_linesearch P <=? count + 1) eqn:El; [discriminate|].
    apply Z.leb_gt in El. fold M in El. apply IH; lia.
  Qed.

  Definition owl_ok (b e : nat) (xp gp : list N) (finit : N) (r : search N St) : Prop :=
    nleb (pt_f (s_pt r)) (nadd finit (nmul (p_ftol P) (vecdot (vecdiff (pt_x (s_pt r)) xp) gp))) = true.

  (** An evaluation with the L1 term added. *)
  Definition evaluated1 (b e : nat) (x : list N) (pt : point N St) : Prop := exists st g,
    let q := call_eval f st x g in
    pt = mkPoint (pt_st q) (pt_x q) (pt_g q) (nadd (pt_f q) (nmul (owlqn_x1norm (pt_x q) b e) (p_c P))).

  Lemma owl_loop_end fuel : forall b e xp s gp wp finit st g stp count r, 0 <= count < M ->
    owlqn_loop P f fuel b e xp s gp wp finit st g stp count = Some r ->
    evaluated1 b e (owlqn_project (vecadd xp s (s_step r)) wp b e) (s_pt r) /\
    (count < s_ret r <= M /\ owl_ok b e xp gp finit r \/
     s_ret r = LBFGSERR_MINIMUMSTEP \/ s_ret r = LBFGSERR_MAXIMUMSTEP \/ s_ret r = LBFGSERR_MAXIMUMLINESEARCH).
  Proof.
    induction fuel as [|fuel IH]; intros b e xp s gp wp finit st g stp count r Hc H; [discriminate|].
    cbn [owlqn_loop] in H. set (q := call_eval f st (owlqn_project (vecadd xp s stp) wp b e) g) in *.
    set (pt := mkPoint (pt_st q) (pt_x q) (pt_g q) (nadd (pt_f q) (nmul (owlqn_x1norm (pt_x q) b e) (p_c P)))) in *.
    assert (Hpt : evaluated1 b e (owlqn_project (vecadd xp s stp) wp b e) pt) by (exists st, g; reflexivity).
    destruct (nleb (pt_f pt) _) eqn:E1.
    - injection H as <-. cbn [s_pt s_step s_ret]. split; [exact Hpt|]. left. split; [lia|exact E1].
    - destruct (nltb stp (p_min_step P)); [injection H as <-; cbn [s_pt s_step s_ret]; solve [auto 15]|].
      destruct (nltb (p_max_step P) stp); [injection H as <-; cbn [s_pt s_step s_ret]; solve [auto 15]|].
      destruct (p_max_linesearch P <=? count + 1) eqn:El; [injection H as <-; cbn [s_pt s_step s_ret]; solve [auto 15]|].
      apply Z.leb_gt in El. fold M in El. apply IH in H; [|lia]. destruct H as [E2 E3]. split; [exact E2|].
      destruct E3 as [[E3 E4]|E3]; [left; split; [lia|exact E4]|right; exact E3].
  Qed.

  Lemma owl_loop_total fuel : forall b e xp s gp wp finit st g stp count, 0 <= count < M ->
    (Z.to_nat (M - count) <= fuel)%nat ->
    owlqn_loop P f fuel b e xp s gp wp finit st g stp count <> None.
  Proof.
    induction fuel as [|fuel IH]; intros b e xp s gp wp finit st g stp count Hc Hf; [lia|].
    cbn [owlqn_loop]. set (q := call_eval f st (owlqn_project (vecadd xp s stp) wp b e) g).
    destruct (nleb _ _); [discriminate|].
    destruct (nltb stp (p_min_step P)); [discriminate|].
    destruct (nltb (p_max_step P) stp); [discriminate|].
    destruct (p_max_linesearch P <=? count + 1) eqn:El; [discriminate|].
    apply Z.leb_gt in El. fold M in El. apply IH; lia.
  Qed.

  Definition mt_ok (finit dginit dgtest : N) (s : list N) (r : search N St) : Prop :=
    nleb (pt_f (s_pt r)) (nadd finit (nmul (s_step r) dgtest)) = true /\
    nleb (nabs (vecdot (pt_g (s_pt r)) s)) (nmul (p_gtol P) (nopp dginit)) = true.
  Definition mt_error (z : Z) : Prop :=
    z = LBFGSERR_ROUNDING_ERROR \/ z = LBFGSERR_MAXIMUMSTEP \/ z = LBFGSERR_MINIMUMSTEP \/
    z = LBFGSERR_WIDTHTOOSMALL \/ z = LBFGSERR_MAXIMUMLINESEARCH.
  Lemma mt_round_end xp s finit dginit dgtest v r : 0 <= mt_count v < M ->
    mt_round P f xp s finit dginit dgtest v = inr r ->
    s_step r = mt_step P v /\ s_pt r = call_eval f (mt_st v) (vecadd xp s (mt_step P v)) (mt_g v) /\
    (s_ret r = mt_count v + 1 /\ s_ret r < M /\ mt_ok finit dginit dgtest s r /\
       (i_brackt (mt_iv v) && (mt_outside (mt_iv v) (mt_step P v) || negb (mt_uinfo v =? 0)))%bool = false
     \/ mt_error (s_ret r)).
  Proof.
    intros Hc H. unfold mt_round in H.
    set (pt := call_eval f (mt_st v) (vecadd xp s (mt_step P v)) (mt_g v)) in *. cbv zeta in H. unfold mt_error.
    match type of H with (if ?c then _ else _) = _ => destruct c eqn:E1 end; [injection H as <-; cbn [s_pt s_step s_ret]; solve [auto 15]|].
    match type of H with (if ?c then _ else _) = _ => destruct c eqn:E2 end; [injection H as <-; cbn [s_pt s_step s_ret]; solve [auto 15]|].
    match type of H with (if ?c then _ else _) = _ => destruct c eqn:E3 end; [injection H as <-; cbn [s_pt s_step s_ret]; solve [auto 15]|].
    match type of H with (if ?c then _ else _) = _ => destruct c eqn:E4 end; [injection H as <-; cbn [s_pt s_step s_ret]; solve [auto 15]|].
    match type of H with (if ?c then _ else _) = _ => destruct c eqn:El end; [injection H as <-; cbn [s_pt s_step s_ret]; solve [auto 15]|].
    apply Z.leb_gt in El. fold M in El.
    match type of H with (if ?c then _ else _) = _ => destruct c eqn:E5 end; [|discriminate].
    injection H as <-. cbn [s_pt s_step s_ret]. split; [reflexivity|]. split; [reflexivity|]. left.
    split; [reflexivity|]. split; [lia|]. split; [|reflexivity]. apply andb_prop in E5. exact E5.
  Qed.

  Lemma mt_next_vars finit dginit dgtest (v : mt_vars N St) stp (pt : point N St) dg :
    let v' := mt_next P finit dginit dgtest v stp pt dg in
    mt_count v' = mt_count v + 1 /\ mt_st v' = pt_st pt /\ mt_g v' = pt_g pt.
  Proof. unfold mt_next. cbv zeta. match goal with |- context [if i_brackt ?j then _ else _] => destruct (i_brackt j) end; cbn; auto. Qed.

  Lemma mt_round_next xp s finit dginit dgtest v v' : 
    mt_round P f xp s finit dginit dgtest v = inl v' ->
    let pt := call_eval f (mt_st v) (vecadd xp s (mt_step P v)) (mt_g v) in
    v' = mt_next P finit dginit dgtest v (mt_step P v) pt (vecdot (pt_g pt) s) /\ mt_count v + 1 < M /\
    (i_brackt (mt_iv v) && (mt_outside (mt_iv v) (mt_step P v) || negb (mt_uinfo v =? 0)))%bool = false.
  Proof.
    intros H. unfold mt_round in H.
    set (pt := call_eval f (mt_st v) (vecadd xp s (mt_step P v)) (mt_g v)) in *. cbv zeta in *.
    match type of H with (if ?c then _ else _) = _ => destruct c eqn:E1 end; [discriminate|].
    match type of H with (if ?c then _ else _) = _ => destruct c eqn:E2 end; [discriminate|].
    match type of H with (if ?c then _ else _) = _ => destruct c eqn:E3 end; [discriminate|].
    match type of H with (if ?c then _ else _) = _ => destruct c eqn:E4 end; [discriminate|].
    match type of H with (if ?c then _ else _) = _ => destruct c eqn:El end; [discriminate|].
    apply Z.leb_gt in El. fold M in El.
    match type of H with (if ?c then _ else _) = _ => destruct c eqn:E5 end; [discriminate|].
    injection H as <-. auto.
  Qed.

  Lemma mt_loop_end fuel : forall xp s finit dginit dgtest v r, 0 <= mt_count v < M ->
    morethuente_loop P f fuel xp s finit dginit dgtest v = Some r ->
    evaluated (vecadd xp s (s_step r)) (s_pt r) /\
    (mt_count v < s_ret r <= M /\ mt_ok finit dginit dgtest s r \/ mt_error (s_ret r)).
  Proof.
    induction fuel as [|fuel IH]; intros xp s finit dginit dgtest v r Hc H; [discriminate|].
    cbn [morethuente_loop] in H. destruct (mt_round P f xp s finit dginit dgtest v) as [v'|r'] eqn:E.
    - apply mt_round_next in E. destruct E as (E1 & E2 & _).
      destruct (mt_next_vars finit dginit dgtest v (mt_step P v) (call_eval f (mt_st v) (vecadd xp s (mt_step P v)) (mt_g v))
        (vecdot (pt_g (call_eval f (mt_st v) (vecadd xp s (mt_step P v)) (mt_g v))) s)) as (F1 & _). cbv zeta in F1. rewrite <- E1 in F1.
      apply IH in H; [|lia]. destruct H as [H1 H2]. split; [exact H1|].
      destruct H2 as [[H2 H3]|H2]; [left; split; [lia|exact H3]|right; exact H2].
    - injection H as <-. apply mt_round_end in E; [|exact Hc]. destruct E as (E1 & E2 & E3). split.
      + exists (mt_st v), (mt_g v). rewrite E1. exact E2.
      + destruct E3 as [(E3 & E4 & E5 & _)|E3]; [left; split; [lia|exact E5]|right; exact E3].
  Qed.

  Lemma mt_loop_total fuel : forall xp s finit dginit dgtest v, 0 <= mt_count v < M ->
    (Z.to_nat (M - mt_count v) <= fuel)%nat ->
    morethuente_loop P f fuel xp s finit dginit dgtest v <> None.
  Proof.
    induction fuel as [|fuel IH]; intros xp s finit dginit dgtest v Hc Hf; [lia|].
    cbn [morethuente_loop]. destruct (mt_round P f xp s finit dginit dgtest v) as [v'|r'] eqn:E; [|discriminate].
    apply mt_round_next in E. destruct E as (E1 & E2 & _).
    destruct (mt_next_vars finit dginit dgtest v (mt_step P v) (call_eval f (mt_st v) (vecadd xp s (mt_step P v)) (mt_g v))
        (vecdot (pt_g (call_eval f (mt_st v) (vecadd xp s (mt_step P v)) (mt_g v))) s)) as (F1 & _). cbv zeta in F1. rewrite <- E1 in F1.
    apply IH; lia.
  Qed.
End Generic.
