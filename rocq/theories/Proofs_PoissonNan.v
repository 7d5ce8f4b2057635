(** A NaN intercept as the start of the Poisson 'lbfgs' solver, in binary64 arithmetic (C27). *)
From Coq Require Import String ZArith List Bool Arith Lia Floats.SpecFloat.
From Verif Require Import Prelude F64 Num Model_Rescale Model_Poisson Model_Lbfgs Model_PoissonFit Spec_Lbfgs Proofs_Rescale Proofs_Poisson Proofs_Lbfgs Proofs_LbfgsTrace
  Proofs_LbfgsVec Proofs_LbfgsNan.
Import ListNotations.

Section NanStart.
  Variables exp64 ln64 : f64 -> f64.
  Notation FN := (Fnum exp64 ln64).

  Lemma sub_nan_r x : fsub x fnan = fnan.
  Proof. destruct x as [[]|[]| |[]]; reflexivity. Qed.
  Lemma div_nan_r x : fdiv x fnan = fnan.
  Proof. destruct x as [[]|[]| |[]]; reflexivity. Qed.

  (** A vector with a NaN has norm NaN. *)
  Lemma dot_in_nan (l : list (f64 * f64)) s : (exists a, In a l /\ fmul (fst a) (snd a) = fnan) ->
    fold_left (fun s p => fadd s (fmul (fst p) (snd p))) l s = fnan.
  Proof.
    revert s. induction l as [|a l IH]; intros s (b & Hb & E); [destruct Hb|]. destruct Hb as [<-|H]; cbn [fold_left].
    - rewrite E, add_nan_r. apply fold_nan.
    - apply IH. now exists b.
  Qed.
  Lemma norm_in_nan (x : list f64) : In fnan x -> vec2norm (N := FN) x = fnan.
  Proof.
    intros H. unfold vec2norm, vecdot.
    assert (E : fold_left (fun s p => fadd s (fmul (fst p) (snd p))) (combine x x) fzero = fnan).
    { apply dot_in_nan. exists (fnan, fnan). split; [|reflexivity].
      clear -H. induction x as [|a x IH]; [destruct H|]. destruct H as [<-|H]; [now left|right; now apply IH]. }
    exact (f_equal fsqrt E).
  Qed.
  Lemma nth_in_nan p (x : list f64) : length x = S p -> nth p x fzero = fnan -> In fnan x.
  Proof. intros L H. rewrite <- H. apply nth_In. lia. Qed.

  Section Run.
    Context {St : Type}.
    Variables (p : nat) (f : objective FN St) (P : params FN).
    Hypothesis Hf : forall st x g, length x = S p -> nth p x fzero = fnan -> exists st' g',
      f st x g = (st', (x, g', Value (N := FN) fnan)) /\ length g' = S p /\ nth p g' fzero = fnan.
    Hypothesis Hc : check_params P (Z.of_nat (S p)) = inr (0%nat, p).
    Hypothesis Ho : owl P = true.

    Lemma trial_nan (xp s wp : list f64) stp : length xp = S p -> length s = S p -> length wp = S p -> nth p xp fzero = fnan ->
      length (owlqn_project (N := FN) (vecadd (N := FN) xp s stp) wp 0 p) = S p /\
      nth p (owlqn_project (N := FN) (vecadd (N := FN) xp s stp) wp 0 p) fzero = fnan.
    Proof.
      intros L1 L2 L3 H. set (t := vecadd (N := FN) xp s stp).
      assert (Lt : length t = S p) by (unfold t, vecadd; apply length_map2n; assumption).
      assert (Et : nth p t fzero = fnan).
      { unfold t, vecadd.
        pose proof (map2_nth (fun a b : f64 => fadd a (fmul stp b)) xp s p fzero fzero fzero) as E.
        etransitivity; [apply E; lia|]. rewrite H. reflexivity. }
      assert (Lc : length (combine t wp) = S p) by (rewrite combine_length, Lt, L3; apply Nat.min_id).
      unfold owlqn_project, mapi. split.
      - rewrite mapi_from_length. exact Lc.
      - rewrite (mapi_from_nth _ (fzero, fzero) fzero) by (match goal with |- (_ < ?l)%nat => assert (Ec : l = S p) by exact Lc; rewrite Ec end; lia).
        rewrite combine_nth by (transitivity (S p); [exact Lt|symmetry; exact L3]). cbn [fst snd]. unfold in_range.
        replace (Nat.ltb (0 + p) p) with false by (symmetry; apply Nat.ltb_ge; lia). rewrite andb_false_r. cbn [andb]. exact Et.
    Qed.

    Lemma search_nan (xp s gp wp : list f64) (Hmax : (0 < p_max_linesearch P)%Z) :
      length xp = S p -> length s = S p -> length wp = S p -> nth p xp fzero = fnan ->
      forall fuel st g count finit, (0 <= count < p_max_linesearch P)%Z -> (Z.to_nat (p_max_linesearch P - count) <= fuel)%nat ->
      exists r, owlqn_loop P f fuel 0 p xp s gp wp finit st g fnan count = Some r /\ s_ret r = LBFGSERR_MAXIMUMLINESEARCH.
    Proof.
      intros L1 L2 L3 H fuel. induction fuel as [|fuel IH]; intros st g count finit Hn Hfu; [lia|].
      cbn [owlqn_loop]. cbv zeta.
      destruct (trial_nan xp s wp fnan L1 L2 L3 H) as [Lt Et].
      destruct (Hf st _ g Lt Et) as (st' & g' & E & Lg & _).
      unfold call_eval. rewrite E. cbn [fst snd pt_st pt_x pt_g pt_f].
      assert (E0 : forall a b : f64, nleb (n := FN) (nadd (n := FN) fnan a) b = false) by reflexivity. rewrite E0.
      assert (E1 : nltb (n := FN) fnan (p_min_step P) = false) by reflexivity. rewrite E1.
      assert (E2 : nltb (n := FN) (p_max_step P) fnan = false) by apply ltb_nan_r. rewrite E2.
      destruct (Z.leb_spec (p_max_linesearch P) (count + 1)).
      - eexists. split; [reflexivity|]. reflexivity.
      - match goal with |- context [owlqn_loop P f fuel 0 p xp s gp wp finit ?a ?b (nmul fnan _) ?k] =>
          destruct (IH a b k finit) as (r & Er & Rr); [lia|lia|] end.
        exists r. split; [exact Er|exact Rr].
    Qed.

    Lemma minimize_nan (x0 : list f64) fuel lsfuel st : length x0 = S p -> nth p x0 fzero = fnan ->
      (0 <= p_m P)%Z -> (1 <= fuel)%nat -> (Z.to_nat (p_max_linesearch P) <= lsfuel)%nat ->
      exists st', minimize P f None fuel lsfuel st x0 = Some (st', Returned (N := FN) x0 (Some LBFGSERR_MAXIMUMLINESEARCH)).
    Proof.
      intros Lx Hx Hm Hfu Hls.
      assert (Hmax : (0 < p_max_linesearch P)%Z).
      { unfold check_params in Hc. repeat match type of Hc with (if ?b then _ else _) = _ => destruct b eqn:?; [discriminate|] end. lia. }
      unfold minimize, lbfgs.
      assert (Hc' : check_params P (Z.of_nat (@length f64 x0)) = inr (0%nat, p)) by (rewrite Lx; exact Hc).
      match goal with |- context [check_params P ?z] => assert (Hc2 : check_params P z = inr (0%nat, p)) by exact Hc'; rewrite Hc2 end.
      assert (Em : (p_m P <? 0)%Z = false) by (apply Z.ltb_ge; exact Hm). rewrite Em. cbv zeta. rewrite Ho.
      destruct (Hf st x0 (repeat fzero (S p)) Lx Hx) as (st1 & g1 & E1 & Lg & Hg).
      assert (Ei : call_eval (N := FN) f st x0 (repeat nzero (@length f64 x0)) = mkPoint (N := FN) st1 x0 g1 fnan).
      { unfold call_eval. rewrite Lx. match goal with |- context [f st x0 ?r] => assert (E1' : f st x0 r = (st1, (x0, g1, Value (N := FN) fnan))) by exact E1; rewrite E1' end. reflexivity. }
      set (s := init_state P f 0 p st (x0 : list FN)).
      set (pg := owlqn_pseudo_gradient (N := FN) x0 g1 (p_c P) 0 p).
      assert (Lp : length pg = S p /\ nth p pg fzero = fnan).
      { unfold pg, owlqn_pseudo_gradient, mapi.
        assert (Lc : length (combine x0 g1) = S p) by (rewrite combine_length, Lx, Lg; apply Nat.min_id).
        split; [rewrite mapi_from_length; exact Lc|].
        rewrite (mapi_from_nth _ (fzero, fzero) fzero) by (match goal with |- (_ < ?l)%nat => assert (Ec : l = S p) by exact Lc; rewrite Ec end; lia). rewrite combine_nth by (transitivity (S p); [exact Lx|symmetry; exact Lg]). cbn [fst snd]. unfold in_range.
        replace (Nat.ltb (0 + p) p) with false by (symmetry; apply Nat.ltb_ge; lia). rewrite andb_false_r. exact Hg. }
      assert (Ex : pt_x (l_pt s) = x0) by exact (f_equal pt_x Ei).
      assert (Eg : l_pg s = pg).
      { unfold s, init_state. cbn [l_pg]. rewrite Ho.
        exact (f_equal (fun q : point FN St => owlqn_pseudo_gradient (pt_x q) (pt_g q) (p_c P) 0 p) Ei). }
      assert (Ed : l_d s = vecncpy (N := FN) pg).
      { unfold s, init_state. cbn [l_d]. rewrite Ho.
        exact (f_equal (fun q : point FN St => vecncpy (owlqn_pseudo_gradient (pt_x q) (pt_g q) (p_c P) 0 p)) Ei). }
      assert (Hd : length (vecncpy (N := FN) pg) = S p /\ nth p (vecncpy (N := FN) pg) fzero = fnan).
      { split; [unfold vecncpy; rewrite map_length; apply Lp|].
        unfold vecncpy. rewrite (nth_indep _ fzero (nopp (n := FN) fzero)) by (rewrite map_length; rr; destruct Lp; lia).
        rewrite map_nth. destruct Lp as [_ E]. change (fopp (nth p pg fzero) = fnan). rewrite E. reflexivity. }
      assert (Es : l_step s = fnan).
      { transitivity (vec2norminv (N := FN) (l_d s)); [unfold s, init_state; cbn [l_step l_d]; reflexivity|].
        rewrite Ed. unfold vec2norminv.
        assert (E : vec2norm (N := FN) (vecncpy (N := FN) pg) = fnan) by (apply norm_in_nan, (nth_in_nan p); apply Hd).
        rewrite E. apply div_nan_r. }
      assert (Ev : converged P (vec2norm (pt_x (l_pt s))) (vec2norm (l_pg s)) = false).
      { unfold converged. rewrite Eg.
        assert (E : vec2norm (N := FN) pg = fnan) by (apply norm_in_nan, (nth_in_nan p); apply Lp).
        rewrite E. reflexivity. }
      rewrite Ev. destruct fuel as [|fuel]; [lia|]. cbn [main_loop]. unfold iterate, run_line_search. rewrite Ho.
      unfold line_search_owlqn. rewrite Es.
      assert (E0 : nleb (n := FN) fnan nzero = false) by reflexivity. rewrite E0. cbv zeta. rewrite Ex, Ed, Eg.
      match goal with |- context [owlqn_loop P f lsfuel 0 p ?xp ?sd ?gp ?wp ?fi ?st0 ?g0 _ 0] =>
        destruct (search_nan xp sd gp wp Hmax Lx (proj1 Hd)) with (fuel := lsfuel) (st := st0) (g := g0) (count := 0%Z) (finit := fi) as (r & Er & Rr) end.
      - apply length_map2n; [exact Lx|apply Lp].
      - exact Hx.
      - lia.
      - rewrite Z.sub_0_r. exact Hls.
      - match goal with |- context [owlqn_loop P f lsfuel 0 p ?xp ?sd ?gp ?wp ?fi ?st0 ?g0 ?sp 0] =>
          assert (Er' : owlqn_loop P f lsfuel 0 p xp sd gp wp fi st0 g0 sp 0 = Some r) by exact Er; rewrite Er' end.
        rewrite Rr. exists (pt_st (s_pt r)). reflexivity.
    Qed.
  End Run.

  (** ** The Poisson loss *)
  Hypothesis Hexp : exp64 fnan = fnan.

  Lemma map_nan (h : f64 -> f64) k : h fnan = fnan -> map h (nans k) = nans k.
  Proof. intros H. unfold nans. induction k as [|k IH]; [reflexivity|]. cbn [repeat map]. rewrite H, IH. reflexivity. Qed.
  Lemma map2_nan_r (h : f64 -> f64 -> f64) k : (forall a, h a fnan = fnan) -> forall l, length l = k -> map2 h l (nans k) = nans k.
  Proof.
    intros H. induction k as [|k IH]; intros [|a l] L; try discriminate; [reflexivity|].
    cbn [nans repeat map2]. rewrite H. f_equal. apply IH. now injection L.
  Qed.
  Lemma eta_nan (l : list f64) : map (fadd fnan) l = nans (length l).
  Proof. induction l as [|a l IH]; [reflexivity|]. cbn [map length nans repeat]. f_equal. exact IH. Qed.
  Lemma last_nth (x : list f64) p : length x = S p -> last x fzero = nth p x fzero.
  Proof.
    intros L. destruct (exists_last (l := x)) as (l & a & ->); [intros ->; discriminate|].
    rewrite app_length in L. cbn in L. rewrite last_last, app_nth2 by lia. replace (p - length l) with 0 by lia. reflexivity.
  Qed.

  Lemma loss_nan n p (X : list (list f64)) (y : list f64) l2 (sw : option (list f64)) (x : list f64) : length X = S n -> length y = S n ->
    match sw with Some s => length s = S n | None => True end ->
    length x = S p -> nth p x fzero = fnan ->
    exists g, poisson_loss_and_grad (N := FN) p X y l2 sw x = (fnan, g) /\ length g = S p /\ nth p g fzero = fnan.
  Proof.
    intros LX Ly Ls Lx Hx. unfold poisson_loss_and_grad. cbv zeta. rr.
    assert (Eh : Nat.ltb p (@length f64 x) = true) by (rewrite Lx; apply Nat.ltb_lt; lia).
    match goal with |- context [Nat.ltb p ?l] => assert (Eh' : Nat.ltb p l = true) by exact Eh; rewrite Eh' end. cbv iota.
    assert (Eb : last x fzero = fnan) by (rewrite (last_nth x p Lx); exact Hx).
    match goal with |- context [@last ?T x ?z] => assert (Eb' : @last T x z = fnan) by exact Eb; rewrite Eb' end.
    match goal with |- context [map ?h (matvec (N := ?N0) X ?c)] => assert (Ee : map h (matvec (N := N0) X c) = nans (S n)) end.
    { etransitivity; [exact (eta_nan _)|]. unfold matvec. rewrite map_length. exact (f_equal nans LX). }
    rewrite Ee.
    match goal with |- context [map2 (@nmul ?N0) ?w0 (map2 _ (map2 _ y _) _)] => set (w := w0) end.
    assert (Lw : @length f64 w = S n) by (unfold w; destruct sw; [exact Ls|unfold ones; rewrite repeat_length; exact LX]).
    assert (E1 : map2 (nmul (n := FN)) y (nans (S n)) = nans (S n)) by (apply (map2_nan_r fmul); [apply mul_nan_r|exact Ly]).
    assert (E2 : map (nexp (n := FN)) (nans (S n)) = nans (S n)) by (apply (map_nan exp64); exact Hexp).
    assert (E3 : map2 (nsub (n := FN)) (nans (S n)) (nans (S n)) = nans (S n)) by (apply (map2_nan_r fsub); [apply sub_nan_r|apply repeat_length]).
    assert (E4 : map2 (nmul (n := FN)) w (nans (S n)) = nans (S n)) by (apply (map2_nan_r fmul); [apply mul_nan_r|exact Lw]).
    assert (E5 : map2 (nsub (n := FN)) y (nans (S n)) = nans (S n)) by (apply (map2_nan_r fsub); [apply sub_nan_r|exact Ly]).
    rewrite E1, E2, E3, E5. rr. rewrite E4.
    eexists. split; [reflexivity|].
    match goal with |- length (?a ++ ?b) = _ /\ _ => set (ga := a); set (gb := b) end.
    assert (La : length ga = p).
    { unfold ga. apply length_map2n; rewrite map_length; [unfold tmatvec; rewrite map_length, seq_length; reflexivity|].
      rewrite firstn_length. match goal with |- Nat.min p ?l = p => assert (L : l = S p) by exact Lx; rewrite L end. lia. }
    split.
    - rewrite app_length, La. unfold gb. cbn. lia.
    - rewrite app_nth2 by (rewrite La; lia). rewrite La, Nat.sub_diag. reflexivity.
  Qed.

  (** ** The fit *)
  Section Fit.
    Variables (p : nat) (tol : f64) (mi fuel lsfuel : nat).
    Hypothesis Htol : fltb tol fzero = false.
    Hypothesis Hfuel : 1 <= fuel.
    Hypothesis Hls : 20 <= lsfuel.
    Notation opt := (lbfgs_opt (N := FN) false tol mi fuel lsfuel).

    Lemma opt_nan n (X : list (list f64)) (y : list f64) l2 (sw : option (list f64)) (l1 : f64) (x : list f64) :
      length X = S n -> length y = S n -> match sw with Some s => length s = S n | None => True end ->
      length x = S p -> nth p x fzero = fnan -> fltb fzero l1 = true ->
      opt (poisson_loss_and_grad (N := FN) p X y l2 sw) x l1 p = Ok x.
    Proof.
      intros LX Ly Ls Lx Hx Hl. unfold lbfgs_opt, fmin_lbfgs.
      set (O := poisson_options (N := FN) tol mi l1 p).
      assert (E1 : nleb (n := FN) nzero (o_c O) = true).
      { change (fleb fzero l1 = true). clear - Hl. destruct l1 as [[]|[]| |[]]; try discriminate; reflexivity. }
      rewrite E1. cbn [negb].
      assert (E2 : choose_line_search O = ("wolfe"%string, false)).
      { unfold choose_line_search. assert (E : nltb (n := FN) nzero (o_c O) = true) by exact Hl. rewrite E. reflexivity. }
      rewrite E2. cbn [fst]. change (line_search_algo "wolfe") with (Some Wolfe).
      set (P := to_params O Wolfe).
      assert (Ho : owl P = true).
      { change (negb (feqb l1 fzero) = true). clear - Hl. destruct l1 as [[]|[]| |[]]; try discriminate; reflexivity. }
      assert (Hc : check_params P (Z.of_nat (S p)) = inr (0, p)).
      { unfold check_params. cbv zeta. rewrite Ho.
        assert (T : nltb (n := FN) (p_epsilon P) nzero = false) by exact Htol. rewrite T.
        assert (T1 : nltb (n := FN) (p_c P) nzero = false).
        { change (fltb l1 fzero = false). clear - Hl. destruct l1 as [[]|[]| |[]]; try discriminate; reflexivity. }
        rewrite T1. change (p_end P) with (Z.of_nat p). change (p_start P) with 0%Z. change (p_past P <? 0)%Z with false.
        change (p_max_linesearch P <=? 0)%Z with false. change (p_linesearch P) with Wolfe.
        replace (Z.of_nat p <? 0)%Z with false by (symmetry; apply Z.ltb_ge; lia).
        replace (Z.of_nat (S p) <=? 0)%Z with false by (symmetry; apply Z.leb_gt; lia).
        replace (Z.of_nat (S p) <? 0)%Z with false by (symmetry; apply Z.ltb_ge; lia).
        replace (Z.of_nat (S p) <? Z.of_nat p)%Z with false by (symmetry; apply Z.ltb_ge; lia).
        repeat match goal with |- context [if nltb ?a ?b then _ else _] => replace (nltb a b) with false by (vm_compute; reflexivity) end.
        repeat match goal with |- context [nleb ?a ?b] => replace (nleb a b) with false by (vm_compute; reflexivity) end.
        cbn [andb orb Z.ltb Z.compare]. rewrite Nat2Z.id. reflexivity. }
      destruct (minimize_nan p (poisson_objective (N := FN) (St := unit) (poisson_loss_and_grad (N := FN) p X y l2 sw)) P) with (x0 := x) (fuel := fuel) (lsfuel := lsfuel) (st := tt) as (st' & E).
      - intros st x' g Lx' Hx'. destruct (loss_nan n p X y l2 sw x' LX Ly Ls Lx' Hx') as (g' & E & Lg & Hg).
        exists st, g'. split; [|split; [exact Lg|exact Hg]]. unfold poisson_objective. rewrite E. reflexivity.
      - exact Hc.
      - exact Ho.
      - exact Lx.
      - exact Hx.
      - cbn. lia.
      - exact Hfuel.
      - exact Hls.
      - match goal with |- context [minimize ?P0 ?a ?b ?c ?d ?e ?g] => assert (E' : minimize P0 a b c d e g = Some (st', Returned (N := FN) x (Some LBFGSERR_MAXIMUMLINESEARCH))) by exact E; rewrite E' end.
        reflexivity.
    Qed.

    (** The states of a contaminated object. *)
    Definition contaminated (o : poisson FN) : Prop :=
      exists v : list f64, coef_ o = Some v /\ length v = p /\ Forall (fun a => feqb a fzero = true) v /\ intercept_ o = Some fnan.

    Definition ordinary_fit (c : config FN) (X : list (list f64)) (y : list f64) (sw : option (list f64)) : Prop :=
      warm_start c = true /\ fit_intercept c = true /\ standardize c = false /\ fltb fzero (fmul (alpha c) (l1_ratio c)) = true /\
      (exists n, length X = S n /\ length y = S n /\ match sw with Some s => length s = S n | None => True end) /\
      constant_response (N := FN) y = false.

    Lemma fit_contaminated c X y sw o : ordinary_fit c X y sw -> contaminated o ->
      poisson_fit c Lbfgs opt p X y sw o = (o, Ok tt).
    Proof.
      intros (Hw & Hi & Hs & Hl & (n & LX & Ly & Ls) & Hy) (v & Ev & Lv & Zv & Eb).
      unfold poisson_fit. cbv zeta. rewrite Hy, Hs, Hi.
      unfold start_coef, start_intercept. rewrite Ev, Eb, Hw, Hs, Hi. cbn [andb].
      assert (Et : forall s (X : list (list f64)), map (centering_transform (N := FN) false s) X = X).
      { intros s Y. unfold centering_transform. apply map_id. }
      assert (Eo : opt (poisson_loss_and_grad (N := FN) p X y (nmul (alpha c) (nsub none (l1_ratio c))) sw) (v ++ [fnan]) (nmul (alpha c) (l1_ratio c)) p = Ok (v ++ [fnan])).
      { apply (opt_nan n); try assumption; [rewrite app_length; cbn; lia|]. rewrite app_nth2 by lia. rewrite Lv, Nat.sub_diag. reflexivity. }
      rewrite Et.
      match goal with |- context [lbfgs_opt (N := ?N0) ?w ?a ?b ?d ?e ?f ?g ?h ?i] => assert (Eo' : lbfgs_opt (N := N0) w a b d e f g h i = Ok (v ++ [fnan])) by exact Eo; rewrite Eo' end.
      cbn [bind]. unfold poisson_post. cbv iota.
      rewrite last_last. rewrite <- Lv, firstn_app, Nat.sub_diag, firstn_all. cbn [firstn]. rewrite app_nil_r.
      cbn [fst snd]. f_equal. destruct o. cbn in *. now rewrite Ev, Eb.
    Qed.
    Definition ordinary_call (k : call (N := FN)) : Prop :=
      match k with CallFit c X y sw => ordinary_fit c X y sw | CallReset => True end.

    Lemma call_contaminated k o : ordinary_call k -> contaminated o -> contaminated (fst (run_call Lbfgs opt p k o)).
    Proof.
      destruct k as [c X y sw|]; intros Hk Ho.
      - unfold run_call. rewrite (fit_contaminated c X y sw o Hk Ho). exact Ho.
      - destruct Ho as (v & Ev & Lv & Zv & Eb). exists (map (fun a => fmul a fzero) v). cbn [run_call fst].
        unfold reset_poisson. rewrite Ev, Eb. cbn [coef_ intercept_ option_map]. split; [reflexivity|].
        split; [now rewrite map_length|]. split; [|reflexivity].
        clear - Zv. induction Zv as [|a v Ha _ IH]; constructor; [|exact IH].
        destruct a as [[]|[]| |[]]; try discriminate; reflexivity.
    Qed.

    Lemma calls_contaminated h o : Forall ordinary_call h -> contaminated o -> contaminated (calls Lbfgs opt p h o).
    Proof.
      intros Hh. revert o. induction Hh as [|k h Hk _ IH]; intros o Ho; [exact Ho|].
      cbn [calls fold_left]. apply IH. now apply call_contaminated.
    Qed.

    Lemma zero_counts_contaminate pre c X n sw h o : Forall ordinary_call h ->
      contaminated (calls Lbfgs opt p (pre ++ CallFit (N := FN) c X (repeat fzero (S n)) sw :: CallReset :: h) o).
    Proof.
      intros Hh. unfold calls. rewrite fold_left_app. cbn [fold_left].
      set (o1 := fold_left _ pre o). apply (calls_contaminated h); [exact Hh|].
      assert (Ec : constant_response (N := FN) (repeat fzero (S n)) = true).
      { unfold constant_response. cbn [repeat]. apply forallb_forall. intros a Ha. apply repeat_spec in Ha. subst a. reflexivity. }
      assert (El : log_mean (N := FN) (repeat fzero (S n)) = fninf).
      { unfold log_mean. assert (E : nany (N := FN) (repeat fzero (S n)) = false).
        { clear. generalize (S n). intros m. induction m as [|m IH]; [reflexivity|]. exact IH. }
        rewrite E. reflexivity. }
      unfold run_call at 2. cbn [fst]. unfold poisson_fit. cbv zeta.
      match goal with |- context [constant_response (N := ?N0) ?l] => assert (Ec' : constant_response (N := N0) l = true) by exact Ec; rewrite Ec' end.
      match goal with |- context [log_mean (N := ?N0) ?l] => assert (El' : log_mean (N := N0) l = fninf) by exact El; rewrite El' end.
      cbn [fst run_call]. unfold reset_poisson. cbn [coef_ intercept_ option_map].
      exists (repeat fzero p). split.
      - cbn [coef_]. f_equal. clear. induction p as [|m IH]; [reflexivity|]. cbn [repeat map]. f_equal. exact IH.
      - split; [apply repeat_length|]. split; [|reflexivity].
        clear. induction p as [|m IH]; constructor; [reflexivity|exact IH].
    Qed.
  End Fit.
End NanStart.
