(** Objectives with NaN values: the optimizer in binary64 arithmetic. *)
From Coq Require Import String ZArith List Bool Arith Lia Floats.SpecFloat.
From Verif Require Import Prelude F64 Num Model_Lbfgs Spec_Lbfgs Proofs_Lbfgs Proofs_LbfgsTrace Proofs_LbfgsVec Proofs_LbfgsDir.
Import ListNotations.

Section Nan.
  Variables exp64 ln64 : f64 -> f64.
  Notation FN := (Fnum exp64 ln64).

  Lemma add_nan_r x : fadd x fnan = fnan.
  Proof. destruct x as [[]|[]| |[]]; reflexivity. Qed.
  Lemma mul_nan_r x : fmul x fnan = fnan.
  Proof. destruct x as [[]|[]| |[]]; reflexivity. Qed.
  Lemma leb_nan_r x : fleb x fnan = false.
  Proof. destruct x as [[]|[]| |[]]; reflexivity. Qed.
  Lemma ltb_nan_r x : fltb x fnan = false.
  Proof. destruct x as [[]|[]| |[]]; reflexivity. Qed.

  Definition nans (k : nat) : list f64 := repeat fnan k.

  Lemma vecadd_nan_l k (v : list FN) c : length v = k -> vecadd (N := FN) (nans k) v c = nans k.
  Proof.
    revert v. induction k as [|k IH]; intros [|a v] H; try discriminate; [reflexivity|].
    injection H as H. cbn [nans repeat vecadd map2] in *. f_equal. apply IH. exact H.
  Qed.
  Lemma vecadd_nan_r k (v : list FN) c : length v = k -> vecadd (N := FN) v (nans k) c = nans k.
  Proof.
    revert v. induction k as [|k IH]; intros [|a v] H; try discriminate; [reflexivity|].
    injection H as H. cbn [nans repeat vecadd map2] in *. f_equal; [|apply IH; exact H].
    change (fadd a (fmul c fnan) = fnan). now rewrite mul_nan_r, add_nan_r.
  Qed.
  Lemma vecscale_nan k c : vecscale (N := FN) (nans k) c = nans k.
  Proof. induction k as [|k IH]; [reflexivity|]. cbn [nans repeat vecscale map] in *. f_equal. exact IH. Qed.
  Lemma vecncpy_nan k : vecncpy (N := FN) (nans k) = nans k.
  Proof. induction k as [|k IH]; [reflexivity|]. cbn [nans repeat vecncpy map] in *. f_equal. exact IH. Qed.
  Lemma fold_nan (l : list (f64 * f64)) : fold_left (fun s p => fadd s (fmul (fst p) (snd p))) l fnan = fnan.
  Proof. induction l as [|a l IH]; [reflexivity|]. cbn [fold_left]. exact IH. Qed.
  Lemma vecdot_nan_l k (v : list FN) : length v = S k -> vecdot (N := FN) (nans (S k)) v = fnan.
  Proof.
    destruct v as [|a v]; [discriminate|]. intros _. unfold vecdot. cbn [nans repeat combine fold_left fst snd].
    exact (fold_nan (combine (repeat fnan k) v)).
  Qed.
  Lemma vec2norm_nan k : vec2norm (N := FN) (nans (S k)) = fnan.
  Proof. unfold vec2norm. rewrite vecdot_nan_l by (apply repeat_length). reflexivity. Qed.

  Lemma two_loop_nan k gamma : forall pairs, Forall (fun p => length (fst p) = k /\ length (snd p) = k) pairs ->
    two_loop (N := FN) pairs gamma (nans k) = nans k.
  Proof.
    induction 1 as [|[s y] l [H1 H2] HF IH]; [apply vecscale_nan|]. cbn [two_loop]. cbv zeta. cbn [fst snd] in *.
    rewrite (vecadd_nan_l k y) by exact H2. rewrite IH. now apply vecadd_nan_l.
  Qed.

  Lemma map2_len {A B C} (h : A -> B -> C) k : forall a b, length a = k -> length b = k -> length (map2 h a b) = k.
  Proof. induction k as [|k IH]; intros [|x a] [|y b] H1 H2; try discriminate; [reflexivity|]. cbn in *. f_equal. apply IH; lia. Qed.

  Lemma differences_lengths k (t : list (list FN * list FN)) : Forall (fun p => length (fst p) = k /\ length (snd p) = k) t ->
    Forall (fun p => length (fst p) = k /\ length (snd p) = k) (differences t).
  Proof.
    induction 1 as [|[x1 g1] t [H1 H2] HF IH]; [constructor|]. destruct HF as [|[x0 g0] t [H3 H4] HF]; [constructor|].
    change (differences ((x1, g1) :: (x0, g0) :: t)) with ((vecdiff x1 x0, vecdiff g1 g0) :: differences ((x0, g0) :: t)).
    constructor; [|exact IH]. cbn [fst snd] in *. unfold vecdiff.
    split; apply map2_len; assumption.
  Qed.

  Section Forever.
    Context {St : Type}.
    Variables (k : nat) (f : objective FN St) (progress : option (observer FN St)) (sname : string) (alg : algorithm).
    Hypothesis Hprog : never_stops progress.
    Hypothesis Halg : alg = Armijo /\ sname = "armijo"%string \/ alg = Wolfe /\ sname = "wolfe"%string \/
                      alg = StrongWolfe /\ sname = "strongwolfe"%string.
    Let n := S k.
    Let O := default_options (N := FN) nzero sname.
    Let P := to_params O alg.
    Definition nan_at (x : list f64) : Prop := forall st g, snd (f st x g) = (x, nans (length x), Value (N := FN) fnan).
    Hypothesis Hnan : nan_at (nans n).

    Lemma nan_check : check_params P (Z.of_nat n) = inr (0%nat, n).
    Proof.
      assert (K : forall z, (0 < z)%Z -> check_params P z = inr (0%nat, Z.to_nat z)).
      { intros z Hz. unfold check_params. cbv zeta.
        assert (E1 : (z <=? 0)%Z = false) by (apply Z.leb_gt; lia).
        assert (E2 : (z <? 0)%Z = false) by (apply Z.ltb_ge; lia).
        assert (E3 : (z <? z)%Z = false) by (apply Z.ltb_irrefl).
        change (p_end P <? 0)%Z with true. change (p_past P <? 0)%Z with false. change (p_max_linesearch P <=? 0)%Z with false.
        change (p_start P) with 0%Z. cbv iota. rewrite E1, E2, E3. change (0 <? 0)%Z with false. cbn [orb].
        unfold P, O.
        destruct Halg as [[-> _]|[[-> _]|[-> _]]]; cbn [to_params p_linesearch];
          repeat match goal with |- context [if nltb ?a ?b then _ else _] => replace (nltb a b) with false by (vm_compute; reflexivity) end;
          repeat match goal with |- context [nleb ?a ?b] => replace (nleb a b) with false by (vm_compute; reflexivity) end;
          cbn [andb orb]; rewrite ?andb_false_r; reflexivity. }
      rewrite K by (unfold n; lia). f_equal. f_equal. apply Nat2Z.id.
    Qed.
    Lemma nan_owl : owl P = false.
    Proof. reflexivity. Qed.

    (** All variants of backtracking accept a trial point with NaN value and gradient. *)
    Lemma nan_search fuel (s : state FN St) (r : search FN St) : nleb (n := FN) (l_step s) nzero = false -> nltb (n := FN) nzero (vecdot (pt_g (l_pt s)) (l_d s)) = false ->
      length (l_d s) = n -> length (vecadd (N := FN) (pt_x (l_pt s)) (l_d s) (l_step s)) = n ->
      nan_at (vecadd (N := FN) (pt_x (l_pt s)) (l_d s) (l_step s)) ->
      run_line_search P f fuel 0 n s = Some r ->
      pt_x (s_pt r) = vecadd (N := FN) (pt_x (l_pt s)) (l_d s) (l_step s) /\ pt_g (s_pt r) = nans n /\ s_ret r = 1%Z.
    Proof.
      intros H1 H2 Hd Hl Hx H. unfold run_line_search in H. rewrite nan_owl in H.
      assert (H' : line_search_backtracking P f fuel (l_pt s) (l_d s) (l_step s) = Some r).
      { destruct Halg as [[E _]|[[E _]|[E _]]]; unfold P in H |- *; rewrite E in H |- *; exact H. }
      clear H. unfold line_search_backtracking in H'. rewrite H1 in H'. cbv zeta in H'. rewrite H2 in H'.
      destruct fuel as [|fuel]; [discriminate|]. cbn [backtracking_loop] in H'. cbv zeta in H'.
      set (x1 := vecadd (pt_x (l_pt s)) (l_d s) (l_step s)) in *. specialize (Hx (pt_st (l_pt s)) (pt_g (l_pt s))).
      unfold call_eval in H'. rewrite Hx in H'. cbn [fst snd pt_st pt_x pt_g pt_f] in H'.
      assert (Hl' : @length f64 x1 = n) by exact Hl. rewrite Hl' in H'.
      assert (Ed : vecdot (N := FN) (nans n) (l_d s) = fnan) by (apply vecdot_nan_l; exact Hd).
      rewrite Ed in H'.
      assert (En : forall a : FN, nltb (n := FN) a fnan = false) by (intros a; apply ltb_nan_r).
      assert (En' : forall a : FN, nltb (n := FN) fnan a = false) by (intros a; destruct a; reflexivity).
      destruct Halg as [[E _]|[[E _]|[E _]]]; unfold P in H'; rewrite E in H'; cbn [to_params p_linesearch] in H';
        rewrite ?En, ?En' in H'; injection H' as <-; cbn [s_pt s_ret pt_x pt_g]; auto.
    Qed.

    (** The state after such a step. *)
    Record lost (s : state FN St) (t : list (list FN * list FN)) : Prop := mkLost {
      lo_hist : hist O alg 0 n s t;
      lo_len : Forall (fun p => length (fst p) = n /\ length (snd p) = n) t;
      lo_g : pt_g (l_pt s) = nans n;
      lo_step : l_step s = none
    }.

    Lemma lost_d s t : lost s t -> l_d s = nans n.
    Proof.
      intros [Hh Hl Hg _]. rewrite (h_d _ _ _ _ _ _ Hh), Hg. unfold dir_of. fold P. rewrite nan_owl, vecncpy_nan.
      assert (HF : Forall (fun p => length (fst p) = n /\ length (snd p) = n) (firstn (Z.to_nat (o_m O)) (differences t))).
      { apply Forall_forall. intros p Hp. pose proof (differences_lengths n t Hl) as D. rewrite Forall_forall in D. apply D.
        rewrite <- (firstn_skipn (Z.to_nat (o_m O)) (differences t)). apply in_or_app. now left. }
      destruct (firstn (Z.to_nat (o_m O)) (differences t)) as [|[a y] r]; [reflexivity|]. cbn [bfgs_direction]. now apply two_loop_nan.
    Qed.

    (** A step to a point with NaN gradient goes on. *)
    Lemma nan_after (s : state FN St) t (r : search FN St) : hist O alg 0 n s t -> Forall (fun p => length (fst p) = n /\ length (snd p) = n) t ->
      length (pt_x (s_pt r)) = n -> pt_g (s_pt r) = nans n ->
      exists s', after_step P progress 0 n s r = Next s' /\ exists t', lost s' t'.
    Proof.
      intros Hh Ht Hx Hg. unfold after_step. rewrite nan_owl. cbv zeta. rewrite Hg.
      assert (Ev : vec2norm (N := FN) (nans n) = fnan) by exact (vec2norm_nan k). rewrite Ev.
      match goal with |- context [call_progress progress ?a ?q] =>
        assert (E0 : snd (call_progress progress a q) = 0%Z);
        [unfold call_progress; destruct progress as [h|]; [|reflexivity]; cbn [snd]; specialize (Hprog h a q eq_refl);
         destruct (snd (h a q)); congruence|]; set (st1 := fst (call_progress progress a q)) end.
      rewrite E0. cbn [Z.eqb negb].
      match goal with |- context [converged P ?a ?b] => assert (Ec : converged P a b = false) by reflexivity; rewrite Ec end.
      change (Z.to_nat (p_past P)) with 0%nat. cbn [Nat.ltb Nat.leb andb].
      change (p_max_iterations P =? 0)%Z with true. cbn [negb andb]. change (Nat.eqb (Z.to_nat (p_m P)) 0) with false. cbv iota.
      eexists. split; [reflexivity|]. exists ((pt_x (s_pt r), nans n) :: t).
      constructor.
      - apply (next_hist O alg n 0 n eq_refl eq_refl s t (mkPoint st1 (pt_x (s_pt r)) (nans n) (pt_f (s_pt r))) (l_pg s)); auto.
        + change (Z.to_nat (o_m O)) with 10%nat. lia.
        + intros C. change (owl P = true) in C. rewrite nan_owl in C. discriminate.
      - constructor; [|exact Ht]. cbn [fst snd]. split; [exact Hx|apply repeat_length].
      - reflexivity.
      - reflexivity.
    Qed.

    Lemma lost_forever s t l en : lost s t -> ~ run P f progress 0 n s l en.
    Proof.
      intros Hs H. revert t Hs.
      assert (Acc : forall fuel s t r, lost s t -> run_line_search P f fuel 0 n s = Some r ->
        pt_x (s_pt r) = nans n /\ pt_g (s_pt r) = nans n /\ s_ret r = 1%Z).
      { intros fuel s0 t r Hs E. pose proof (lost_d s0 t Hs) as Ed. destruct Hs as [Hh Hl Hg Hst].
        destruct (h_top _ _ _ _ _ _ Hh) as [older Ht]. rewrite Ht in Hl. apply Forall_inv in Hl. cbn [fst snd] in Hl. destruct Hl as [Hx0 _].
        assert (Ex : vecadd (N := FN) (pt_x (l_pt s0)) (l_d s0) (l_step s0) = nans n) by (rewrite Ed; apply vecadd_nan_r; exact Hx0).
        assert (K := nan_search fuel s0 r). rewrite Ex in K. apply K; auto.
        - rewrite Hst. reflexivity.
        - rewrite Hg. assert (Ev : vecdot (N := FN) (nans n) (l_d s0) = fnan) by (apply vecdot_nan_l; rewrite Ed; apply repeat_length).
          rewrite Ev. reflexivity.
        - rewrite Ed. apply repeat_length.
        - apply repeat_length. }
      induction H as [fuel s r E Hr | fuel s r en E Hr Ea | fuel s r s' l en E Hr Ea H IH]; intros t Hs.
      - destruct (Acc fuel s t r Hs E) as (_ & _ & A). rewrite A in Hr. discriminate.
      - destruct (Acc fuel s t r Hs E) as (A1 & A2 & _).
        destruct (nan_after s t r (lo_hist _ _ Hs) (lo_len _ _ Hs)) as (s' & Es & _); [rewrite A1; apply repeat_length|exact A2|congruence].
      - destruct (Acc fuel s t r Hs E) as (A1 & A2 & _).
        destruct (nan_after s t r (lo_hist _ _ Hs) (lo_len _ _ Hs)) as (s1 & Es & t1 & Ht1); [rewrite A1; apply repeat_length|exact A2|].
        apply (IH t1). assert (s' = s1) by congruence. subst. exact Ht1.
    Qed.

    Lemma nan_runs_forever fuel lsfuel st (x0 g0 : list FN) v0 st0 : length x0 = n -> length g0 = n ->
      f st x0 (repeat nzero n) = (st0, (x0, g0, Value v0)) ->
      let norm := vec2norm g0 in
      let x1 := vecadd x0 (vecncpy g0) (vec2norminv (vecncpy g0)) in
      nleb (ndiv norm (if nltb (vec2norm x0) none then none else vec2norm x0)) (ndiv none (nofZ 100000)) = false ->
      nleb (n := FN) (vec2norminv (vecncpy g0)) nzero = false -> nltb (n := FN) nzero (vecdot g0 (vecncpy g0)) = false ->
      nan_at x1 ->
      fmin_lbfgs O f progress fuel lsfuel st x0 = None.
    Proof.
      cbv zeta. intros Hx Hg E0 Hc Hs Hdg Hx1. destruct (fmin_lbfgs O f progress fuel lsfuel st x0) as [[st' out]|] eqn:E; [|reflexivity]. exfalso.
      unfold fmin_lbfgs in E. 
      assert (Ec : nleb (n := FN) nzero (o_c O) = true) by reflexivity. rewrite Ec in E. cbn [negb] in E.
      assert (Ea : line_search_algo (fst (choose_line_search O)) = Some alg).
      { destruct Halg as [[-> Es]|[[-> Es]|[-> Es]]]; unfold O; rewrite Es; reflexivity. }
      rewrite Ea in E. fold P in E. apply minimize_start in E. rewrite Hx in E.
      destruct E as [(code & Ec' & _)|(b & e & Hck & E)]; [rewrite nan_check in Ec'; discriminate|].
      assert (Hbe : (b, e) = (0%nat, n)).
      { apply check_ok in Hck. rewrite nan_check in Hck. congruence. }
      injection Hbe as -> ->. destruct E as [(C & _)|(_ & E)]; [discriminate|]. cbv zeta in E.
      set (s := init_state P f 0 n st x0) in *.
      assert (Ept : l_pt s = mkPoint st0 x0 g0 v0).
      { unfold s, init_state. cbv zeta. rewrite nan_owl. cbn [l_pt]. unfold call_eval. rewrite Hx, E0. reflexivity. }
      assert (Ed : l_d s = vecncpy g0).
      { unfold s, init_state. cbv zeta. rewrite nan_owl. cbn [l_d]. unfold call_eval. rewrite Hx, E0. reflexivity. }
      assert (Est : l_step s = vec2norminv (vecncpy g0)).
      { unfold s, init_state. cbv zeta. rewrite nan_owl. cbn [l_step]. unfold call_eval. rewrite Hx, E0. reflexivity. }
      rewrite nan_owl, Ept in E. cbn [pt_x pt_g pt_st] in E.
      destruct E as [(C & _)|(_ & l & en & Hr & _)].
      { unfold converged in C. change (p_epsilon P) with (ndiv (n := FN) none (nofZ 100000)) in C. rewrite Hc in C. discriminate. }
      assert (Hh : hist O alg 0 n s [(x0, g0)]).
      { pose proof (init_hist O alg f 0 n st x0) as I0. cbv zeta in I0. fold P s in I0. rewrite Ept in I0. exact I0. }
      assert (Ht : Forall (fun p => length (fst p) = n /\ length (snd p) = n) [(x0, g0)]) by (constructor; [split; assumption|constructor]).
      assert (Acc : forall fuel r, run_line_search P f fuel 0 n s = Some r -> length (pt_x (s_pt r)) = n /\ pt_g (s_pt r) = nans n /\ s_ret r = 1%Z).
      { intros fuel0 r E. pose proof (nan_search fuel0 s r) as K. rewrite Ept, Ed, Est in K. cbn [pt_x pt_g] in K.
        assert (Hdl : length (vecncpy g0) = n) by (unfold vecncpy; rewrite map_length; exact Hg).
        assert (Hxl : length (vecadd x0 (vecncpy g0) (vec2norminv (vecncpy g0))) = n) by (apply map2_len; assumption).
        destruct (K Hs Hdg Hdl Hxl Hx1 E) as (K1 & K2 & K3). rewrite K1. auto. }
      inversion Hr as [fuel0 s0 r E Hr0 | fuel0 s0 r en0 E Hr0 Ea0 | fuel0 s0 r s' l0 en0 E Hr0 Ea0 H]; subst.
      - destruct (Acc _ _ E) as (_ & _ & A). rewrite A in Hr0. discriminate.
      - destruct (Acc _ _ E) as (A1 & A2 & _). destruct (nan_after s _ r Hh Ht A1 A2) as (s' & Es & _). congruence.
      - destruct (Acc _ _ E) as (A1 & A2 & _). destruct (nan_after s _ r Hh Ht A1 A2) as (s1 & Es & t1 & Ht1).
        assert (s' = s1) by congruence. subst s'. exact (lost_forever s1 t1 l0 en Ht1 H).
    Qed.
  End Forever.
End Nan.

(** OWL-QN and More-Thuente never accept a NaN value. *)
Section Reject.
  Variables exp64 ln64 : f64 -> f64.
  Notation FN := (Fnum exp64 ln64).
  Context {St : Type}.

  Lemma nan_leb (x y : f64) : fleb x y = true -> x <> fnan.
  Proof. intros H ->. destruct y; discriminate. Qed.

  Lemma run_not_nan (P : params FN) (f : objective FN (St * list (report FN))) progress b e s l en :
    (0 < p_max_linesearch P)%Z -> owl P = true \/ p_linesearch P = MoreThuente ->
    run P f progress b e s l en -> Forall (fun r : search FN _ => pt_f (s_pt r) <> fnan) l.
  Proof.
    intros HM Hm H.
    assert (K : forall fuel s r, run_line_search P f fuel b e s = Some r -> (0 <= s_ret r)%Z -> pt_f (s_pt r) <> fnan).
    { intros fuel s0 r E Hr. apply search_end in E; [|exact HM]. destruct E as (k & _ & _ & [E|(_ & _ & E)]); [lia|].
      unfold accepted in E. cbv zeta in E. destruct E as [_ E]. destruct (owl P).
      - destruct E as [_ E]. unfold owl_ok in E. exact (nan_leb _ _ E).
      - destruct Hm as [Hm|Hm]; [discriminate|]. rewrite Hm in E. destruct E as (_ & _ & E & _). exact (nan_leb _ _ E). }
    induction H as [fuel s r E Hr | fuel s r en E Hr Ea | fuel s r s' l en E Hr Ea H IH]; [constructor|constructor; [|constructor]|constructor; [|exact IH]]; eauto.
  Qed.

  Lemma reported_not_nan (O : options FN) (f : objective FN St) progress fuel lsfuel st x0 st' log out :
    nleb (n := FN) (o_c O) nzero = false \/ o_line_search O = "default"%string \/ o_line_search O = "morethuente"%string ->
    recorded O f progress fuel lsfuel st x0 = Some (st', log, out) -> Forall (fun q : report FN => r_fx q <> fnan) log.
  Proof.
    intros Hm H. unfold recorded, fmin_lbfgs in H. destruct (negb (nleb nzero (o_c O))) eqn:E0; [injection H as _ <- _; constructor|].
    destruct (line_search_algo (fst (choose_line_search O))) as [alg|] eqn:Ea; [|injection H as _ <- _; constructor].
    apply minimize_cases in H. destruct H as [(code & _ & H & _)|(b & e & Hck & H)]; [injection H as _ ->; constructor|].
    destruct H as [(_ & H & _)|(Hm' & H)]; [injection H as _ ->; constructor|]. cbv zeta in H.
    set (P := to_params O alg) in *. set (s := init_state P (keep_log f) b e (st, []) x0) in *.
    assert (Es : snd (pt_st (l_pt s)) = []) by reflexivity.
    destruct H as [(_ & H & _)|(l & en & Hr & H & Ho)]; [rewrite <- H in Es; cbn [snd] in Es; subst; constructor|].
    pose proof (ck_ls _ _ _ _ Hck) as HM.
    destruct (run_log P f progress b e s l en HM Hr) as (reps & R1 & R2 & R3).
    rewrite Es in R1. cbn [app] in R1. rewrite <- H in R1. cbn [snd] in R1. subst reps.
    assert (Hp : owl P = true \/ p_linesearch P = MoreThuente).
    { unfold owl. change (p_c P) with (o_c O). unfold nnonzero. destruct (neqb (o_c O) nzero) eqn:En; [|left; reflexivity]. right.
      assert (Ec : nltb (n := FN) nzero (o_c O) = false).
      { clear - En. revert En. generalize (o_c O). intros c. change (feqb c (f64_of_Z 0) = true -> fltb (f64_of_Z 0) c = false).
        destruct c as [[]|[]| |[]]; cbn; congruence. }
      assert (Ec' : nleb (n := FN) (o_c O) nzero = true).
      { clear - En. revert En. generalize (o_c O). intros c. change (feqb c (f64_of_Z 0) = true -> fleb c (f64_of_Z 0) = true).
        destruct c as [[]|[]| |[]]; cbn; congruence. }
      unfold choose_line_search in Ea. rewrite Ec in Ea. cbn [andb fst] in Ea. rewrite Ec' in Hm.
      destruct Hm as [C|[C|C]]; [discriminate| |]; rewrite C in Ea; cbn in Ea; injection Ea as <-; reflexivity. }
    pose proof (run_not_nan P (keep_log f) (Some (write_log progress)) b e s l en HM Hp Hr) as K.
    clear - R2 K. induction R2 as [|q r log l Hq H IH]; constructor.
    - destruct Hq as (_ & _ & E & _). rewrite E. now inversion K.
    - apply IH. now inversion K.
  Qed.
End Reject.

(** OWL-QN with a coordinate that is not penalized, as the intercept of a logistic
    regression: F(u, v) = u^2 + v + b v^2 + c v^3 + d v^4, where only u is penalized. *)
Section Worse.
  Variables exp64 ln64 : f64 -> f64.
  Notation FN := (Fnum exp64 ln64).
  Definition fq (a b : Z) : f64 := fdiv (f64_of_Z a) (f64_of_Z b).
  Definition q_b : f64 := fq 1999675 1000000.
  Definition q_c : f64 := fq (-999850) 1000000.
  Definition q_d : f64 := fq (-1999725) 1000000.
  Definition quartic (x : f64) : f64 := fmul x (fadd fone (fmul x (fadd q_b (fmul x (fadd q_c (fmul x q_d)))))).
  Definition quartic' (x : f64) : f64 :=
    fadd fone (fmul x (fadd (fmul ftwo q_b) (fmul x (fadd (fmul (f64_of_Z 3) q_c) (fmul x (fmul (f64_of_Z 4) q_d)))))).
  Definition quartic_f : objective FN unit := fun st x g =>
    
    let u := nth 0 x fzero in
    let v := nth 1 x fzero in
    (st, (x, [fmul ftwo u; quartic' v], Value (N := FN) (fadd (fmul u u) (quartic v)))).
  Definition quartic_options : options FN :=
    mkOptions (N := FN) fone 0 1 10 (fq 1 100000) 0 fzero 2 "default" 20 (fq 1 100000000000000000000) (f64_of_Z 100000000000000000000)
      (fq 1 10000) (fq 9 10) (fq 9 10) (fq 1 1000000000000000000000000000000).
  Definition quartic_x : f64 := S754_finite false 4503599627370498 (-52).
  Lemma quartic_worse :
    fmin_lbfgs quartic_options quartic_f None 3 20 tt [fzero; fzero] =
      Some (tt, Returned (N := FN) [fzero; quartic_x] (Some LBFGSERR_MAXIMUMITERATION)) /\
    snd (snd (quartic_f tt [fzero; fzero] [fzero; fzero])) = Value (N := FN) fzero /\
    exists v, snd (snd (quartic_f tt [fzero; quartic_x] [fzero; fzero])) = Value (N := FN) v /\ fltb fzero v = true.
  Proof.
    split; [vm_cast_no_check (eq_refl (Some (tt, Returned (N := FN) [fzero; quartic_x] (Some LBFGSERR_MAXIMUMITERATION))))|].
    split; [vm_cast_no_check (eq_refl (Value (N := FN) fzero))|].
    exists (fadd (fmul fzero fzero) (quartic quartic_x)). split; [reflexivity|]. vm_compute. reflexivity.
  Qed.
End Worse.
