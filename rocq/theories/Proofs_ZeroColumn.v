(** Proofs about features that are zero in every sample, in binary64 arithmetic (C117). *)
From Coq Require Import ZArith List Bool Arith Lia Floats.SpecFloat.
From Verif Require Import Prelude F64 Num Model_Rescale Model_Poisson Spec_ZeroColumn Proofs_Rescale Proofs_Poisson
  Proofs_PoissonFit Proofs_Lbfgs Proofs_LbfgsNan Proofs_PoissonNan Proofs_PoissonOverflow.
Import ListNotations.

Notation zn := zero_or_nan.
Lemma zn_zero s : zn (S754_zero s).
Proof. left. now exists s. Qed.
Lemma zn_nan : zn fnan.
Proof. now right. Qed.
Ltac zcase H := destruct H as [[? ->]| ->].
Lemma zn_add x y : zn x -> zn y -> zn (fadd x y).
Proof. intros H H'. zcase H; zcase H'; cbn; try apply zn_nan. destruct x0, x; cbn; apply zn_zero. Qed.
Lemma zn_mul_l x y : zn x -> zn (fmul x y).
Proof. intro H. zcase H; destruct y as [[]|[]| |[]]; cbn; try apply zn_nan; apply zn_zero. Qed.
Lemma zn_mul_r x y : zn y -> zn (fmul x y).
Proof. intro H. zcase H; destruct x as [[]|[]| |[]]; cbn; try apply zn_nan; apply zn_zero. Qed.
Lemma zn_div x y : zn x -> zn (fdiv x y).
Proof. intro H. zcase H; destruct y as [[]|[]| |[]]; cbn; try apply zn_nan; apply zn_zero. Qed.
Lemma zn_div_zn x y : zn x -> zn y -> fdiv x y = fnan.
Proof. intros H H'. zcase H; zcase H'; reflexivity. Qed.

Section Column.
  Variables exp64 ln64 : f64 -> f64.
  Notation FN := (Fnum exp64 ln64).
  Ltac ff := change (carrier FN) with f64 in *.

  Lemma zn_sum (l : list f64) : Forall zn l -> zn (nsum (N := FN) l).
  Proof. intro H. induction H as [|a l Ha _ IH]; [apply zn_zero|]. unfold nsum. cbn [fold_right]. apply zn_add; assumption. Qed.
  Lemma Forall_map2_l (P Q : f64 -> Prop) (f : f64 -> f64 -> f64) a b : (forall x y, P x -> Q (f x y)) -> Forall P a -> Forall Q (map2 f a b).
  Proof. intros H Ha. revert b. induction Ha; intros [|y b]; cbn; constructor; auto. Qed.
  Lemma Forall_map2_r (P Q : f64 -> Prop) (f : f64 -> f64 -> f64) b : (forall x y, P y -> Q (f x y)) -> Forall P b -> forall a, Forall Q (map2 f a b).
  Proof. intros H Hb. induction Hb; intros [|y a]; cbn; constructor; auto. Qed.
  Lemma zn_dot_r (w l : list f64) : Forall zn l -> zn (ndot (N := FN) w l).
  Proof. intro H. apply zn_sum. exact (Forall_map2_r zn zn fmul l zn_mul_r H w). Qed.

  Lemma zn_sign x : zn x -> zn (nsign (N := FN) x).
  Proof. intro H. zcase H; [destruct x0; apply zn_zero|apply zn_nan]. Qed.
  Lemma zn_soft x t : zn x -> zn (soft_threshold (N := FN) x t).
  Proof. intro H. unfold soft_threshold. apply zn_mul_l, zn_mul_l. now apply zn_sign. Qed.

  Section Data.
    Variables (X : list (list f64)) (c : config FN) (j : nat).
    Hypothesis Hj : zero_column j X.
    Hypothesis Hl : l1_ratio c = fone.

    Lemma column_zn : Forall zn (column (N := FN) X j).
    Proof.
      unfold column. apply Forall_map. refine (Forall_impl _ _ Hj). intros r H. left. exact H.
    Qed.

    (** The coefficient of a zero column becomes NaN when it is updated. *)
    Lemma update_zero (w z : list f64) (b : f64) (v : list f64) : j < length v ->
      nth j (cd_update (N := FN) c X w z b v j) fzero = fnan.
    Proof.
      intro Hv. unfold cd_update.
      match goal with |- nth j (lset j ?q v) _ = _ => assert (E : q = fnan) end.
      { apply zn_div_zn.
        - apply zn_soft. apply zn_div. apply zn_dot_r. exact (Forall_map2_l zn zn fmul _ _ zn_mul_l column_zn).
        - apply zn_add.
          + apply zn_div. apply zn_dot_r. apply Forall_map. refine (Forall_impl _ _ column_zn). intros x H. exact (zn_mul_l x x H).
          + apply zn_mul_r. rewrite Hl. left. now exists false. }
      rewrite E. refine (eq_trans (nth_lset j fnan fzero v j Hv) _). now rewrite Nat.eqb_refl.
    Qed.
    Lemma update_length64 (w z : list f64) (b : f64) (v : list f64) k : @length f64 (cd_update (N := FN) c X w z b v k) = length v.
    Proof. unfold cd_update. apply length_lset. Qed.

    Lemma updates_zero (w z : list f64) (b : f64) active : forall v : list f64, j < length v ->
      In j active \/ nth j v fzero = fnan ->
      nth j (fold_left (cd_update (N := FN) c X w z b) active v) fzero = fnan.
    Proof.
      induction active as [|k active IH]; intros v Hv H; cbn [fold_left]; [destruct H as [[]|H]; exact H|].
      apply IH; [exact (eq_ind_r (fun l => j < l) Hv (update_length64 w z b v k))|].
      destruct (Nat.eq_dec k j) as [->|Hne]; [right; now apply update_zero|].
      destruct H as [[H|H]|H]; [congruence|now left|right].
      refine (eq_trans _ H). unfold cd_update. now apply lset_other.
    Qed.

    Lemma iter_zero (y sw : list f64) active (s : list f64 * f64) : j < length (fst s) ->
      In j active \/ nth j (fst s) fzero = fnan ->
      nth j (fst (cd_iteration (N := FN) c X y sw active s)) fzero = fnan.
    Proof. intros Hv H. unfold cd_iteration, cd_sweep. cbn [fst]. now apply updates_zero. Qed.
    Lemma loop_zero_column (y sw : list f64) k : forall active (s : list f64 * f64), j < length (fst s) ->
      nth j (fst s) fzero = fnan \/ (In j active /\ 0 < k) ->
      nth j (fst (cd_loop (N := FN) c X y sw k active s)) fzero = fnan.
    Proof.
      induction k as [|k IH]; intros active s Hv H; [destruct H as [H|[_ H]]; [exact H|lia]|].
      cbn [cd_loop].
      assert (E : nth j (fst (cd_iteration (N := FN) c X y sw active s)) fzero = fnan).
      { apply iter_zero; [exact Hv|]. destruct H as [H|[H _]]; auto. }
      pose proof (iteration_length exp64 ln64 X y sw c s active) as L.
      destruct (nltb _ _); [exact E|]. apply IH; [exact (eq_ind_r (fun l => j < l) Hv L)|left; exact E].
    Qed.
  End Data.

  (** ** The other coefficients *)
  Lemma sum_in_nan (l : list f64) i : i < length l -> nth i l fzero = fnan -> nsum (N := FN) l = fnan.
  Proof.
    revert i. induction l as [|a l IH]; intros i Hi H; [cbn in Hi; lia|]. unfold nsum. cbn [fold_right].
    destruct i as [|i]; [cbn in H; rewrite H; reflexivity|]. cbn in Hi.
    assert (E : nsum (N := FN) l = fnan) by (apply (IH i); [lia|exact H]). unfold nsum in E. ff. rewrite E. apply add_nan_r.
  Qed.
  Lemma dot_in_nan' (a b : list f64) i : i < length a -> i < length b -> nth i b fzero = fnan -> ndot (N := FN) a b = fnan.
  Proof.
    intros Ha Hb H. unfold ndot. apply (sum_in_nan _ i); [refine (eq_ind_r (fun l => i < l) _ (map2_length fmul a b)); lia|].
    refine (eq_trans (map2_nth fmul a b i fzero fzero fzero Ha Hb) _). rewrite H. apply mul_nan_r.
  Qed.
  Lemma matvec_nan (X : list (list f64)) (v : list f64) j p : Forall (fun r => length r = p) X -> length v = p -> j < p ->
    nth j v fzero = fnan -> matvec (N := FN) X v = nans (length X).
  Proof.
    intros HX Lv Hj H. unfold matvec, nans. induction HX as [|r X Hr _ IH]; [reflexivity|]. cbn [map length repeat]. f_equal; [|exact IH].
    apply (dot_in_nan' r v j); [lia|lia|exact H].
  Qed.

  Lemma max2_nan_r a : nmax2 (N := FN) a fnan = fnan.
  Proof. unfold nmax2. cbn [nltb neqb Fnum]. destruct a as [[]|[]| |[]]; reflexivity. Qed.
  Lemma max2_nan_l a : nmax2 (N := FN) fnan a = fnan.
  Proof. unfold nmax2. cbn [nltb neqb Fnum]. replace (fltb fnan a) with false by (destruct a as [[]|[]| |[]]; reflexivity). destruct (feqb a a) eqn:E; [reflexivity|].
    destruct a as [[]|[]| |s m e]; try discriminate E; [reflexivity|]. exfalso. revert E. unfold feqb, SFeqb, SFcompare. destruct s; rewrite Z.compare_refl, Pos.compare_refl; discriminate.
  Qed.
  Lemma fold_max_nan (l : list f64) : fold_left (nmax2 (N := FN)) l fnan = fnan.
  Proof. induction l as [|a l IH]; [reflexivity|]. cbn [fold_left]. refine (eq_trans (f_equal (fold_left _ l) (max2_nan_l a)) IH). Qed.
  Lemma maxl_nan (l : list f64) : In fnan l -> nmaxl (N := FN) l = fnan.
  Proof.
    destruct l as [|a l]; intro H; [destruct H|]. unfold nmaxl. revert a H. induction l as [|b l IH]; intros a H.
    - destruct H as [->|[]]. reflexivity.
    - destruct H as [->|[->|H]].
      + apply fold_max_nan.
      + cbn [fold_left]. refine (eq_trans (f_equal (fold_left _ l) (max2_nan_r a)) _). apply fold_max_nan.
      + cbn [fold_left]. apply IH. now right.
  Qed.

  Section Rest.
    Variables (n p : nat) (X : list (list f64)) (y sw : list f64) (c : config FN) (j : nat).
    Hypothesis LX : length X = S n.
    Hypothesis RX : Forall (fun r => length r = p) X.
    Hypothesis Ly : length y = S n.
    Hypothesis Lsw : length sw = S n.
    Hypothesis Hexp : exp64 fnan = fnan.
    Hypothesis Hj : zero_column j X.
    Hypothesis Hjp : j < p.
    Hypothesis Hl : l1_ratio c = fone.

    Lemma working_nan (v : list f64) (b : f64) : length v = p -> nth j v fzero = fnan ->
      adjusted_response (N := FN) X y v b = (nans (S n), nans (S n)).
    Proof.
      intros Lv H. unfold adjusted_response. pose proof (matvec_nan X v j p RX Lv Hjp H) as E. ff. rewrite E, LX.
      assert (E1 : map (nadd (n := FN) b) (nans (S n)) = nans (S n)) by (apply (map_nan (fadd b)); apply add_nan_r).
      assert (E2 : map (nexp (n := FN)) (nans (S n)) = nans (S n)) by (apply (map_nan exp64); exact Hexp).
      ff. rewrite E1, E2. f_equal.
      assert (E3 : map2 (ndiv (n := FN)) y (nans (S n)) = nans (S n)) by (apply (map2_nan_r fdiv); [apply div_nan_r|exact Ly]).
      ff. rewrite E3.
      assert (E4 : map2 (nadd (n := FN)) (nans (S n)) (nans (S n)) = nans (S n)) by (apply (map2_nan_r fadd); [apply add_nan_r|apply repeat_length]).
      ff. rewrite E4. apply (map_nan (fun v => fsub v fone)). reflexivity.
    Qed.

    Lemma update_nan_z (w : list f64) (b : f64) (v : list f64) k : length w = S n -> k < length v ->
      nth k (cd_update (N := FN) c X w (nans (S n)) b v k) fzero = fnan.
    Proof.
      intros Lw Hk. unfold cd_update.
      match goal with |- nth k (lset k ?q v) _ = _ => assert (E : q = fnan) end.
      { match goal with |- context [map2 nsub (nans (S n)) ?h] => assert (E1 : map2 (nsub (n := FN)) (nans (S n)) h = nans (S n)) end.
        { match goal with |- map2 _ _ ?h = _ => assert (Lh : @length f64 h = S n) end.
          { refine (eq_trans (map_length _ _) _). unfold matvec. refine (eq_trans (map_length _ _) _). exact LX. }
          match goal with |- map2 _ _ ?h = _ => generalize dependent h end. clear.
          change (forall l : list f64, length l = S n -> map2 fsub (nans (S n)) l = nans (S n)).
          generalize (S n). intro k. induction k as [|k IH]; intros [|a l] L; try discriminate; [reflexivity|].
          cbn [nans repeat map2]. f_equal. apply IH. now injection L. }
        ff. rewrite E1.
        assert (E2 : map2 (nmul (n := FN)) (column (N := FN) X k) (nans (S n)) = nans (S n)).
        { apply (map2_nan_r fmul); [apply mul_nan_r|]. unfold column. rewrite map_length. exact LX. }
        ff. rewrite E2. assert (E3 : ndot (N := FN) w (nans (S n)) = fnan) by (apply dot_nans_r; exact Lw).
        ff. rewrite E3. reflexivity. }
      rewrite E. refine (eq_trans (nth_lset k fnan fzero v k Hk) _). now rewrite Nat.eqb_refl.
    Qed.
    Lemma updates_nan_z (w : list f64) (b : f64) active : length w = S n -> forall (v : list f64) k, k < length v ->
      In k active \/ nth k v fzero = fnan ->
      nth k (fold_left (cd_update (N := FN) c X w (nans (S n)) b) active v) fzero = fnan.
    Proof.
      intro Lw. induction active as [|i active IH]; intros v k Hk H; cbn [fold_left]; [destruct H as [[]|H]; exact H|].
      apply IH; [refine (eq_ind_r (fun l => k < l) Hk _); unfold cd_update; apply length_lset|].
      destruct (Nat.eq_dec i k) as [->|Hne]; [right; now apply update_nan_z|].
      destruct H as [[H|H]|H]; [congruence|now left|right].
      refine (eq_trans _ H). unfold cd_update. now apply lset_other.
    Qed.

    Definition spoiled (v : list f64) : Prop := length v = p /\ forall k, k < p -> zn (nth k v fzero).

    (** A sweep over the non-zero coefficients once one of them is NaN. *)
    Lemma iter_spoiled (s : list f64 * f64) : length (fst s) = p -> nth j (fst s) fzero = fnan ->
      let s' := cd_iteration (N := FN) c X y sw (nonzeros (N := FN) (fst s)) s in
      spoiled (fst s') /\ nth j (fst s') fzero = fnan /\ (fit_intercept c = true -> snd s' = fnan) /\ (fit_intercept c = false -> snd s' = fzero).
    Proof.
      destruct s as [v b]. cbn [fst]. intros Lv H. cbv zeta.
      split; [|split; [|split]].
      - split; [refine (eq_trans (iteration_length exp64 ln64 X y sw c (v, b) _) Lv)|].
        intros k Hk. unfold cd_iteration, cd_sweep. pose proof (working_nan v b Lv H) as E. ff. cbn [fst snd].
        rewrite E. cbn [fst snd].
        destruct (in_dec Nat.eq_dec k (nonzeros (N := FN) v)) as [Hi|Hi].
        + right. apply updates_nan_z; [|lia|now left]. apply length_map2n; [apply repeat_length|exact Lsw].
        + match goal with |- zn (nth k (fold_left (cd_update c X ?w ?z ?b') _ v) _) =>
            pose proof (updates_keep (N := FN) c X w z b' (nonzeros (N := FN) v) v k Hi) as Ek end.
          refine (eq_ind_r zn _ Ek).
          destruct (nnonzero (N := FN) (nth k v fzero)) eqn:Ez.
          { exfalso. apply Hi. unfold nonzeros. apply filter_In. split; [apply in_seq; split; [lia|exact (eq_ind_r (fun l => k < 0 + l) Hk Lv)]|exact Ez]. }
          unfold nnonzero in Ez. apply negb_false_iff in Ez. apply (zero_F exp64 ln64) in Ez. change (zn (nth k v fzero)).
          destruct (nth k v fzero) as [s0|s0| |s0 m0 e0]; try discriminate Ez; apply zn_zero.
      - apply (iter_zero X c j Hj Hl); [cbn [fst]; lia|right; exact H].
      - intro Hf. unfold cd_iteration, cd_sweep. pose proof (working_nan v b Lv H) as E. ff. cbn [fst snd]. rewrite E, Hf. cbn [fst snd].
        assert (E3 : nsum (N := FN) (map2 (nmul (n := FN)) (nans (S n)) sw) = fnan) by (destruct sw as [|a l]; [discriminate|reflexivity]).
        ff. rewrite E3. apply div_nan_r.
      - intro Hf. unfold cd_iteration, cd_sweep. cbn [snd]. now rewrite Hf.
    Qed.

    Lemma loop_spoiled k : forall (s : list f64 * f64), length (fst s) = p -> nth j (fst s) fzero = fnan ->
      let r := cd_loop (N := FN) c X y sw (S k) (nonzeros (N := FN) (fst s)) s in
      spoiled (fst r) /\ (fit_intercept c = true -> snd r = fnan) /\ (fit_intercept c = false -> snd r = fzero).
    Proof.
      induction k as [|k IH]; intros s Ls H; cbv zeta; destruct (iter_spoiled s Ls H) as (P1 & P2 & P3 & P4).
      - cbn [cd_loop]. destruct (nltb _ _); repeat split; try apply P1; assumption.
      - cbn [cd_loop]. cbn [cd_loop] in IH. destruct (nltb _ _); [repeat split; try apply P1; assumption|].
        apply IH; [apply P1|exact P2].
    Qed.

    Lemma first_does_not_stop (s s' : list f64 * f64) : length (fst s) = p -> length (fst s') = p -> nth j (fst s') fzero = fnan ->
      nltb (n := FN) (nmaxl (N := FN) (map (nabs (n := FN)) (map2 (nsub (n := FN)) (fst s) (fst s')))) (tol c) = false.
    Proof.
      intros L L' H. assert (E : nmaxl (N := FN) (map (nabs (n := FN)) (map2 (nsub (n := FN)) (fst s) (fst s'))) = fnan).
      { apply maxl_nan. change (In (fabs fnan) (map fabs (map2 fsub (fst s) (fst s')))). apply in_map.
        assert (E : nth j (map2 fsub (fst s) (fst s')) fzero = fnan).
        { refine (eq_trans (map2_nth fsub (fst s) (fst s') j fzero fzero fzero _ _) _); [lia|lia|]. rewrite H. apply sub_nan_r. }
        rewrite <- E. apply nth_In. rewrite map2_length. lia. }
      ff. rewrite E. cbn [nltb Fnum]. reflexivity.
    Qed.

    Lemma run_spoiled k (b0 : f64) (v0 : list f64) active : length v0 = p -> In j active ->
      let r := cd_loop (N := FN) c X y sw (S (S k)) active (v0, b0) in
      spoiled (fst r) /\ (fit_intercept c = true -> snd r = fnan) /\ (fit_intercept c = false -> snd r = fzero).
    Proof.
      intros L Hi. cbv zeta.
      change (cd_loop (N := FN) c X y sw (S (S k)) active (v0, b0)) with
        (let s' := cd_iteration (N := FN) c X y sw active (v0, b0) in
         if nltb (n := FN) (nmaxl (N := FN) (map (nabs (n := FN)) (map2 (nsub (n := FN)) (fst (v0, b0)) (fst s')))) (tol c) then s'
         else cd_loop (N := FN) c X y sw (S k) (nonzeros (N := FN) (fst s')) s').
      cbv zeta.
      assert (E : nth j (fst (cd_iteration (N := FN) c X y sw active (v0, b0))) fzero = fnan).
      { apply (iter_zero X c j Hj Hl); [cbn [fst]; lia|now left]. }
      assert (L' : @length f64 (fst (cd_iteration (N := FN) c X y sw active (v0, b0))) = p).
      { refine (eq_trans (iteration_length exp64 ln64 X y sw c (v0, b0) _) L). }
      pose proof (first_does_not_stop (v0, b0) (cd_iteration (N := FN) c X y sw active (v0, b0)) L L' E) as E2.
      match goal with |- context [if ?q then _ else _] => replace q with false by (symmetry; exact E2) end.
      apply loop_spoiled; assumption.
    Qed.
  End Rest.

  (** ** The fit *)
  Section Fit.
    Variables (n p : nat) (X : list (list f64)) (y : list f64) (swo : option (list f64)) (c : config FN) (j : nat).
    Variables (opt : optimizer (N := FN)) (o : poisson FN).
    Notation s := (fit_scaler (N := FN) (columns (N := FN) p X)).
    Notation X' := (map (centering_transform (N := FN) (standardize c) s) X).
    Hypothesis LX : length X = S n.
    Hypothesis RX : Forall (fun r => length r = p) X.
    Hypothesis Ly : length y = S n.
    Hypothesis Lsw : match swo with Some s => length s = S n | None => True end.
    Hypothesis Hexp : exp64 fnan = fnan.
    Hypothesis Hj : zero_column j X'.
    Hypothesis Hjp : j < p.
    Hypothesis Hl : l1_ratio c = fone.
    Hypothesis Hw : warm_start c = false.
    Hypothesis Hm : 0 < max_iter c.
    Hypothesis Hc : constant_response (N := FN) y = false.

    Lemma scales_length : @length f64 (scale_ s) = p.
    Proof. exact (scale_length (N := FN) p X). Qed.
    Lemma X'_rows : Forall (fun r => length r = p) X'.
    Proof.
      apply Forall_map. refine (Forall_impl _ _ RX). intros r Hr. unfold centering_transform. destruct (standardize c); [|exact Hr].
      unfold transform. apply length_map2n; [|exact scales_length]. apply length_map2n; [exact Hr|].
      cbn [mean_ fit_scaler]. unfold columns. rewrite !map_length. apply seq_length.
    Qed.

    Lemma zero_column_fit : exists v b,
      poisson_fit (N := FN) c Cd opt p X y swo o = (mkPoisson (N := FN) (Some v) b, Ok tt) /\
      length v = p /\ nth j v fzero = fnan /\
      b = (if fit_intercept c then Some (match b with Some x => x | None => fzero end) else intercept_ o) /\
      (1 < max_iter c -> (forall k, k < p -> zn (nth k v fzero)) /\ (fit_intercept c = true -> b = Some fnan)).
    Proof.
      unfold poisson_fit. rewrite Hc.
      assert (S1 : start_coef (N := FN) c p s o = repeat fzero p) by (unfold start_coef; rewrite Hw; now destruct (coef_ o)).
      assert (S2 : start_intercept (N := FN) c o = fzero) by (unfold start_intercept; rewrite Hw; now destruct (intercept_ o)).
      rewrite S1, S2. unfold cd. rewrite Hw. cbn [andb].
      rewrite repeat_length. set (sw := match swo with Some s => s | None => ones (N := FN) (length X') end).
      assert (LX' : length X' = S n) by (rewrite map_length; exact LX).
      assert (Lsw' : @length f64 sw = S n) by (unfold sw; destruct swo; [exact Lsw|unfold ones; rewrite repeat_length; exact LX']).
      pose proof (loop_zero_column X' c j Hj Hl y sw (max_iter c) (seq 0 p) (repeat fzero p, fzero)) as E.
      pose proof (loop_length (N := FN) c X' y sw (max_iter c) (seq 0 p) (repeat fzero p, fzero)) as L.
      assert (G : 1 < max_iter c -> let r := cd_loop (N := FN) c X' y sw (max_iter c) (seq 0 p) (repeat fzero p, fzero) in
        spoiled p (fst r) /\ (fit_intercept c = true -> snd r = fnan) /\ (fit_intercept c = false -> snd r = fzero)).
      { intro H1. destruct (max_iter c) as [|[|k]]; [lia|lia|].
        apply (run_spoiled n p X' y sw c j LX' X'_rows Ly Lsw' Hexp Hj Hjp Hl); [apply repeat_length|apply in_seq; lia]. }
      cbv zeta in G.
      match goal with |- context [cd_loop c ?x y ?w ?m ?a ?q] => change (cd_loop c x y w m a q) with
        (cd_loop (N := FN) c X' y sw (max_iter c) (seq 0 p) (repeat fzero p, fzero)) end.
      destruct (cd_loop (N := FN) c X' y sw (max_iter c) (seq 0 p) (repeat fzero p, fzero)) as [v d]. cbn [fst snd] in *.
      rewrite repeat_length in L.
      assert (E' : nth j v fzero = fnan).
      { apply E; [rewrite repeat_length; exact Hjp|right; split; [apply in_seq; lia|exact Hm]]. }
      do 2 eexists. split; [reflexivity|]. unfold poisson_post. destruct (standardize c).
      - cbn [fst snd]. split; [apply length_map2n; [exact L|exact scales_length]|]. split; [|split].
        + refine (eq_trans (map2_nth fdiv v (scale_ s) j fzero fzero fzero _ _) _).
          * exact (eq_ind_r (fun l => j < l) Hjp L).
          * exact (eq_ind_r (fun l => j < l) Hjp scales_length).
          * exact (f_equal (fun q => fdiv q (nth j (scale_ s) fzero)) E').
        + destruct (fit_intercept c); reflexivity.
        + intro H1. destruct (G H1) as ((_ & G1) & G2 & G3). split.
          * intros k Hk. refine (eq_ind_r zn _ (map2_nth fdiv v (scale_ s) k fzero fzero fzero _ _)).
            { apply zn_div. now apply G1. }
            { exact (eq_ind_r (fun l => k < l) Hk L). }
            { exact (eq_ind_r (fun l => k < l) Hk scales_length). }
          * intro Hf. rewrite Hf. f_equal. specialize (G2 Hf). ff. rewrite G2. reflexivity.
      - cbn [fst snd]. split; [exact L|]. split; [exact E'|]. split; [destruct (fit_intercept c); reflexivity|].
        intro H1. destruct (G H1) as ((_ & G1) & G2 & G3). split; [exact G1|].
        intro Hf. rewrite Hf. f_equal. now apply G2.
    Qed.
  End Fit.

  Lemma predict_zero_column p j (v : list f64) (b : f64) Xn : exp64 fnan = fnan -> length v = p -> j < p -> nth j v fzero = fnan ->
    Forall (fun r => length r = p) Xn ->
    predict_mean (N := FN) (mkPoisson (N := FN) (Some v) (Some b)) Xn = Ok (repeat fnan (length Xn)).
  Proof.
    intros Hexp Lv Hj H HX. unfold predict_mean. cbn [coef_ intercept_]. f_equal.
    pose proof (matvec_nan Xn v j p HX Lv Hj H) as E. ff. rewrite E.
    apply (map_nan (fun m => exp64 (fadd b m))). cbv beta. rewrite add_nan_r. exact Hexp.
  Qed.
End Column.
