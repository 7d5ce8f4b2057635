(** Proofs about the estimation module, continued: the support without features (C120), and
    agreement with the choice and the median of Model_Fit. *)
From Coq Require Import ZArith String List Bool Arith Lia Reals Lra Psatz.
From Verif Require Import Prelude F64 F64Order Num Model_Fit Model_Scores Model_Rescale Model_Poisson Model_Linear Model_Estimation
  Spec_Rescale Proofs_Rescale Spec_Poisson Proofs_Poisson Proofs_PoissonOpt Spec_Linear Proofs_Linear
  Proofs_LinearUnits Spec_Estimation Proofs_Estimation Proofs_Estimation2 Proofs_Estimation3.
Import ListNotations.
Local Open Scope R_scope.

(** ** Agreement with Model_Fit in binary64 *)
Section Agree.
  Variables exp64 ln64 : f64 -> f64.
  Lemma nan_is_nan v : nan (N := Fnum exp64 ln64) v = is_nan64 v.
  Proof.
    unfold nan. cbn [neqb Fnum]. destruct (is_nan64 v) eqn:E.
    - rewrite (is_nan_eq v E). reflexivity.
    - destruct v as [s|s| |s m e]; try discriminate; try (destruct s; reflexivity).
      unfold feqb, SpecFloat.SFeqb, SpecFloat.SFcompare. destruct s; rewrite ?Z.compare_refl, ?Pos.compare_cont_refl; reflexivity.
  Qed.
  Lemma argmax_from_same l : forall i best besti,
    argmax_from (N := Fnum exp64 ln64) i best besti l = argmax_loop i best besti l.
  Proof.
    induction l as [|v l IH]; intros; [reflexivity|]. cbn [argmax_from argmax_loop].
    rewrite nan_is_nan, !IH. reflexivity.
  Qed.
  Lemma argmax_same l : argmax (N := Fnum exp64 ln64) l = np_argmax l.
  Proof. destruct l as [|v l]; [reflexivity|]. unfold argmax, np_argmax. now rewrite nan_is_nan, argmax_from_same. Qed.
  Lemma sorted_same l : sorted (N := Fnum exp64 ln64) l = sort64 l.
  Proof.
    unfold sorted, sort64. induction l as [|v l IH]; [reflexivity|]. cbn [fold_right]. rewrite IH.
    generalize (fold_right insert64 [] l). induction l0 as [|w r IH']; [reflexivity|]. cbn [insert_sorted insert64].
    cbn [nleb Fnum]. now rewrite IH'.
  Qed.
  Lemma length_insert x l : length (insert64 x l) = S (length l).
  Proof. induction l as [|y l IH]; [reflexivity|]. cbn. destruct (fleb x y); cbn; [reflexivity|now rewrite IH]. Qed.
  Lemma length_sort l : length (sort64 l) = length l.
  Proof. unfold sort64. induction l as [|v l IH]; [reflexivity|]. cbn [fold_right]. now rewrite length_insert, IH. Qed.
  Lemma median_same (l : list f64) : median (N := Fnum exp64 ln64) l = np_median l.
  Proof.
    unfold median, np_median.
    assert (E : existsb (nan (N := Fnum exp64 ln64)) l = existsb is_nan64 l).
    { clear. induction l as [|v l IH]; [reflexivity|]. cbn [existsb]. now rewrite nan_is_nan, IH. }
    rewrite E, sorted_same. change (@List.length (carrier (Fnum exp64 ln64)) l) with (@List.length f64 l). destruct (existsb is_nan64 l); [reflexivity|].
    destruct (Nat.eqb_spec (length l) 0) as [E0|E0]; [reflexivity|]. cbn [orb].
    assert (H2 : (length l / 2 < length l)%nat) by (apply Nat.div_lt; lia).
    assert (D : forall k d d', (k < length l)%nat -> nth k (sort64 l) d = nth k (sort64 l) d')
      by (intros k d d' Hk; apply nth_indep; rewrite length_sort; exact Hk).
    destruct (Nat.even (length l)).
    - exact (f_equal2 (fun a c => fdiv (fadd a c) ftwo) (D (length l / 2 - 1)%nat _ fnan ltac:(lia)) (D (length l / 2)%nat _ fnan H2)).
    - exact (D (length l / 2)%nat _ fnan H2).
  Qed.
End Agree.

(** ** Scores as squared errors *)
Lemma sq_Sum (u v : list R) : length u = length v -> sq (map2 Rminus u v) = Sum (length u) (fun i => (entry u i - entry v i) * (entry u i - entry v i)).
Proof.
  revert v. induction u as [|a u IH]; intros [|c v] L; cbn in L; try discriminate; [reflexivity|]. injection L as L.
  cbn [length]. rewrite Sum_shift. unfold sq in *. cbn [map2 map fold_right]. rewrite (IH v L). reflexivity.
Qed.
Lemma sq_map (u : list R) m : sq (map (fun v => v - m) u) = distance2 u m.
Proof.
  unfold distance2. induction u as [|a u IH]; [reflexivity|]. cbn [length]. rewrite Sum_shift. unfold sq in *. cbn [map fold_right]. rewrite IH. reflexivity.
Qed.

Section Null.
  Variables (n p : nat) (X : list (list R)) (y : list R).
  Hypothesis HX : matrix n p X.
  Variable ols : solver_ls (N := Rnum).
  Variable sp : Model_Fit.split.
  Hypothesis Htrain : forall r, In r (fst sp) -> (r < n)%nat.
  Hypothesis Htest : forall r, In r (snd sp) -> (r < n)%nat.
  Hypothesis H2 : (2 <= length (snd sp))%nat.
  Notation yt := (part_y y (snd sp)).
  Notation yr := (part_y y (fst sp)).
  Notation mean v := (average (length v) v).
  Hypothesis Hvar : distance2 yt (mean yt) <> 0.

  Lemma len_test : length yt = length (snd sp). Proof. unfold part_y. apply map_length. Qed.

  Lemma null_estimate mask : existsb (fun b => b) mask = false ->
    estimate_support (N := Rnum) ols "r2"%string 1 p X y sp mask =
    Ok (repeat 0 p, 1 - distance2 yt (mean yr) / distance2 yt (mean yt)).
  Proof.
    intro E. unfold estimate_support. rewrite E.
    rewrite (score_value y sp (repeat false p) _ (fun _ => mean yr)).
    - cbn [bind]. f_equal. f_equal. rewrite r2_formula by (rewrite len_test; exact H2). cbv zeta.
      rewrite sq_map. rewrite (mean_n (length yt) yt eq_refl : nmean (N := Rnum) yt = _). fold (mean yt).
      destruct (Req_EM_T (distance2 yt (mean yt)) 0) as [C|_]; [now elim Hvar|]. f_equal. f_equal.
      rewrite sq_Sum by (rewrite len_test, map_length; reflexivity). unfold distance2. apply Sum_ext. intros i Hi.
      rewrite len_test in Hi.
      assert (Ei : entry (map (fun _ : nat => mean yr) (snd sp)) i = mean yr).
      { unfold entry. rewrite (nth_indep _ 0 ((fun _ : nat => mean yr) 0%nat)) by (rewrite map_length; exact Hi). exact (map_nth (fun _ : nat => mean yr) (snd sp) 0%nat i). }
      rewrite Ei. reflexivity.
    - rewrite part_y_take. rewrite (mean_n (length yr) yr eq_refl : nmean (N := Rnum) yr = _). fold (mean yr).
      generalize (mean yr). intro v. clear. induction (snd sp) as [|a l IH]; [reflexivity|]. exact (f_equal (cons v) IH).
  Qed.

  Lemma full_estimate mask : length mask = p -> existsb (fun b => b) mask = true ->
    let m := ols (part X (fst sp) mask) yr in
    length (fst m) = count (fun b => b) mask ->
    estimate_support (N := Rnum) ols "r2"%string 1 p X y sp mask =
    Ok (spread_values (N := Rnum) mask (fst m),
        1 - squared_error (count (fun b => b) mask) (part X (snd sp) mask) yt (fst m) (snd m) / distance2 yt (mean yt)).
  Proof.
    intros Lm E m L. unfold estimate_support. rewrite E. rewrite (part_masked n p X (fst sp) mask HX Lm Htrain), part_y_take. fold m.
    rewrite (score_value y sp mask _ _ (predictions n p X HX sp Htest mask m Lm L)).
    cbn [bind]. f_equal. f_equal. rewrite r2_formula by (rewrite len_test; exact H2). cbv zeta.
    rewrite sq_map. rewrite (mean_n (length yt) yt eq_refl : nmean (N := Rnum) yt = _). fold (mean yt).
    destruct (Req_EM_T (distance2 yt (mean yt)) 0) as [C|_]; [now elim Hvar|]. f_equal. f_equal.
    rewrite sq_Sum by (rewrite len_test, map_length; reflexivity). unfold squared_error. apply Sum_ext. intros i Hi.
    rewrite len_test in Hi. rewrite (eta_part n p X (snd sp) mask (fst m) (snd m) i HX Lm Htest L Hi).
    assert (Ei : entry (map (eta p X (spread_values (N := Rnum) mask (fst m)) (snd m)) (snd sp)) i
      = eta p X (spread_values (N := Rnum) mask (fst m)) (snd m) (nth i (snd sp) 0%nat)).
    { set (f := eta p X _ _). unfold entry. rewrite (nth_indep _ 0 (f 0%nat)) by (rewrite map_length; exact Hi). apply (map_nth f). }
    exact (f_equal (fun z => (entry yt i - z) * (entry yt i - z)) Ei).
  Qed.

  Lemma distance2_nonneg v m : 0 <= distance2 v m.
  Proof. unfold distance2. apply Sum_nonneg. intros. apply Rle_0_sqr. Qed.

  (** The empty support wins if its constant predicts better than every other model. *)
  Lemma null_wins supports empty : In empty supports -> existsb (fun b => b) empty = false ->
    (forall mask, In mask supports -> length mask = p) ->
    (forall mask, In mask supports -> existsb (fun b => b) mask = true ->
       let m := ols (part X (fst sp) mask) yr in
       length (fst m) = count (fun b => b) mask /\
       distance2 yt (mean yr) < squared_error (count (fun b => b) mask) (part X (snd sp) mask) yt (fst m) (snd m)) ->
    (let* out := mapM (estimate_support (N := Rnum) ols "r2"%string 1 p X y sp) supports in best_estimate out) = Ok (repeat 0 p).
  Proof.
    intros He Ee Hlen Hlt. set (s0 := 1 - distance2 yt (mean yr) / distance2 yt (mean yt)).
    assert (Hd : 0 < distance2 yt (mean yt)) by (pose proof (distance2_nonneg yt (mean yt)); lra).
    set (Q := fun (mask : list bool) (o : list R * R) =>
      o = (repeat 0 p, s0) \/ (existsb (fun b => b) mask = true /\ snd o < s0)).
    destruct (mapM_ok (estimate_support (N := Rnum) ols "r2"%string 1 p X y sp) Q supports) as (out & Eo & F).
    { intros mask Hm. destruct (existsb (fun b : bool => b) mask) eqn:Em.
      - destruct (Hlt mask Hm Em) as [L Lt]. eexists. split; [exact (full_estimate mask (Hlen mask Hm) Em L)|]. right. split; [exact Em|].
        cbn [snd]. unfold s0. assert (distance2 yt (mean yr) / distance2 yt (mean yt) <
          squared_error (count (fun b : bool => b) mask) (part X (snd sp) mask) yt (fst (ols (part X (fst sp) mask) yr)) (snd (ols (part X (fst sp) mask) yr)) / distance2 yt (mean yt)); [|lra].
        apply Rmult_lt_compat_r; [apply Rinv_0_lt_compat; exact Hd|exact Lt].
      - eexists. split; [exact (null_estimate mask Em)|]. now left. }
    rewrite Eo. cbn [bind]. unfold best_estimate.
    assert (Hsp : map snd out <> []).
    { destruct out; [|discriminate]. inversion F. subst. easy. }
    destruct (argmax_spec (map snd out) Hsp) as (m & Em & Hm & Hmax). rr. rewrite Em. cbn [rmap]. f_equal.
    rewrite map_length in Hm, Hmax.
    assert (N1 : forall k, nth k (map snd out) 0 = snd (nth k out ([], 0))) by (intros k; exact (map_nth snd out ([], 0) k)).
    assert (N2 : forall k, nth k (map fst out) [] = fst (nth k out ([], 0))) by (intros k; exact (map_nth fst out ([], 0) k)).
    destruct (Forall2_find _ _ _ empty ([], 0) F He) as (k & Hk & Ek & _).
    rewrite (null_estimate empty Ee) in Ek. injection Ek as Ek.
    pose proof (Hmax k Hk) as Gk. rewrite (N1 k), (N1 m), <- Ek in Gk. cbn [snd] in Gk. fold s0 in Gk.
    destruct (Forall2_at _ _ _ m ([], 0) F Hm) as (mask & _ & _ & [E|[_ E]]); rewrite N2; [rewrite E; reflexivity|].
    exfalso. rr. lra.
  Qed.
End Null.

Lemma post_zeros standardize n p X ym ys : matrix n p X -> (0 < n)%nat ->
  linear_post (N := Rnum) standardize false (fit_scaler (columns p X)) ym ys (repeat 0 p) 0 = (repeat 0 p, 0).
Proof.
  intros HX Hn. rewrite (scaler_value n p X HX). unfold linear_post, base_post. destruct standardize; [|reflexivity]. cbn [scale_]. f_equal.
  assert (L : length (map2 Rdiv (repeat 0 p) (scales n p X)) = p) by (rewrite map2_length, repeat_length, length_scales; apply Nat.min_id).
  apply (list_eq_entries _ _ p); [rewrite map_length; exact L|apply repeat_length|]. intros j Hj.
  refine (eq_trans (entry_mapn (fun v => v * ys) p _ j L Hj) _).
  rewrite (entry_map2n Rdiv p _ _ j (repeat_length 0 p) (length_scales n p X) Hj), !entry_zeros. unfold Rdiv. ring.
Qed.

Lemma fit_zero standardize n p X y (ols : solver_ls (N := Rnum)) select splits :
  matrix n p X -> (0 < n)%nat -> length y = n -> splits <> [] ->
  let D := linear_pre (N := Rnum) standardize false p X y in
  let supports := select (fst D) (snd D) in
  (forall mask, In mask supports -> length mask = p) -> In (repeat false p) supports ->
  (forall sp, In sp splits -> (2 <= length (snd sp))%nat /\ (forall i, In i (fst sp) -> (i < n)%nat) /\ (forall i, In i (snd sp) -> (i < n)%nat) /\
     let yr := part_y (snd D) (fst sp) in
     let yt := part_y (snd D) (snd sp) in
     distance2 yt (average (length yt) yt) <> 0 /\
     forall mask, In mask supports -> existsb (fun b => b) mask = true ->
       let m := ols (part (fst D) (fst sp) mask) yr in
       length (fst m) = count (fun b => b) mask /\
       distance2 yt (average (length yr) yr) < squared_error (count (fun b => b) mask) (part (fst D) (snd sp) mask) yt (fst m) (snd m)) ->
  regressor_fit (N := Rnum) standardize false "r2"%string 1 p ols select splits X y = Ok (repeat 0 p, 0).
Proof.
  intros HX Hn Ly Hs D supports Hlen Hin Hsp. unfold regressor_fit. fold D.
  assert (HD : matrix n p (fst D)).
  { destruct standardize; [exact (pre_matrix false n p X y HX)|]. unfold D, linear_pre. cbn [fst]. unfold base_transform. rewrite map_id. exact HX. }
  assert (Empty : existsb (fun b : bool => b) (repeat false p) = false) by (clear; induction p; [reflexivity|exact IHp]).
  assert (E : estimation_module (N := Rnum) ols "r2"%string 1 p false (fst D) (snd D) supports splits = Ok (repeat 0 p, 0)).
  { unfold estimation_module.
    assert (E : mapM (fun sp => let* out := mapM (estimate_support (N := Rnum) ols "r2"%string 1 p (fst D) (snd D) sp) supports in best_estimate out) splits
        = Ok (repeat (repeat 0 p) (length splits))).
    { apply mapM_same. intros sp Hin'. destruct (Hsp sp Hin') as (H2 & Htr & Hte & Hv & Hm).
      exact (null_wins n p (fst D) (snd D) HD ols sp Htr Hte H2 Hv supports (repeat false p) Hin Empty Hlen Hm). }
    rr. rewrite E. cbn [bind]. assert (Hl : (0 < length splits)%nat) by (destruct splits; [easy|cbn; lia]).
    rewrite (bagged_same p (repeat 0 p) _ Hl (repeat_length 0 p)). reflexivity. }
  destruct (constant_response (snd D)).
  - cbn [bind fst snd]. f_equal. exact (post_zeros standardize n p X _ _ HX Hn).
  - unfold supports in E. rr. rewrite E. cbn [bind fst snd]. f_equal. exact (post_zeros standardize n p X _ _ HX Hn).
Qed.
