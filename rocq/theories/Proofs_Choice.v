(** Proofs about the choice that the estimation module makes (C121, C122). *)
From Coq Require Import ZArith String List Bool Arith Lia Reals Lra Psatz Permutation Sorted.
From Verif Require Import Prelude F64 Num Model_Fit Model_Scores Model_Rescale Model_Poisson Model_Linear Model_Estimation
  Spec_Rescale Proofs_Rescale Spec_Poisson Proofs_Poisson Proofs_PoissonOpt Spec_Linear Proofs_Linear
  Proofs_LinearUnits Spec_Estimation Proofs_Estimation Proofs_Estimation2 Proofs_Estimation3 Proofs_Estimation4 Spec_Choice.
Import ListNotations.
Local Open Scope R_scope.

(** ** The median *)
Lemma insert_perm (x : R) l : Permutation (insert_sorted (N := Rnum) x l) (x :: l).
Proof.
  induction l as [|y l IH]; [apply Permutation_refl|]. cbn [insert_sorted]. destruct (nleb _ _); [apply Permutation_refl|].
  apply perm_trans with (y :: x :: l); [now apply perm_skip|apply perm_swap].
Qed.
Lemma sorted_perm (l : list R) : Permutation (sorted (N := Rnum) l) l.
Proof.
  induction l as [|x l IH]; [apply Permutation_refl|]. change (sorted (N := Rnum) (x :: l)) with (insert_sorted (N := Rnum) x (sorted (N := Rnum) l)).
  exact (perm_trans (insert_perm x _) (perm_skip x IH)).
Qed.
Lemma insert_order (x : R) (l : list R) : StronglySorted Rle l -> StronglySorted Rle (insert_sorted (N := Rnum) x l).
Proof.
  induction 1 as [|y l S IH F]; [repeat constructor|]. cbn [insert_sorted nleb Rnum]. unfold Rleb. destruct (Rle_dec x y) as [L|G].
  - constructor; [now constructor|]. constructor; [exact L|]. eapply Forall_impl; [|exact F]. intros z Hz. cbn in *. lra.
  - constructor; [exact IH|]. rewrite Forall_forall in *. intros z Hz. apply (Permutation_in _ (insert_perm x l)) in Hz as [<-|Hz]; [lra|now apply F].
Qed.
Lemma sorted_order (l : list R) : StronglySorted Rle (sorted (N := Rnum) l).
Proof. induction l as [|x l IH]; [constructor|]. exact (insert_order x _ IH). Qed.
Lemma median_value (l : list R) : l <> [] -> median_of l (median (N := Rnum) l).
Proof.
  intro H. exists (sorted (N := Rnum) l). split; [apply sorted_perm|]. split; [apply sorted_order|]. unfold median.
  assert (E : existsb (nan (N := Rnum)) l = false) by (clear H; induction l as [|a l IH]; [reflexivity|]; cbn [existsb]; now rewrite nan_R, IH).
  rr. rewrite E. destruct (Nat.eqb_spec (length l) 0) as [C|_]; [destruct l; [easy|discriminate]|]. cbn [orb]. unfold entry, nzero. cbn [nofZ Rnum].
  destruct (Nat.even _); reflexivity.
Qed.

(** ** Estimates and scores *)
Lemma pick_spread (mask : list bool) (c : list R) : length c = count (fun b => b) mask -> pick mask (spread_values (N := Rnum) mask c) = c.
Proof.
  revert c. induction mask as [|b m IH]; intros c L.
  - destruct c; [reflexivity|discriminate].
  - destruct b; cbn in L.
    + destruct c as [|v c]; [discriminate|]. cbn. f_equal. apply IH. now injection L.
    + exact (IH c L).
Qed.
Lemma spread_estimate p mask (m : list R * R) : length mask = p -> length (fst m) = count (fun b => b) mask ->
  estimate_of p mask m (spread_values (N := Rnum) mask (fst m)).
Proof.
  intros Lm Lc. split; [now rewrite length_spread|]. split; [intros j Hj; now apply spread_outside|]. intros _.
  rewrite <- pick_chosen by (now rewrite length_spread). now apply pick_spread.
Qed.
Lemma zeros_estimate p mask (m : list R * R) : existsb (fun b => b) mask = false -> estimate_of p mask m (repeat 0 p).
Proof. intro E. split; [apply repeat_length|]. split; [intros; apply entry_zeros|]. rewrite E. discriminate. Qed.

Section Score.
  Variables (n p : nat) (X : list (list R)) (y : list R).
  Hypothesis HX : matrix n p X.
  Variable ols : solver_ls (N := Rnum).
  Variables (metric : string) (target : nat) (sp : Model_Fit.split).
  Hypothesis Hmetric : In metric ["r2"; "BIC"; "AIC"; "AICc"]%string.
  Hypothesis Htrain : forall r, In r (fst sp) -> (r < n)%nat.
  Notation rows := (scored target sp).
  Hypothesis Hrows : forall r, In r rows -> (r < n)%nat.
  Hypothesis Hne : rows <> [].
  Notation yt := (part_y y rows).
  Notation fit_of mask := (ols (part X (fst sp) mask) (part_y y (fst sp))).
  Notation err mask := (model_error X y (fst sp) rows mask (fit_of mask)).
  Hypothesis Hr2 : metric = "r2"%string -> (2 <= length rows)%nat /\ distance2 yt (average (length rows) yt) <> 0.

  Lemma len_rows : length yt = length rows. Proof. apply map_length. Qed.

  (** Scores decrease with the cost. *)
  Definition grade (x : R) : R :=
    if String.eqb metric "r2"%string then 1 - x / distance2 yt (average (length rows) yt)
    else - (x + INR (length rows) - INR (length rows) * ln (INR (length rows))).
  Lemma grade_order a b : grade a <= grade b -> b <= a.
  Proof.
    unfold grade. destruct (String.eqb_spec metric "r2"%string) as [E|_]; [|lra]. destruct (Hr2 E) as [_ Hd].
    assert (D : 0 < distance2 yt (average (length rows) yt)) by (pose proof (distance2_nonneg yt (average (length rows) yt)); lra).
    intro H. apply (Rmult_le_reg_r (/ distance2 yt (average (length rows) yt))); [now apply Rinv_0_lt_compat|]. unfold Rdiv in H. lra.
  Qed.
  Lemma grade_mono a b : b <= a -> grade a <= grade b.
  Proof.
    unfold grade. destruct (String.eqb_spec metric "r2"%string) as [E|_]; [|lra]. destruct (Hr2 E) as [_ Hd].
    assert (D : 0 < distance2 yt (average (length rows) yt)) by (pose proof (distance2_nonneg yt (average (length rows) yt)); lra).
    intro H. assert (b / distance2 yt (average (length rows) yt) <= a / distance2 yt (average (length rows) yt)); [|lra].
    apply Rmult_le_compat_r; [apply Rlt_le; now apply Rinv_0_lt_compat|exact H].
  Qed.

  Lemma score_grade (mask : list bool) (pr : list nat -> list R) (f : nat -> R) (e : R) : pr rows = map f rows ->
    e = Sum (length rows) (fun i => (entry y (nth i rows 0%nat) - f (nth i rows 0%nat)) * (entry y (nth i rows 0%nat) - f (nth i rows 0%nat))) ->
    (metric <> "r2"%string -> 0 < e) ->
    linear_score (N := Rnum) (r2_score (N := Rnum)) metric target y pr mask sp =
    Ok (grade (cost metric (length rows) (count (fun b => b) mask) e)).
  Proof.
    intros E Ee Hpos. assert (Eq : sq (map2 Rminus yt (map f rows)) = e).
    { rewrite sq_Sum by (rewrite len_rows, map_length; reflexivity). rewrite len_rows, Ee. apply Sum_ext. intros i Hi.
      rewrite entry_part_y by exact Hi.
      assert (Ei : entry (map f rows) i = f (nth i rows 0%nat)) by (unfold entry; rewrite (nth_indep _ 0 (f 0%nat)) by (rewrite map_length; exact Hi); apply (map_nth f)).
      rewrite Ei. reflexivity. }
    unfold linear_score. change (target_rows target sp) with rows. rr. rewrite E, part_y_take, len_rows, map_length, Nat.eqb_refl. cbn [negb].
    unfold cost, grade. destruct (String.eqb_spec metric "r2"%string) as [Em|Em].
    - destruct (Hr2 Em) as [L2 Hd]. rewrite r2_formula by (rewrite len_rows; exact L2). cbv zeta. rewrite Eq, sq_map.
      rewrite (mean_n (length rows) yt len_rows : nmean (N := Rnum) yt = _). destruct (Req_EM_T _ 0) as [C|_]; [now elim Hd|reflexivity].
    - specialize (Hpos Em). set (N := length rows) in *. assert (HN : (0 < N)%nat) by (unfold N; destruct rows; [easy|cbn; lia]).
      assert (RN : 0 < INR N) by (now apply lt_0_INR). set (k := count (fun b : bool => b) mask).
      assert (El : ll_normal (N := Rnum) yt (map f rows) = - INR N / 2 * (1 + (ln e - ln (INR N)))).
      { unfold ll_normal.
        assert (Es : nmean (N := Rnum) (map (fun r : R => r * r) (map2 Rminus yt (map f rows))) = e / INR N).
        { unfold nmean. change (nsum (N := Rnum) (map (fun r : R => r * r) (map2 Rminus yt (map f rows)))) with (sq (map2 Rminus yt (map f rows))). rewrite Eq.
          rewrite map_length, map2_length, len_rows, map_length, Nat.min_id. fold N. cbn [nofZ ndiv Rnum]. unfold nofnat. cbn [nofZ Rnum]. rewrite <- INR_IZR_INZ. reflexivity. }
        change (nmul (n := Rnum)) with Rmult. change (nsub (n := Rnum)) with Rminus. rr. rewrite Es. cbn [nofZ ndiv nadd nln Rnum]. rewrite len_rows. fold N. rewrite opp_IZR, <- INR_IZR_INZ.
        assert (Eln : ln (e / INR N) = ln e - ln (INR N)) by (unfold Rdiv; rewrite ln_mult, ln_Rinv by (try apply Rinv_0_lt_compat; assumption); reflexivity).
        rewrite Eln. reflexivity. }
      rewrite El. unfold criterion, price. destruct Hmetric as [C|[C|[C|[C|[]]]]]; rewrite <- C; cbn [String.eqb Ascii.eqb Bool.eqb rmap]; [congruence| | |];
        f_equal; unfold BIC, AIC, AICc; cbn [nofZ ndiv nadd nln nmul nsub nopp Rnum]; fold k.
      + rewrite <- !INR_IZR_INZ. rr. field.
      + rewrite mult_IZR, <- INR_IZR_INZ. rr. field.
      + destruct (Z.ltb_spec (Z.of_nat k + 1) (Z.of_nat N)), (Nat.ltb_spec (k + 1) N); try lia; unfold AIC; cbn [nofZ ndiv nadd nln nmul nsub nopp Rnum]; rewrite ?minus_IZR, ?mult_IZR, ?plus_IZR, ?mult_IZR, <- ?INR_IZR_INZ.
        * assert (INR N - INR k - 1 <> 0) by (assert (INR (k + 1) < INR N) by (now apply lt_INR); rewrite plus_INR in *; cbn in *; lra). rr. field. assumption.
        * rr. field.
  Qed.

  Lemma estimate_grade mask : length mask = p -> (existsb (fun b => b) mask = true -> length (fst (fit_of mask)) = count (fun b => b) mask) ->
    (metric <> "r2"%string -> 0 < err mask) ->
    exists e, estimate_support (N := Rnum) ols metric target p X y sp mask = Ok (e, grade (cost metric (length rows) (count (fun b => b) mask) (err mask))) /\
      estimate_of p mask (fit_of mask) e.
  Proof.
    intros Lm HL Hpos. unfold estimate_support. destruct (existsb (fun b : bool => b) mask) eqn:Em.
    - specialize (HL eq_refl). eexists. split; [|apply spread_estimate; [exact Lm|exact HL]].
      rewrite (part_masked n p X (fst sp) mask HX Lm Htrain), part_y_take. set (m := fit_of mask) in *.
      rewrite (score_grade mask _ (eta p X (spread_values (N := Rnum) mask (fst m)) (snd m)) (err mask)); [reflexivity| | |exact Hpos].
      + unfold ls_predict, masked_columns, matrix_rows. rewrite !map_map. apply map_ext_in. intros r Hr. apply (decision_part n p X HX); [exact Lm|exact HL|now apply Hrows].
      + unfold model_error. rewrite Em. unfold squared_error. rewrite len_rows. fold m. apply Sum_ext. intros i Hi.
        rewrite entry_part_y by exact Hi. exact (f_equal (fun z => (entry y (nth i rows 0%nat) - z) * (entry y (nth i rows 0%nat) - z)) (eta_part n p X rows mask (fst m) (snd m) i HX Lm Hrows HL Hi)).
    - eexists. split; [|exact (zeros_estimate p mask _ Em)].
      assert (C0 : forall q, count (fun b : bool => b) (repeat false q) = 0%nat) by (induction q; [reflexivity|exact IHq]).
      assert (C1 : count (fun b : bool => b) mask = 0%nat) by (clear -Em; induction mask as [|b m IH]; [reflexivity|]; cbn in *; destruct b; [discriminate|now apply IH]).
      rewrite (score_grade (repeat false p) _ (fun _ => average (length (fst sp)) (part_y y (fst sp))) (err mask)); [cbn [bind]; rewrite C0, C1; reflexivity| | |exact Hpos].
      + rewrite part_y_take. rewrite (mean_n (length (fst sp)) (part_y y (fst sp)) (map_length _ _) : nmean (N := Rnum) (part_y y (fst sp)) = average (length (fst sp)) (part_y y (fst sp))).
        generalize (average (length (fst sp)) (part_y y (fst sp))). intro v. generalize rows. clear. intro l. induction l as [|a l IH]; [reflexivity|]. exact (f_equal (cons v) IH).
      + unfold model_error. rewrite Em. unfold distance2. rewrite len_rows. apply Sum_ext. intros i Hi. rewrite entry_part_y by exact Hi. reflexivity.
  Qed.

  Lemma best_choice supports : supports <> [] -> (forall mask, In mask supports -> length mask = p) ->
    (forall mask, In mask supports -> (existsb (fun b => b) mask = true -> length (fst (fit_of mask)) = count (fun b => b) mask) /\ (metric <> "r2"%string -> 0 < err mask)) ->
    exists e mask, (let* out := mapM (estimate_support (N := Rnum) ols metric target p X y sp) supports in best_estimate out) = Ok e /\
      In mask supports /\ estimate_of p mask (fit_of mask) e /\
      forall mask', In mask' supports -> cost metric (length rows) (count (fun b => b) mask) (err mask) <= cost metric (length rows) (count (fun b => b) mask') (err mask').
  Proof.
    intros Hs Hlen Hok.
    set (Q := fun (mask : list bool) (o : list R * R) => estimate_of p mask (fit_of mask) (fst o) /\ snd o = grade (cost metric (length rows) (count (fun b => b) mask) (err mask))).
    destruct (mapM_ok (estimate_support (N := Rnum) ols metric target p X y sp) Q supports) as (out & Eo & F).
    { intros mask Hm. destruct (Hok mask Hm) as [H1 H2]. destruct (estimate_grade mask (Hlen mask Hm) H1 H2) as (e & Ee & He). eexists. split; [exact Ee|]. split; [exact He|reflexivity]. }
    rewrite Eo. cbn [bind]. unfold best_estimate.
    assert (Hsp : map snd out <> []).
    { destruct out; [|discriminate]. inversion F. subst. easy. }
    destruct (argmax_spec (map snd out) Hsp) as (m & Em & Hm & Hmax). rr. rewrite Em. cbn [rmap]. rewrite map_length in Hm, Hmax.
    assert (N1 : forall k, nth k (map snd out) 0 = snd (nth k out ([], 0))) by (intros k; exact (map_nth snd out ([], 0) k)).
    assert (N2 : forall k, nth k (map fst out) [] = fst (nth k out ([], 0))) by (intros k; exact (map_nth fst out ([], 0) k)).
    destruct (Forall2_at _ _ _ m ([], 0) F Hm) as (mask & Hmask & _ & Q1 & Q2).
    exists (nth m (map fst out) []), mask. split; [reflexivity|]. split; [exact Hmask|]. split; [rewrite N2; exact Q1|].
    intros mask' Hm'. destruct (Forall2_find _ _ _ mask' ([], 0) F Hm') as (k & Hk & _ & _ & Q3). apply grade_order.
    pose proof (Hmax k Hk) as G. rewrite (N1 k), (N1 m), Q3, Q2 in G. exact G.
  Qed.
End Score.

(** ** The fit *)
Lemma Forall2_len {A B} (P : A -> B -> Prop) l l' : Forall2 P l l' -> length l' = length l.
Proof. induction 1; cbn; congruence. Qed.
Lemma Forall2_weaken {A B} (P Q : A -> B -> Prop) l l' : (forall a b, In a l -> P a b -> Q a b) -> Forall2 P l l' -> Forall2 Q l l'.
Proof. intros H F. induction F as [|a b l l' Hp F IH]; constructor; [apply H; [now left|exact Hp]|]. apply IH. intros x z Hx. apply H. now right. Qed.

Lemma fit_choice has metric target n p X y (ols : solver_ls (N := Rnum)) select splits :
  matrix n p X -> length y = n -> In metric ["r2"; "BIC"; "AIC"; "AICc"]%string ->
  (exists i j, (i < n)%nat /\ (j < n)%nat /\ entry y i <> entry y j) -> splits <> [] ->
  let supports := select X y in
  supports <> [] -> (forall mask, In mask supports -> length mask = p) ->
  let fit_of sp mask := ols (part X (fst sp) mask) (part_y y (fst sp)) in
  let err sp mask := model_error X y (fst sp) (scored target sp) mask (fit_of sp mask) in
  (forall sp, In sp splits ->
     (forall r, In r (fst sp) -> (r < n)%nat) /\ (forall r, In r (scored target sp) -> (r < n)%nat) /\ scored target sp <> [] /\
     (metric = "r2"%string -> (2 <= length (scored target sp))%nat /\
        distance2 (part_y y (scored target sp)) (average (length (scored target sp)) (part_y y (scored target sp))) <> 0) /\
     forall mask, In mask supports ->
       (existsb (fun b => b) mask = true -> length (fst (fit_of sp mask)) = count (fun b => b) mask) /\ (metric <> "r2"%string -> 0 < err sp mask)) ->
  exists best c b,
    regressor_fit (N := Rnum) false has metric target p ols select splits X y = Ok (c, b) /\
    Forall2 (fun sp e => exists mask, In mask supports /\ estimate_of p mask (fit_of sp mask) e /\
      forall mask', In mask' supports ->
        cost metric (length (scored target sp)) (count (fun b => b) mask) (err sp mask)
        <= cost metric (length (scored target sp)) (count (fun b => b) mask') (err sp mask')) splits best /\
    length c = p /\ (forall j, (j < p)%nat -> median_of (map (fun e => entry e j) best) (entry c j)) /\
    b = if has then average n y - Sum p (fun j => average n (map (fun r => entry r j) X) * entry c j) else 0.
Proof.
  intros HX Ly Hmetric (i0 & j0 & Hi0 & Hj0 & Dy) Hs supports Hsup Hlen fit_of err Hok.
  set (P := fun (sp : Model_Fit.split) (e : list R) => exists mask, In mask supports /\ estimate_of p mask (fit_of sp mask) e /\
      forall mask', In mask' supports ->
        cost metric (length (scored target sp)) (count (fun b => b) mask) (err sp mask)
        <= cost metric (length (scored target sp)) (count (fun b => b) mask') (err sp mask')).
  destruct (mapM_ok (fun sp => let* out := mapM (estimate_support (N := Rnum) ols metric target p X y sp) supports in best_estimate out) P splits) as (best & Eb & F).
  { intros sp Hsp. destruct (Hok sp Hsp) as (H1 & H2 & H3 & H4 & H5).
    destruct (best_choice n p X y HX ols metric target sp Hmetric H1 H2 H3 H4 supports Hsup Hlen H5) as (e & mask & Ee & Hm & He & Hc).
    exists e. split; [exact Ee|]. exists mask. split; [exact Hm|]. split; [exact He|exact Hc]. }
  pose proof (Forall2_len _ _ _ F) as Lb.
  assert (Hn : (0 < n)%nat) by lia.
  assert (Lc : length (bagged (N := Rnum) p best) = p) by (unfold bagged; now rewrite map_length, seq_length).
  exists best, (bagged (N := Rnum) p best), (linear_intercept (N := Rnum) has p X y (bagged (N := Rnum) p best)). split; [|split; [|split; [|split]]].
  - unfold regressor_fit, linear_pre. cbn [fst snd].
    assert (Ec : constant_response (N := Rnum) y = false).
    { destruct (constant_response (N := Rnum) y) eqn:C; [|reflexivity]. exfalso. apply (constant_spec y) in C as (a & Ha); [|lia]. apply Dy. rewrite !Ha by lia. reflexivity. }
    unfold base_transform. rewrite ?map_id. rr. rewrite Ec. unfold estimation_module. fold supports. rr. rewrite Eb. cbn [bind fst snd]. reflexivity.
  - eapply Forall2_weaken; [|exact F]. intros sp e _ [_ H]. exact H.
  - exact Lc.
  - intros j Hj. assert (Ej : entry (bagged (N := Rnum) p best) j = median (N := Rnum) (map (fun e => entry e j) best)).
    { unfold bagged. exact (entry_mapseq (fun j => median (N := Rnum) (map (fun e => nth j e 0) best)) p j Hj). }
    rewrite Ej. apply median_value. destruct best; [|discriminate]. cbn in Lb. destruct splits; [easy|discriminate].
  - destruct has; [|reflexivity]. exact (linear_intercept_value n p X y _ HX Hn Ly Lc).
Qed.
