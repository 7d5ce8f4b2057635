(** Proofs about swapping the two classes (C128): supports, intercepts and the whole fit. *)
From Coq Require Import ZArith String List Bool Arith Lia Reals Lra Psatz.
From Verif Require Import Prelude F64 Num Model_Intersection Model_Fit Model_Scores Model_Refit Model_Rescale Model_Poisson Model_Linear Model_Estimation Model_Selection Model_ClassFit
  Proofs_Intersection Spec_Rescale Proofs_Rescale Spec_Poisson Proofs_Poisson Spec_Linear Proofs_Linear
  Proofs_LinearUnits Spec_Estimation Proofs_Estimation Proofs_Estimation2 Proofs_Estimation3 Spec_Choice Proofs_Choice Spec_Units Proofs_Units Proofs_Units2 Proofs_Units3 Proofs_CountFit2 Deriv Spec_ClassFit Proofs_ClassFit.
From Verif Require Proofs_PoissonNull Model_Logistic Model_Labels Spec_Logistic Proofs_Logistic Proofs_LogisticGrid Proofs_LogisticIntercept.
Import ListNotations.
Local Open Scope R_scope.

(** ** Selection *)
Lemma opposite_scaled l : opposite l = map (Rmult (-1)) l.
Proof. unfold opposite. apply map_ext. intro. ring. Qed.
Lemma opp_nonzero (v : R) : - v <> 0 <-> v <> 0.
Proof. split; intros H G; apply H; lra. Qed.
Lemma select_swapped n p X (y : list nat) ts (Cs : list R) (sel_lm : solver_C (N := Rnum)) splits :
  length y = n -> Forall (fun v => (v < 2)%nat) y ->
  (forall sp (C : R), In sp splits -> In C Cs ->
     let Xr := samples X (fst sp) in let yr := part_y (map INR y) (fst sp) in let k := length (fst sp) in
     (forall i, In i (fst sp) -> (i < n)%nat) /\ clear_classes k p Xr yr (/ C) /\
     class_minimizer k p Xr yr (/ C) (sel_lm Xr yr C) /\
     class_minimizer k p Xr (swapped yr) (/ C) (sel_lm Xr (swapped yr) C)) ->
  class_select (N := Rnum) p sel_lm ts Cs splits X (map other y) = class_select (N := Rnum) p sel_lm ts Cs splits X y.
Proof.
  intros Ly Hb Hsol. unfold class_select. rewrite (numbers_swapped y Hb), (numbers_R y).
  unfold selection_module. f_equal. rewrite !flat_map_concat_map. f_equal. apply map_ext. intro z. symmetry. apply stable_same.
  induction splits as [|sp l IH]; [constructor|]. cbn [map]. constructor; [|apply IH; intros sp' C Hsp; apply Hsol; now right].
  intros r j Hr Hj. rewrite map_length in Hr. unfold selection_sweep. rewrite !map_map. cbn [apply_params].
  assert (E : forall f : R -> list R, nth r (map f Cs) [] = f (nth r Cs 0)).
  { intro f. rewrite (nth_indep _ [] (f 0)) by (rewrite map_length; exact Hr). apply map_nth. }
  pose proof (nth_In Cs 0 Hr) as Hin.
  destruct (Hsol sp (nth r Cs 0) (or_introl eq_refl) Hin) as (Hrows & U & S1 & S2).
  change (entry (nth r (map (fun C : R => fst (sel_lm (samples X (fst sp)) (part_y (map INR y) (fst sp)) C)) Cs) []) j <> 0 <->
          entry (nth r (map (fun C : R => fst (sel_lm (samples X (fst sp)) (part_y (swapped (map INR y)) (fst sp)) C)) Cs) []) j <> 0).
  rewrite !E. rewrite part_swapped by (intros i Hi; rewrite map_length, Ly; now apply Hrows).
  pose proof (U _ _ S1 (minimizer_swapped _ _ _ _ _ _ (map_length _ _) S2) j Hj) as Q. unfold flip in Q. cbn [fst] in Q. rewrite entry_opposite in Q.
  refine (iff_trans Q _). apply opp_nonzero.
Qed.

(** ** Intercepts *)
Definition sg (x : R) : R := / (1 + exp (- x)).
Lemma sg_lt a b : a < b -> sg a < sg b.
Proof. intro H. unfold sg. pose proof (exp_pos (- a)). pose proof (exp_pos (- b)). apply Rinv_lt_contravar; [nra|]. apply Rplus_lt_compat_l, exp_increasing. lra. Qed.
Lemma sg_opposite x : sg (- x) = 1 - sg x.
Proof. unfold sg. rewrite Ropp_involutive, exp_Ropp. pose proof (exp_pos x). field. lra. Qed.
Lemma Sum_lt n f g : (0 < n)%nat -> (forall i, (i < n)%nat -> f i < g i) -> Sum n f < Sum n g.
Proof.
  intros Hn H. assert (0 < Sum n (fun i => g i - f i)) by (apply Proofs_PoissonNull.Sum_pos; [exact Hn|]; intros i Hi; specialize (H i Hi); lra).
  rewrite Sum_minus in H0. lra.
Qed.
Lemma eta_shift p X c b i : eta p X c b i = eta p X c 0 i + b.
Proof. unfold eta. ring. Qed.
Lemma intercept_unique n p X (y c : list R) b b' : (0 < n)%nat -> matching_intercept n p X y c b -> matching_intercept n p X y c b' -> b = b'.
Proof.
  intros Hn H H'. unfold matching_intercept in *. rewrite <- H' in H. destruct (Rtotal_order b b') as [L|[E|L]]; [|exact E|]; exfalso.
  - pose proof (Sum_lt n (fun i => sg (eta p X c b i)) (fun i => sg (eta p X c b' i)) Hn) as Q. unfold sg in Q at 3 4. rewrite H in Q.
    apply (Rlt_irrefl (Sum n (fun i => / (1 + exp (- eta p X c b' i))))), Q. intros i _. apply sg_lt. rewrite (eta_shift p X c b), (eta_shift p X c b'). lra.
  - pose proof (Sum_lt n (fun i => sg (eta p X c b' i)) (fun i => sg (eta p X c b i)) Hn) as Q. unfold sg in Q at 3 4. rewrite H in Q.
    apply (Rlt_irrefl (Sum n (fun i => / (1 + exp (- eta p X c b' i))))), Q. intros i _. apply sg_lt. rewrite (eta_shift p X c b), (eta_shift p X c b'). lra.
Qed.
Lemma matching_swapped n p X (y c : list R) b : length y = n -> matching_intercept n p X (swapped y) (opposite c) (- b) <-> matching_intercept n p X y c b.
Proof.
  intro Ly. unfold matching_intercept.
  rewrite (Sum_ext n (fun i => / (1 + exp (- eta p X (opposite c) (- b) i))) (fun i => 1 - / (1 + exp (- eta p X c b i)))).
  - rewrite (Sum_ext n (entry (swapped y)) (fun i => 1 - entry y i)) by (intros i Hi; apply entry_swapped; rewrite Ly; exact Hi).
    rewrite !Sum_minus. split; intro H; lra.
  - intros i _. rewrite eta_opposite. exact (sg_opposite (eta p X c b i)).
Qed.

Lemma sg_pos x : 0 < sg x < 1.
Proof. unfold sg. pose proof (exp_pos (- x)). split; [apply Rinv_0_lt_compat; lra|]. rewrite <- Rinv_1. apply Rinv_lt_contravar; lra. Qed.
Lemma sg_exp x : sg x <= exp x.
Proof.
  unfold sg. rewrite exp_Ropp. pose proof (exp_pos x) as P. replace (/ (1 + / exp x)) with (exp x * / (1 + exp x)) by (field; lra).
  rewrite <- (Rmult_1_r (exp x)) at 3. apply Rmult_le_compat_l; [lra|]. rewrite <- Rinv_1. apply Rinv_le_contravar; lra.
Qed.
Lemma Sum_one n (f : nat -> R) i : (forall j, (j < n)%nat -> 0 <= f j) -> (i < n)%nat -> f i <= Sum n f.
Proof.
  revert i. induction n as [|n IH]; intros i H Hi; [lia|]. rewrite Sum_S.
  assert (0 <= Sum n f) by (apply Sum_nonneg; intros; apply H; lia).
  destruct (Nat.eq_dec i n) as [->|D]; [lra|]. specialize (IH i ltac:(intros; apply H; lia) ltac:(lia)). specialize (H n ltac:(lia)). lra.
Qed.
(** With both classes present there is such an intercept for any coefficients. *)
Lemma intercept_exists n p X (y c : list R) : (0 < n)%nat -> 1 <= Sum n (entry y) <= INR n - 1 -> { b | matching_intercept n p X y c b }.
Proof.
  intros Hn Hy. set (u := fun i => eta p X c 0 i). set (M := Sum n (fun i => Rabs (u i))). set (L := ln (2 * INR n)).
  assert (I : 1 <= INR n) by (apply (le_INR 1); lia).
  assert (B : forall i, (i < n)%nat -> Rabs (u i) <= M) by (intros i Hi; apply (Sum_one n (fun i => Rabs (u i))); [intros; apply Rabs_pos|exact Hi]).
  assert (HL : 0 < L) by (unfold L; rewrite <- ln_1; apply ln_increasing; lra).
  assert (HM : 0 <= M) by (apply Sum_nonneg; intros; apply Rabs_pos).
  assert (EL : exp (- L) = / (2 * INR n)) by (unfold L; rewrite exp_Ropp, exp_ln by lra; reflexivity).
  assert (S1 : forall v i, (i < n)%nat -> v = u i \/ v = - u i -> sg (v + (- M - L)) <= / (2 * INR n)).
  { intros v i Hi Hv. specialize (B i Hi). assert (v <= M) by (pose proof (Rle_abs (u i)); pose proof (Rle_abs (- u i)); rewrite Rabs_Ropp in *; destruct Hv; subst v; lra).
    eapply Rle_trans; [apply sg_exp|]. rewrite <- EL. destruct (Req_dec v M) as [->|D]; [right; f_equal; ring|]. left. apply exp_increasing. lra. }
  assert (S0 : Sum n (fun _ => / (2 * INR n)) = / 2) by (rewrite Sum_const; field; lra).
  set (f := fun b => Sum n (fun i => sg (u i + b)) - Sum n (entry y)).
  assert (Cf : continuity f).
  { intro x. apply derivable_continuous_pt. eexists. unfold f. apply der_minus; [|apply der_const].
    apply (der_Sum n (fun i t => sg (u i + t))). intros i _. unfold sg.
    apply (der_ext (fun t => exp (- ln (1 + exp (- (u i + t)))))).
    - intro t. pose proof (exp_pos (- (u i + t))). rewrite exp_Ropp, exp_ln by lra. reflexivity.
    - apply (der_exp (fun t => - ln (1 + exp (- (u i + t))))). apply der_opp. pose proof (exp_pos (- (u i + x))). apply (der_ln (fun t => 1 + exp (- (u i + t)))); [lra|].
      apply der_plus; [apply der_const|]. apply (der_exp (fun t => - (u i + t))). apply der_opp. apply der_plus; [apply der_const|apply der_id]. }
  destruct (IVT f (- M - L) (M + L) Cf) as (b & _ & Hz); [lra| | |].
  - unfold f. assert (Sum n (fun i => sg (u i + (- M - L))) <= / 2); [|lra]. rewrite <- S0. apply Sum_le. intros i Hi. apply (S1 (u i) i Hi). now left.
  - unfold f. assert (INR n - / 2 <= Sum n (fun i => sg (u i + (M + L)))) as Q2; [|revert Q2; generalize (Sum n (fun i => sg (u i + (M + L)))); intros v Q2; lra].
    assert (Q : Sum n (fun _ => 1) = INR n) by (rewrite Sum_const; ring). replace (INR n - / 2) with (Sum n (fun _ => 1) - Sum n (fun _ => / (2 * INR n))) by (rewrite Q, S0; ring). rewrite <- Sum_minus. apply Sum_le. intros i Hi.
    replace (u i + (M + L)) with (- (- u i + (- M - L))) by ring. rewrite sg_opposite. pose proof (S1 (- u i) i Hi (or_intror eq_refl)) as Q1. revert Q1. generalize (sg (- u i + (- M - L))). generalize (/ (2 * INR n)). intros v w Q1. lra.
  - exists b. unfold matching_intercept. unfold f in Hz. rewrite (Sum_ext n _ (fun i => sg (u i + b))); [apply Rminus_diag_uniq; exact Hz|]. intros i _. rewrite eta_shift. reflexivity.
Qed.

(** ** The estimation module and the fit *)
Section Whole.
  Variables (n p : nat) (y y2 : list Model_Labels.label).
  Notation cy := (Model_Labels.codes y).
  Hypothesis Hn : (0 < n)%nat.
  Hypothesis Ly : length cy = n.
  Hypothesis Hb : Forall (fun v => (v < 2)%nat) cy.
  Hypothesis E2 : Model_Labels.codes y2 = map other cy.
  Variables (est_lm : solver_ml (N := Rnum)) (refit : refitter (N := Rnum)) (clip : R) (target : nat).

  Lemma swapped_INR : swapped (map INR cy) = map INR (map other cy).
  Proof. now rewrite <- !numbers_R, <- numbers_swapped. Qed.
  Lemma refit_swapped X c : length c = p ->
    (forall c (z : list nat), length c = p -> z = cy \/ z = map other cy -> matching_intercept n p X (map INR z) c (refit X c z)) ->
    refit X (opposite c) (map other cy) = - refit X c cy.
  Proof.
    intros Lc H. apply (intercept_unique n p X (map INR (map other cy)) (opposite c)); [exact Hn| |].
    - apply H; [now rewrite length_opposite|now right].
    - rewrite <- swapped_INR. apply matching_swapped; [now rewrite map_length|]. apply H; [exact Lc|now left].
  Qed.

  Lemma module_swapped X supports splits : matrix n p X -> splits <> [] -> supports <> [] ->
    (forall mask, In mask supports -> length mask = p) ->
    (forall sp, In sp splits -> decisive n X cy est_lm target supports sp) ->
    (forall c (z : list nat), length c = p -> z = cy \/ z = map other cy -> matching_intercept n p X (map INR z) c (refit X c z)) ->
    exists c b, length c = p /\ class_module (N := Rnum) est_lm refit clip "acc" target p true X y supports splits = Ok (c, b) /\
      class_module (N := Rnum) est_lm refit clip "acc" target p true X y2 supports splits = Ok (opposite c, - b).
  Proof.
    intros HX Hsp Hsup Hlen Hok Href.
    set (one := fun y sp => let* out := mapM (estimate_class (N := Rnum) est_lm clip "acc" target p X y sp) supports in best_estimate out).
    destruct (mapM_best (one y) (one y2) (-1) splits) as (best & F & F2 & L).
    { intros sp Hin.
      destruct (mapM_carry (estimate_class (N := Rnum) est_lm clip "acc" target p X y sp) (estimate_class (N := Rnum) est_lm clip "acc" target p X y2 sp) (-1) 0 supports) as (out & G & G2 & Lo).
      { intros mask Hm. exact (estimate_swapped n p X y y2 HX Ly Hb E2 est_lm clip target supports sp mask (Hok sp Hin) Hm (Hlen mask Hm)). }
      unfold one. rr. rewrite G, G2. cbn [bind]. rewrite best_carried.
      assert (Hne : map snd out <> []) by (destruct out; [destruct supports; [easy|discriminate]|discriminate]).
      unfold best_estimate. destruct (argmax_spec (map snd out) Hne) as (m & Em & _). rr. rewrite Em. cbn [rmap]. eexists. split; reflexivity. }
    assert (Hbest : best <> []) by (destruct best; [destruct splits; [easy|discriminate]|discriminate]).
    assert (Lc : length (bagged (N := Rnum) p best) = p) by (unfold bagged; now rewrite map_length, seq_length).
    exists (bagged (N := Rnum) p best), (refit X (bagged (N := Rnum) p best) cy). split; [exact Lc|]. split.
    - unfold class_module. fold (one y). rr. change (fun sp => one y sp) with (one y). rewrite F. reflexivity.
    - unfold class_module. fold (one y2). rr. change (fun sp => one y2 sp) with (one y2). rewrite F2. cbn [bind]. rewrite E2.
      rewrite (bagged_scaled (-1) p best Hbest), <- opposite_scaled. unfold class_intercept. rewrite (refit_swapped X _ Lc Href). reflexivity.
  Qed.
End Whole.

Lemma post_swapped standardize (sX : scaler Rnum) (c : list R) (b : R) :
  glm_post (N := Rnum) standardize true sX (opposite c) (- b) = flip (glm_post (N := Rnum) standardize true sX c b).
Proof.
  unfold glm_post, flip. cbn [fst snd]. assert (E : base_post (N := Rnum) standardize sX (opposite c) = opposite (base_post (N := Rnum) standardize sX c)).
  { unfold base_post. destruct standardize; [|reflexivity]. generalize (scale_ sX). induction c as [|v c IH]; intros [|s l]; try reflexivity.
    cbn [opposite map map2]. f_equal; [|apply IH]. cbn. unfold Rdiv. ring. }
  rr. rewrite E. f_equal. rewrite dot_opposite. destruct standardize; [|reflexivity]. cbn [andb].
  match goal with |- nadd _ (- ?d) = _ => change (- b + - d = - (b + d)) end. ring.
Qed.

Lemma class_swapped standardize n p X (y y2 : list Model_Labels.label) eps num (Cs : list R) ts clip target
    (sel_lm : solver_C (N := Rnum)) (est_lm : solver_ml (N := Rnum)) (refit : refitter (N := Rnum)) sel est :
  let z := Model_Labels.codes y in
  matrix n p X -> length z = n -> Forall (fun v => (v < 2)%nat) z -> In 0%nat z -> In 1%nat z ->
  Model_Labels.codes y2 = map other z -> ts <> [] -> Cs <> [] -> est <> [] ->
  let Xs := map (base_transform (N := Rnum) standardize true (fit_scaler (columns p X))) X in
  class_Cs (N := Rnum) true p eps num Xs z = Ok Cs -> class_Cs (N := Rnum) true p eps num Xs (map other z) = Ok Cs ->
  (forall sp (C : R), In sp sel -> In C Cs ->
     let Xr := samples Xs (fst sp) in let yr := part_y (map INR z) (fst sp) in let k := length (fst sp) in
     (forall i, In i (fst sp) -> (i < n)%nat) /\ clear_classes k p Xr yr (/ C) /\
     class_minimizer k p Xr yr (/ C) (sel_lm Xr yr C) /\
     class_minimizer k p Xr (swapped yr) (/ C) (sel_lm Xr (swapped yr) C)) ->
  let supports := class_select (N := Rnum) p sel_lm ts Cs sel Xs z in
  (forall sp, In sp est -> decisive n Xs z est_lm target supports sp) ->
  (forall c (w : list nat), length c = p -> w = z \/ w = map other z -> matching_intercept n p Xs (map INR w) c (refit Xs c w)) ->
  class_select (N := Rnum) p sel_lm ts Cs sel Xs (map other z) = supports /\
  exists c b,
    class_fit (N := Rnum) standardize true eps num ts clip "acc" target p sel_lm est_lm refit sel est X y = Ok (c, b) /\
    class_fit (N := Rnum) standardize true eps num ts clip "acc" target p sel_lm est_lm refit sel est X y2 = Ok (opposite c, - b).
Proof.
  intros z HX Lz Hb H0 H1 E2 Hts HCs Hest Xs G G2 Hsol supports Hok Href.
  assert (Hn : (0 < n)%nat) by (rewrite <- Lz; destruct z; [easy|cbn; lia]).
  assert (HXs : matrix n p Xs) by exact (centered_matrix standardize n p X (map INR z) HX Hn ltac:(now rewrite map_length)).
  pose proof (select_swapped n p Xs z ts Cs sel_lm sel Lz Hb Hsol) as Es. split; [exact Es|].
  destruct (module_swapped n p y y2 Hn Lz Hb E2 est_lm refit clip target Xs supports est HXs Hest) as (c & b & Lc & E & E').
  - unfold supports, class_select. apply module_cons; [exact Hts|]. destruct Cs; [easy|discriminate].
  - intros mask Hm. exact (module_length mask Hm).
  - exact Hok.
  - exact Href.
  - assert (V : exists i j, (i < n)%nat /\ (j < n)%nat /\ nth i z 0%nat = 0%nat /\ nth j z 0%nat = 1%nat).
    { apply (In_nth _ _ 0%nat) in H0 as (i & Hi & Ei). apply (In_nth _ _ 0%nat) in H1 as (j & Hj & Ej). exists i, j. rewrite Lz in Hi, Hj. now repeat split. }
    assert (L1 : length (numbers (N := Rnum) z) = n) by (unfold numbers; now rewrite map_length).
    assert (C1 : constant_response (N := Rnum) (numbers z) = false).
    { apply (not_constant n (numbers (N := Rnum) z) L1 (numbers (N := Rnum) z) L1). destruct V as (i & j & Hi & Hj & Ei & Ej). exists i, j. split; [exact Hi|]. split; [exact Hj|].
      rewrite !number_at, Ei, Ej. cbn. lra. }
    assert (C2 : constant_response (N := Rnum) (numbers (map other z)) = false).
    { rewrite (numbers_swapped z Hb). assert (L2 : length (swapped (numbers (N := Rnum) z)) = n) by exact (eq_trans (map_length _ _) L1).
      apply (not_constant n (numbers (N := Rnum) z) L1 _ L2). destruct V as (i & j & Hi & Hj & Ei & Ej). exists i, j. split; [exact Hi|]. split; [exact Hj|].
      rewrite (entry_swapped _ i (eq_rect_r (fun k => (i < k)%nat) Hi L1)), (entry_swapped _ j (eq_rect_r (fun k => (j < k)%nat) Hj L1)). rewrite !number_at, Ei, Ej. cbn. lra. }
    set (sX := fit_scaler (N := Rnum) (columns p X)) in *.
    exists (fst (glm_post (N := Rnum) standardize true sX c b)), (snd (glm_post (N := Rnum) standardize true sX c b)). split.
    + unfold class_fit. fold sX. fold Xs. fold z. rr. rewrite C1, G. cbn [bind]. fold supports. rewrite E. cbn [bind fst snd]. now rewrite <- surjective_pairing.
    + unfold class_fit. fold sX. fold Xs. rewrite E2. rr. rewrite C2, G2. cbn [bind]. fold z. rewrite Es. fold supports. rewrite E'. cbn [bind fst snd]. now rewrite post_swapped.
Qed.
