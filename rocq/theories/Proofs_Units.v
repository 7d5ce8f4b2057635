(** Proofs about the units of the response (C123). *)
From Coq Require Import ZArith String List Bool Arith Lia Reals Lra Psatz Permutation Sorted.
From Verif Require Import Prelude F64 Num Model_Intersection Model_Fit Model_Scores Model_Refit Model_Rescale Model_Poisson Model_Linear Model_Estimation Model_Selection
  Spec_Rescale Proofs_Rescale Spec_Poisson Proofs_Poisson Proofs_PoissonOpt Spec_Linear Proofs_Linear
  Proofs_LinearUnits Spec_Estimation Proofs_Estimation Proofs_Estimation2 Proofs_Estimation3 Proofs_Estimation4 Spec_Choice Proofs_Choice Spec_Units.
Import ListNotations.
Local Open Scope R_scope.

(** ** Converted vectors *)
Lemma entry_scaled s (c : list R) j : entry (map (Rmult s) c) j = s * entry c j.
Proof. unfold entry. rewrite <- (map_nth (Rmult s) c 0 j), Rmult_0_r. reflexivity. Qed.
Lemma entry_converted s t (y : list R) i : (i < length y)%nat -> entry (converted s t y) i = s * entry y i + t.
Proof. intro H. unfold entry, converted. rewrite (nth_indep _ 0 (s * 0 + t)) by (rewrite map_length; exact H). exact (map_nth (fun v => s * v + t) y 0 i). Qed.
Lemma length_converted s t (y : list R) : length (converted s t y) = length y.
Proof. apply map_length. Qed.
Lemma part_converted s t (y : list R) rows : (forall i, In i rows -> (i < length y)%nat) -> part_y (converted s t y) rows = converted s t (part_y y rows).
Proof. intro H. unfold part_y, converted at 2. rewrite map_map. apply map_ext_in. intros i Hi. now apply entry_converted, H. Qed.
Lemma eta_scaled p X c b s t i : eta p X (map (Rmult s) c) (s * b + t) i = s * eta p X c b i + t.
Proof.
  unfold eta. rewrite (Sum_ext p _ (fun j => s * (mat X i j * entry c j))) by (intros j _; rewrite entry_scaled; ring).
  rewrite Sum_scal. ring.
Qed.
Lemma map_scale_inv s (c : list R) : s <> 0 -> map (Rmult s) (map (Rmult (/ s)) c) = c.
Proof. intro H. rewrite map_map. refine (eq_trans (map_ext _ (fun v => v) _ c) (map_id c)). intro v. now field. Qed.

Section Convert.
  Variables (s t : R).
  Hypothesis Hs : s <> 0.
  Lemma s2_pos : 0 < s * s. Proof. nra. Qed.
  Lemma abs_s_pos : 0 < Rabs s. Proof. now apply Rabs_pos_lt. Qed.

  Lemma penalty_scaled p lam c : penalty p (Rabs s * lam) 1 (map (Rmult s) c) = s * s * penalty p lam 1 c.
  Proof.
    unfold penalty. rewrite (Sum_ext p (fun j => Rabs (entry (map (Rmult s) c) j)) (fun j => Rabs s * Rabs (entry c j))) by (intros j _; now rewrite entry_scaled, Rabs_mult).
    rewrite Sum_scal. assert (E : s * s = Rabs s * Rabs s) by (rewrite <- Rabs_mult; symmetry; apply Rabs_pos_eq; nra). rewrite E. field.
  Qed.
  Lemma net_scaled k p X y lam c b : length y = k ->
    net k p X (converted s t y) (Rabs s * lam) 1 (map (Rmult s) c) (s * b + t) = s * s * net k p X y lam 1 c b.
  Proof.
    intro L. unfold net. rewrite penalty_scaled.
    rewrite (Sum_ext k _ (fun i => s * s * ((entry y i - eta p X c b i) * (entry y i - eta p X c b i)))).
    - rewrite Sum_scal. ring.
    - intros i Hi. rewrite eta_scaled, entry_converted by lia. ring.
  Qed.
  Lemma minimizer_back has k p X y lam c b : length y = k -> (has = false -> t = 0) ->
    net_minimizer has k p X (converted s t y) (Rabs s * lam) 1 c b -> net_minimizer has k p X y lam 1 (map (Rmult (/ s)) c) (/ s * (b - t)).
  Proof.
    intros L Ht (Lc & Hb & H). split; [now rewrite map_length|]. split; [intro E; rewrite (Hb E), (Ht E); ring|].
    intros c' b' Lc' Hb'. apply (Rmult_le_reg_l (s * s)); [exact s2_pos|]. rewrite <- !net_scaled by exact L.
    rewrite map_scale_inv by exact Hs. replace (s * (/ s * (b - t)) + t) with b by (field; exact Hs).
    apply H; [now rewrite map_length|]. intro E. rewrite (Hb' E), (Ht E). ring.
  Qed.
  Lemma features_back p (c : list R) : same_features p (map (Rmult (/ s)) c) c.
  Proof. intros j _. rewrite entry_scaled. pose proof (Rinv_neq_0_compat s Hs) as P. split; intros A E; apply A; [rewrite E; ring|]. apply Rmult_integral in E as [E|E]; [easy|exact E]. Qed.

  Lemma error_scaled k X y c b : squared_error k X (converted s t y) (map (Rmult s) c) (s * b + t) = s * s * squared_error k X y c b.
  Proof.
    unfold squared_error. rewrite length_converted, <- Sum_scal. apply Sum_ext. intros i Hi. rewrite eta_scaled, entry_converted by lia. ring.
  Qed.
  Lemma least_back has k X y m : (has = false -> t = 0) -> least_squares has k X (converted s t y) m ->
    least_squares has k X y (map (Rmult (/ s)) (fst m), / s * (snd m - t)).
  Proof.
    intros Ht (Lc & Hb & H). split; [cbn; now rewrite map_length|]. split; [cbn; intro E; rewrite (Hb E), (Ht E); ring|].
    intros c' b' Lc' Hb'. cbn [fst snd]. apply (Rmult_le_reg_l (s * s)); [exact s2_pos|]. rewrite <- !error_scaled.
    rewrite map_scale_inv by exact Hs. replace (s * (/ s * (snd m - t)) + t) with (snd m) by (field; exact Hs).
    apply H; [now rewrite map_length|]. intro E. rewrite (Hb' E), (Ht E). ring.
  Qed.
  Lemma least_unique_scaled has k X y m m2 : (has = false -> t = 0) -> only_least_squares has k X y m -> least_squares has k X (converted s t y) m2 ->
    m2 = (map (Rmult s) (fst m), s * snd m + t).
  Proof.
    intros Ht [_ U] H. pose proof (U _ (least_back has k X y m2 Ht H)) as E. rewrite <- E. cbn [fst snd]. rewrite map_scale_inv by exact Hs.
    replace (s * (/ s * (snd m2 - t)) + t) with (snd m2) by (field; exact Hs). now destruct m2.
  Qed.

  (** ** The penalties *)
  Lemma average_converted n y : length y = n -> (0 < n)%nat -> average n (converted s t y) = s * average n y + t.
  Proof.
    intros L Hn. unfold average. rewrite (Sum_ext n _ (fun i => s * entry y i + t)) by (intros i Hi; apply entry_converted; lia).
    rewrite (Sum_plus n (fun i => s * entry y i) (fun _ => t)), (Sum_scal n (fun i => entry y i) s), Sum_const. field. apply not_0_INR. lia.
  Qed.
  Lemma comoment_converted has n X y j : length y = n -> (0 < n)%nat -> (has = false -> t = 0) -> comoment has n X (converted s t y) j = s * comoment has n X y j.
  Proof.
    intros L Hn Ht. unfold comoment. rewrite <- Sum_scal. apply Sum_ext. intros i Hi. rewrite entry_converted by lia.
    destruct has; [rewrite average_converted by assumption|rewrite (Ht eq_refl)]; ring.
  Qed.
  Lemma largest_unique p f a b : largest p f a -> largest p f b -> a = b.
  Proof. intros [A (j & Hj & Ea)] [B (i & Hi & Eb)]. apply Rle_antisym; [rewrite <- Ea; now apply B|rewrite <- Eb; now apply A]. Qed.
  Lemma alpha_max_mix has n p X (y : list R) (mix : R) : matrix n p X -> (0 < n)%nat -> length y = n -> (0 < p)%nat -> (has = false -> t = 0) ->
    alpha_max (N := Rnum) has p X (converted s t y) mix = Rabs s * alpha_max (N := Rnum) has p X y mix.
  Proof.
    intros HX Hn Ly Hp Ht. destruct (alpha_max_value has n p X y HX Hn Ly mix Hp) as (m & Hm & ->).
    destruct (alpha_max_value has n p X (converted s t y) HX Hn (eq_trans (length_converted s t y) Ly) mix Hp) as (m2 & Hm2 & ->).
    assert (E : m2 = Rabs s * m); [|rr; rewrite E; unfold Rdiv; ring].
    apply (largest_unique p (comoment has n X (converted s t y))); [exact Hm2|]. destruct Hm as [A (j & Hj & Ea)]. split.
    - intros i Hi. rewrite comoment_converted, Rabs_mult by assumption. apply Rmult_le_compat_l; [apply Rabs_pos|now apply A].
    - exists j. split; [exact Hj|]. now rewrite comoment_converted, Rabs_mult, Ea by assumption.
  Qed.
  Lemma alpha_max_converted has n p X y : matrix n p X -> (0 < n)%nat -> length y = n -> (0 < p)%nat -> (has = false -> t = 0) ->
    alpha_max (N := Rnum) has p X (converted s t y) 1 = Rabs s * alpha_max (N := Rnum) has p X y 1.
  Proof. exact (alpha_max_mix has n p X y 1). Qed.
  Lemma grid_converted has n p X y eps num : matrix n p X -> (0 < n)%nat -> length y = n -> (0 < p)%nat -> (has = false -> t = 0) ->
    0 < eps -> / 10 ^ 15 < alpha_max (N := Rnum) has p X y 1 -> / 10 ^ 15 < Rabs s * alpha_max (N := Rnum) has p X y 1 ->
    exists g : list R, lasso_grid (N := Rnum) has p X y eps num = Ok g /\ lasso_grid (N := Rnum) has p X (converted s t y) eps num = Ok (map (Rmult (Rabs s)) g).
  Proof.
    intros HX Hn Ly Hp Ht He H1 H2. pose proof (alpha_max_converted has n p X y HX Hn Ly Hp Ht) as EA.
    destruct (alpha_grid_value has p X y 1 eps num R1_neq_R0 He H1) as (g & E & L & V1 & V2).
    destruct (alpha_grid_value has p X (converted s t y) 1 eps num R1_neq_R0 He ltac:(rewrite EA; exact H2)) as (g2 & E2 & L2 & W1 & W2).
    exists g. split; [exact E|]. refine (eq_trans E2 _). f_equal. rewrite EA in W1, W2.
    destruct num as [|[|num]].
    - apply length_zero_iff_nil in L, L2. now subst.
    - rewrite (V1 eq_refl), (W1 eq_refl). cbn. f_equal. ring.
    - apply (list_eq_entries _ _ (S (S num))); [exact L2|now rewrite map_length|]. intros i Hi.
      rewrite entry_scaled, V2, W2 by lia. ring.
  Qed.

  (** ** Selection *)
  Lemma stable_same p nreg (cs cs2 : list (list (list R))) z :
    Forall2 (fun b b2 => forall r j, (r < nreg)%nat -> (j < p)%nat -> entry (nth r b []) j <> 0 <-> entry (nth r b2 []) j <> 0) cs cs2 ->
    stable_rows (N := Rnum) p nreg cs z = stable_rows (N := Rnum) p nreg cs2 z.
  Proof.
    intro F. unfold stable_rows. apply map_ext_in. intros r Hr. apply in_seq in Hr. apply map_ext_in. intros j Hj. apply in_seq in Hj.
    do 2 f_equal. induction F as [|b b2 l l2 H F IH]; [reflexivity|]. cbn [count]. rewrite IH.
    assert (E : nnonzero (N := Rnum) (nth j (nth r b []) nzero) = nnonzero (N := Rnum) (nth j (nth r b2 []) nzero)).
    { specialize (H r j ltac:(lia) ltac:(lia)). unfold entry in H. unfold nnonzero, nzero. cbn [neqb nofZ Rnum]. unfold Reqb.
      destruct (Req_EM_T (nth j (nth r b []) 0) 0), (Req_EM_T (nth j (nth r b2 []) 0) 0); tauto. }
    rr. rewrite E. reflexivity.
  Qed.

  Lemma select_converted has n p X (y : list R) eps num ts (net : solver_net (N := Rnum)) splits :
    matrix n p X -> (0 < n)%nat -> length y = n -> (0 < p)%nat -> (has = false -> t = 0) ->
    0 < eps -> / 10 ^ 15 < alpha_max (N := Rnum) has p X y 1 -> / 10 ^ 15 < Rabs s * alpha_max (N := Rnum) has p X y 1 ->
    (forall sp (lam : R) (g : list R), In sp splits -> lasso_grid (N := Rnum) has p X y eps num = Ok g -> In lam g ->
       let Xr := samples X (fst sp) in let yr := part_y y (fst sp) in let k := length (fst sp) in
       (forall i, In i (fst sp) -> (i < n)%nat) /\
       clear_features has k p Xr yr lam 1 /\
       net_solution has k p Xr yr lam 1 (net Xr yr lam 1) /\
       net_solution has k p Xr (converted s t yr) (Rabs s * lam) 1 (net Xr (converted s t yr) (Rabs s * lam) 1)) ->
    lasso_select (N := Rnum) has p eps num net ts splits X (converted s t y) = lasso_select (N := Rnum) has p eps num net ts splits X y.
  Proof.
    intros HX Hn Ly Hp Ht He H1 H2 Hsol. destruct (grid_converted has n p X y eps num HX Hn Ly Hp Ht He H1 H2) as (g & Eg & Eg2).
    unfold lasso_select. rewrite Eg, Eg2. cbn [rmap select_with]. unfold selection_module. f_equal. rewrite !map_length.
    rewrite !flat_map_concat_map. f_equal. apply map_ext. intro z. symmetry. apply stable_same.
    assert (Hsol' : forall sp lam, In sp splits -> In lam g -> 
       (forall i, In i (fst sp) -> (i < n)%nat) /\ same_features p (net (samples X (fst sp)) (part_y y (fst sp)) lam 1) (net (samples X (fst sp)) (converted s t (part_y y (fst sp))) (Rabs s * lam) 1)).
    { intros sp lam Hsp Hl. destruct (Hsol sp lam g Hsp Eg Hl) as (Hr & U & S1 & b & S2). split; [exact Hr|].
      pose proof (U _ _ S1 (ex_intro _ _ (minimizer_back has _ p _ _ lam _ b (map_length _ _) Ht S2))) as SF.
      intros j Hj. exact (iff_trans (SF j Hj) (features_back p _ j Hj)). }
    clear Hsol Eg Eg2. induction splits as [|sp l IH]; [constructor|]. cbn [map]. constructor; [|apply IH; intros sp' lam Hsp; apply Hsol'; now right].
    intros r j Hr Hj. destruct (Hsol' sp (nth r g 0) (or_introl eq_refl) (nth_In _ _ Hr)) as [Hrows SF].
    assert (Er : forall (A : Type) (h : A) (f : R -> A) (q : A -> list R), nth r (map q (map f g)) [] = q (f (nth r g 0))).
    { intros A h f q. rewrite map_map. rewrite (nth_indep _ [] (q (f 0))) by (rewrite map_length; exact Hr). apply (map_nth (fun x => q (f x))). }
    match goal with |- entry ?A j <> 0 <-> entry ?B j <> 0 =>
      assert (EA : A = net (samples X (fst sp)) (part_y y (fst sp)) (nth r g 0) 1);
      [|assert (EB : B = net (samples X (fst sp)) (converted s t (part_y y (fst sp))) (Rabs s * nth r g 0) 1)] end.
    - refine (eq_trans (Er _ (RegAlpha 0) RegAlpha _) _). cbn [apply_params]. rewrite part_y_take. reflexivity.
    - rewrite (map_map (Rmult (Rabs s)) RegAlpha). refine (eq_trans (Er _ (RegAlpha 0) (fun x => RegAlpha (Rabs s * x)) _) _). cbn [apply_params].
      rewrite part_y_take, part_converted by (intros i Hi; rewrite Ly; now apply Hrows). reflexivity.
    - rewrite EA, EB. exact (SF j Hj).
  Qed.
End Convert.
