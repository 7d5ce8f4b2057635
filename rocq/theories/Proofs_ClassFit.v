(** Proofs about swapping the two classes (C128): losses, scores and estimates. *)
From Coq Require Import ZArith String List Bool Arith Lia Reals Lra Psatz.
From Verif Require Import Prelude F64 Num Model_Intersection Model_Fit Model_Scores Model_Refit Model_Rescale Model_Poisson Model_Linear Model_Estimation Model_Selection Model_ClassFit
  Proofs_Intersection Spec_Rescale Proofs_Rescale Spec_Poisson Proofs_Poisson Spec_Linear Proofs_Linear
  Proofs_LinearUnits Spec_Estimation Proofs_Estimation Proofs_Estimation2 Proofs_Estimation3 Spec_Choice Proofs_Choice Spec_Units Proofs_Units Proofs_Units2 Proofs_Units3 Proofs_CountFit2 Spec_ClassFit.
From Verif Require Model_Logistic Model_Labels Spec_Logistic Proofs_Logistic Proofs_LogisticGrid Proofs_LogisticIntercept.
Import ListNotations.
Local Open Scope R_scope.

(** ** Losses *)
Lemma opposite_twice c : opposite (opposite c) = c.
Proof. unfold opposite. rewrite map_map. rewrite <- (map_id c) at 2. apply map_ext. intro. ring. Qed.
Lemma length_opposite c : length (opposite c) = length c.
Proof. apply map_length. Qed.
Lemma entry_opposite c j : entry (opposite c) j = - entry c j.
Proof. unfold entry, opposite. replace 0 with (- 0) at 1 by ring. apply map_nth. Qed.
Lemma entry_swapped y i : (i < length y)%nat -> entry (swapped y) i = 1 - entry y i.
Proof.
  intro H. unfold entry, swapped. rewrite (nth_indep _ 0 (1 - 0)) by (rewrite map_length; exact H). exact (map_nth (fun v => 1 - v) y 0 i).
Qed.
Lemma swapped_twice y : swapped (swapped y) = y.
Proof. unfold swapped. rewrite map_map. rewrite <- (map_id y) at 2. apply map_ext. intro. ring. Qed.
Lemma eta_opposite p X c b i : eta p X (opposite c) (- b) i = - eta p X c b i.
Proof.
  unfold eta. rewrite (Sum_ext p _ (fun j => -1 * (mat X i j * entry c j))) by (intros j _; rewrite entry_opposite; ring). rewrite Sum_scal. ring.
Qed.
Lemma objective_swapped n p X y lam c b : length y = n -> class_objective n p X (swapped y) lam (opposite c) (- b) = class_objective n p X y lam c b.
Proof.
  intro Ly. unfold class_objective. f_equal; [|f_equal; apply Sum_ext; intros j _; rewrite entry_opposite; apply Rabs_Ropp].
  f_equal. apply Sum_ext. intros i Hi. rewrite eta_opposite, entry_swapped by (rewrite Ly; exact Hi). set (e := eta p X c b i).
  assert (E : ln (1 + exp (- e)) = ln (1 + exp e) - e).
  { pose proof (exp_pos e). pose proof (exp_pos (- e)). replace (1 + exp (- e)) with ((1 + exp e) * exp (- e)).
    - rewrite ln_mult, ln_exp by lra. ring.
    - rewrite Rmult_plus_distr_r, <- exp_plus. replace (e + - e) with 0 by ring. rewrite exp_0. ring. }
  rewrite E. ring.
Qed.
Definition flip (m : list R * R) : list R * R := (opposite (fst m), - snd m).
Lemma flip_twice m : flip (flip m) = m.
Proof. destruct m as [c b]. unfold flip. cbn [fst snd]. rewrite opposite_twice. f_equal. ring. Qed.
Lemma minimizer_swapped n p X y lam m : length y = n -> class_minimizer n p X (swapped y) lam m -> class_minimizer n p X y lam (flip m).
Proof.
  intros Ly [L H]. split; [unfold flip; cbn [fst]; now rewrite length_opposite|]. intros c' b' L'. unfold flip. cbn [fst snd].
  specialize (H (opposite c') (- b') ltac:(now rewrite length_opposite)). rewrite (objective_swapped n p X y lam c' b' Ly) in H.
  rewrite <- (objective_swapped n p X y lam (opposite (fst m)) (- snd m) Ly), opposite_twice, Ropp_involutive. exact H.
Qed.

(** ** Codes *)
Lemma numbers_R y : numbers (N := Rnum) y = map INR y.
Proof. unfold numbers. apply map_ext. intro v. unfold nofnat. cbn. symmetry. apply INR_IZR_INZ. Qed.
Section Codes.
  Variable y : list nat.
  Hypothesis Hb : Forall (fun v => (v < 2)%nat) y.
  Notation y2 := (map other y).

  Lemma code_lt i : (nth i y 0 < 2)%nat.
  Proof. destruct (le_lt_dec (length y) i) as [H|H]; [rewrite nth_overflow by exact H; lia|]. rewrite Forall_forall in Hb. apply Hb. now apply nth_In. Qed.
  Lemma codes_swapped : Forall (fun v => (v < 2)%nat) y2.
  Proof. apply Forall_forall. intros v Hv. apply in_map_iff in Hv as (w & <- & _). unfold other. lia. Qed.
  Lemma other_at n i : length y = n -> (i < n)%nat -> nth i y2 0%nat = other (nth i y 0%nat).
  Proof. intros Ly H. rewrite (nth_indep _ 0%nat (other 0%nat)) by (rewrite map_length, Ly; exact H). apply map_nth. Qed.
  Lemma number_at i : entry (numbers (N := Rnum) y) i = INR (nth i y 0%nat).
  Proof. exact (Proofs_LogisticGrid.entry_floats y i). Qed.
  Lemma numbers_swapped : numbers (N := Rnum) y2 = swapped (numbers (N := Rnum) y).
  Proof.
    unfold numbers, swapped. rewrite !map_map. apply map_ext_in. intros v Hv. rewrite Forall_forall in Hb. specialize (Hb v Hv).
    destruct v as [|[|v]]; [| |lia]; unfold other; cbn; ring.
  Qed.
  Lemma part_swapped (z : list R) rows : (forall i, In i rows -> (i < length z)%nat) -> part_y (swapped z) rows = swapped (part_y z rows).
  Proof. intro H. unfold part_y. unfold swapped at 2. rewrite map_map. apply map_ext_in. intros i Hi. apply entry_swapped. now apply H. Qed.
  Lemma eqb_other a b : (a < 2)%nat -> (b < 2)%nat -> Nat.eqb (other a) (other b) = Nat.eqb a b.
  Proof. intros Ha Hb2. destruct a as [|[|a]], b as [|[|b]]; try lia; reflexivity. Qed.
  Lemma count_other v : (v < 2)%nat -> (Spec_Logistic.count (other v) y + Spec_Logistic.count v y = length y)%nat.
  Proof.
    intro Hv. unfold Spec_Logistic.count. induction y as [|a l IH]; [reflexivity|]. inversion Hb as [|? ? Ha Hl]; subst. cbn [filter length].
    specialize (IH Hl). destruct v as [|[|v]]; [| |lia]; destruct a as [|[|a]]; try lia; cbn in *; lia.
  Qed.
  Lemma count_swapped : Spec_Logistic.count 1 y2 = Spec_Logistic.count 0 y.
  Proof.
    unfold Spec_Logistic.count. induction y as [|a l IH]; [reflexivity|]. inversion Hb as [|? ? Ha Hl]; subst. cbn [map filter].
    destruct a as [|[|a]]; [| |lia]; cbn; [f_equal|]; exact (IH Hl).
  Qed.
  Lemma share_swapped : y <> [] -> Spec_Logistic.share y2 = 1 - Spec_Logistic.share y.
  Proof.
    intro H. unfold Spec_Logistic.share. rewrite map_length, count_swapped. pose proof (count_other 1 ltac:(lia)) as C. apply (f_equal INR) in C. rewrite plus_INR in C. change (other 1) with 0%nat in C.
    assert (I : 0 < INR (length y)) by (apply lt_0_INR; destruct y; [easy|cbn; lia]).
    rewrite <- C. field. rewrite C. lra.
  Qed.
End Codes.

(** ** The model without features *)
Lemma rate_swapped y : Forall (fun v => (v < 2)%nat) y -> y <> [] ->
  Proofs_LogisticGrid.clipped (map other y) = 1 - Proofs_LogisticGrid.clipped y.
Proof.
  intros Hb Hne. unfold Proofs_LogisticGrid.clipped. rewrite (share_swapped y Hb Hne). set (s := Spec_Logistic.share y).
  pose proof Proofs_Logistic.tiny_pos as T. assert (T2 : Spec_Logistic.tiny < 1 / 2) by lra.
  unfold Rmin, Rmax. repeat destruct Rle_dec; lra.
Qed.
Lemma intercept_R y : Forall (fun v => (v < 2)%nat) y ->
  Model_Logistic.binary_intercept (N := Rnum) y = ln (Proofs_LogisticGrid.clipped y / (1 - Proofs_LogisticGrid.clipped y)).
Proof. intro Hb. unfold Model_Logistic.binary_intercept. rewrite (Proofs_Logistic.binary_rate_R y Hb). reflexivity. Qed.
Lemma intercept_swapped y : Forall (fun v => (v < 2)%nat) y -> y <> [] ->
  Model_Logistic.binary_intercept (N := Rnum) (map other y) = - Model_Logistic.binary_intercept (N := Rnum) y.
Proof.
  intros Hb Hne. rewrite !intercept_R by (assumption || (apply codes_swapped)). rewrite rate_swapped by assumption.
  pose proof (Proofs_LogisticGrid.clipped_bounds y) as Hc. rr. rewrite <- ln_Rinv by (apply Rdiv_lt_0_compat; lra). f_equal. field. lra.
Qed.
Lemma intercept_nonzero y : Forall (fun v => (v < 2)%nat) y -> y <> [] -> Spec_Logistic.share y <> 1 / 2 ->
  Model_Logistic.binary_intercept (N := Rnum) y <> 0.
Proof.
  intros Hb Hne Hs. rewrite intercept_R by assumption. pose proof (Proofs_LogisticGrid.clipped_bounds y) as Hc. rr. intro E.
  assert (E2 : Proofs_LogisticGrid.clipped y / (1 - Proofs_LogisticGrid.clipped y) = 1).
  { apply (f_equal exp) in E. rewrite exp_ln, exp_0 in E by (apply Rdiv_lt_0_compat; lra). exact E. }
  assert (E3 : Proofs_LogisticGrid.clipped y = 1 / 2).
  { apply (Rmult_eq_compat_r (1 - Proofs_LogisticGrid.clipped y)) in E2. unfold Rdiv in E2. rewrite Rmult_assoc, Rinv_l in E2 by lra. lra. }
  apply Hs. revert E3. unfold Proofs_LogisticGrid.clipped. set (s := Spec_Logistic.share y).
  pose proof Proofs_Logistic.tiny_pos as T. assert (T2 : Spec_Logistic.tiny < 1 / 2) by lra.
  unfold Rmin, Rmax. repeat destruct Rle_dec; lra.
Qed.
Lemma predict_swapped (b : R) : b <> 0 -> Model_Logistic.binary_predict (N := Rnum) (- b) = other (Model_Logistic.binary_predict (N := Rnum) b).
Proof. intro H. unfold Model_Logistic.binary_predict, nzero. cbn. unfold Rleb. destruct (Rle_dec 0 (- b)), (Rle_dec 0 b); try reflexivity; exfalso; lra. Qed.
Lemma predict_lt (b : R) : (Model_Logistic.binary_predict (N := Rnum) b < 2)%nat.
Proof. unfold Model_Logistic.binary_predict. destruct (nleb _ _); lia. Qed.

(** ** Decisions *)
Lemma dot_opposite (x c : list R) : ndot (N := Rnum) x (opposite c) = - ndot (N := Rnum) x c.
Proof.
  unfold ndot, nsum. revert c. induction x as [|a x IH]; intros [|v c]; cbn [map2 opposite map fold_right]; try (unfold nzero; cbn; ring).
  specialize (IH c). change (a * - v + fold_right Rplus (IZR 0) (map2 Rmult x (opposite c)) = - (a * v + fold_right Rplus (IZR 0) (map2 Rmult x c))).
  change (fold_right Rplus (IZR 0) (map2 Rmult x (opposite c)) = - fold_right Rplus (IZR 0) (map2 Rmult x c)) in IH. rewrite IH. ring.
Qed.
Definition decided (c : list R) (b : R) (x : list R) : nat := Model_Labels.predicted_index (Model_Labels.decision_function (N := Rnum) [c] [b] x).
Lemma decided_R c b x : decided c b x = if Rlt_dec 0 (ndot (N := Rnum) x c + b) then 1%nat else 0%nat.
Proof. unfold decided. cbn. unfold Rltb, nzero. cbn. destruct (Rlt_dec 0 _); reflexivity. Qed.
Lemma decided_swapped c b x : ndot (N := Rnum) x c + b <> 0 -> decided (opposite c) (- b) x = other (decided c b x).
Proof.
  intro H. rewrite !decided_R, dot_opposite. revert H. generalize (ndot (N := Rnum) x c : R). intros v H.
  destruct (Rlt_dec 0 (- v + - b)), (Rlt_dec 0 (v + b)); try reflexivity; exfalso; lra.
Qed.
Lemma decided_lt c b x : (decided c b x < 2)%nat.
Proof. rewrite decided_R. destruct Rlt_dec; lia. Qed.

Lemma accuracy_swapped (a q : list nat) : Forall (fun v => (v < 2)%nat) a -> Forall (fun v => (v < 2)%nat) q ->
  Model_Labels.accuracy (N := Rnum) (map other a) (map other q) = Model_Labels.accuracy (N := Rnum) a q.
Proof.
  intros Ha Hq. unfold Model_Labels.accuracy. f_equal. revert q Hq. induction Ha as [|v a Hv Ha IH]; intros q Hq; [reflexivity|].
  destruct Hq as [|w q Hw Hq]; [reflexivity|]. cbn [map map2]. rewrite eqb_other by assumption. f_equal. now apply IH.
Qed.
Lemma spread_opposite mask (c : list R) : spread_values (N := Rnum) mask (opposite c) = map (Rmult (-1)) (spread_values (N := Rnum) mask c).
Proof.
  revert c. induction mask as [|m mask IH]; intro c; [reflexivity|].
  destruct m; [destruct c as [|v c]|]; cbn [spread_values opposite map]; (f_equal; [unfold nzero; cbn; ring|]); [exact (IH [])|exact (IH c)|exact (IH c)].
Qed.

Lemma repeat_other v k : map other (repeat v k) = repeat (other v) k.
Proof. induction k as [|k IH]; [reflexivity|]. cbn. now rewrite IH. Qed.

(** ** One estimate *)
Section Estimate.
  Variables (n p : nat) (X : list (list R)) (y y2 : list Model_Labels.label).
  Notation cy := (Model_Labels.codes y).
  Hypothesis HX : matrix n p X.
  Hypothesis Ly : length cy = n.
  Hypothesis Hb : Forall (fun v => (v < 2)%nat) cy.
  Hypothesis E2 : Model_Labels.codes y2 = map other cy.
  Variables (est_lm : solver_ml (N := Rnum)) (clip : R) (target : nat).

  Lemma at_rows_swapped rows : (forall i, In i rows -> (i < n)%nat) ->
    map (fun i => nth i (map other cy) 0%nat) rows = map other (map (fun i => nth i cy 0%nat) rows).
  Proof. intro H. rewrite map_map. apply map_ext_in. intros i Hi. apply (other_at cy n i Ly); now apply H. Qed.
  Lemma at_rows_lt rows : Forall (fun v => (v < 2)%nat) (map (fun i => nth i cy 0%nat) rows).
  Proof. apply Forall_forall. intros v Hv. apply in_map_iff in Hv as (i & <- & _). now apply code_lt. Qed.

  Lemma estimate_swapped supports sp mask : decisive n X cy est_lm target supports sp -> In mask supports -> length mask = p ->
    exists o, estimate_class (N := Rnum) est_lm clip "acc" target p X y sp mask = Ok o /\
      estimate_class (N := Rnum) est_lm clip "acc" target p X y2 sp mask = Ok (carry (-1) 0 o).
  Proof.
    intros (Hne & Hr & Hs & Hsh & Hm) Hin Lm. unfold estimate_class. rewrite E2. destruct (existsb (fun b => b) mask) eqn:Ex.
    - destruct (Hm mask Hin Ex) as ((M1 & U) & M2 & T).
      rewrite (numbers_swapped cy Hb). rewrite !part_y_take.
      rewrite part_swapped by (intros i Hi; unfold numbers; rewrite map_length, Ly; now apply Hr).
      rewrite (part_masked n p X (fst sp) mask HX Lm Hr).
      rewrite (numbers_R cy).
      set (yr := part_y (map INR cy) (fst sp)) in *. set (Xr := part X (fst sp) mask) in *.
      assert (Q : est_lm Xr (swapped yr) = flip (est_lm Xr yr)).
      { rewrite <- (flip_twice (est_lm Xr (swapped yr))). f_equal. apply U. apply minimizer_swapped; [|exact M2]. unfold yr, part_y. apply map_length. }
      rewrite Q. set (m := est_lm Xr yr) in *. cbn [flip fst snd]. unfold Model_Labels.logistic_score, glm_score. cbn [String.eqb Ascii.eqb Bool.eqb].
      rewrite E2. change (target_rows target sp) with (scored target sp). set (rows := scored target sp) in *.
      rewrite (part_masked n p X rows mask HX Lm Hs). rewrite !map_map.
      eexists. split; [reflexivity|]. cbn [bind]. unfold carry. cbn [fst snd]. rewrite spread_opposite. do 2 f_equal.
      change (Model_Labels.accuracy (N := Rnum) (map (fun i => nth i (map other cy) 0%nat) rows) (map (decided (opposite (fst m)) (- snd m)) (part X rows mask))
        = Model_Labels.accuracy (N := Rnum) (map (fun i => nth i cy 0%nat) rows) (map (decided (fst m) (snd m)) (part X rows mask)) + 0).
      rewrite (at_rows_swapped rows Hs), Rplus_0_r.
      assert (D : map (decided (opposite (fst m)) (- snd m)) (part X rows mask) = map other (map (decided (fst m) (snd m)) (part X rows mask))).
      { rewrite map_map. apply map_ext_in. intros x Hx. apply decided_swapped. apply (In_nth _ _ []) in Hx as (r & Hrr & Ex2).
        assert (Lr : length (part X rows mask) = length rows) by apply map_length. rewrite Lr in Hrr. specialize (T r Hrr).
        intro Z. apply T. unfold eta. rewrite <- Z, <- Ex2. rewrite Rplus_comm. f_equal.
        refine (eq_sym (eq_trans (ndot_Sum _ _ _) _)).
        - refine (eq_trans _ (eq_sym (proj1 M1))). unfold part. rewrite (nth_indep _ [] (map (mat X 0) (chosen mask))) by (rewrite map_length; exact Hrr).
          rewrite (map_nth (fun i => map (mat X i) (chosen mask))), map_length. apply length_chosen.
        - unfold part. rewrite (nth_indep _ [] (map (mat X 0) (chosen mask))) by (rewrite map_length; exact Hrr).
          rewrite (map_nth (fun i => map (mat X i) (chosen mask))), map_length. rewrite length_chosen. apply Sum_ext. intros j Hj.
          unfold mat at 2. rewrite (nth_indep _ [] (map (mat X 0) (chosen mask))) by (rewrite map_length; exact Hrr).
          rewrite (map_nth (fun i => map (mat X i) (chosen mask))). reflexivity. }
      rewrite D. apply accuracy_swapped; [apply at_rows_lt|]. apply Forall_forall. intros v Hv. apply in_map_iff in Hv as (x & <- & _). apply decided_lt.
    - rewrite (at_rows_swapped (fst sp) Hr). set (c1 := map (fun i => nth i cy 0%nat) (fst sp)) in *.
      assert (H1 : Forall (fun v => (v < 2)%nat) c1) by apply at_rows_lt.
      assert (H2 : c1 <> []) by (unfold c1; destruct (fst sp); [easy|discriminate]).
      rewrite (intercept_swapped c1 H1 H2). pose proof (intercept_nonzero c1 H1 H2 Hsh) as H3. set (b := Model_Logistic.binary_intercept (N := Rnum) c1) in *.
      unfold Model_Labels.logistic_score, glm_score. cbn [String.eqb Ascii.eqb Bool.eqb]. rewrite E2.
      change (target_rows target sp) with (scored target sp). set (rows := scored target sp) in *.
      eexists. split; [reflexivity|]. cbn [bind]. unfold carry. cbn [fst snd]. do 2 f_equal.
      + clear. induction p as [|q IH]; [reflexivity|]. cbn [repeat map]. f_equal; [unfold nzero; cbn; ring|exact IH].
      + rewrite (at_rows_swapped rows Hs), (predict_swapped b H3), Rplus_0_r. rewrite <- repeat_other.
        apply accuracy_swapped; [apply at_rows_lt|]. apply Forall_forall. intros v Hv. apply repeat_spec in Hv. rewrite Hv. apply predict_lt.
  Qed.
End Estimate.
