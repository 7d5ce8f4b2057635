(** Proofs about the choice that the estimation module of UoI_L1Logistic makes (C129). *)
From Coq Require Import ZArith String List Bool Arith Lia Reals Lra Psatz.
From Verif Require Import Prelude F64 Num Model_Intersection Model_Fit Model_Scores Model_Refit Model_Rescale Model_Poisson Model_Linear Model_Estimation Model_Selection Model_ClassFit
  Proofs_Intersection Spec_Rescale Proofs_Rescale Spec_Poisson Proofs_Poisson Spec_Linear Proofs_Linear
  Proofs_LinearUnits Spec_Estimation Proofs_Estimation Proofs_Estimation2 Proofs_Estimation3 Spec_Choice Proofs_Choice Spec_Units Proofs_Units3 Proofs_CountFit2 Spec_ClassFit Proofs_ClassFit Proofs_ClassFit2 Spec_ClassChoice.
From Verif Require Model_Logistic Model_Labels Spec_Logistic Proofs_Logistic Proofs_PoissonOpt.
Import ListNotations.
Local Open Scope R_scope.

(** ** The first of the largest entries *)
Lemma argmax_from_first (all : list R) : forall l i (best : R) besti, (besti < i)%nat ->
  nth besti all 0 = best -> (forall k, (k < besti)%nat -> nth k all 0 < best) -> (forall k, (k < i)%nat -> nth k all 0 <= best) ->
  (forall k, nth k l 0 = nth (i + k) all 0) ->
  let m := argmax_from (N := Rnum) i best besti l in
  forall k, (k < m)%nat -> nth k all 0 < nth m all 0.
Proof.
  induction l as [|v l IH]; intros i best besti Hb Eb Hf Hk Hl; cbn [argmax_from].
  - intros k Hk'. rewrite Eb. now apply Hf.
  - assert (Ev : v = nth i all 0) by (rewrite <- (Nat.add_0_r i); exact (Hl 0%nat)).
    cbn [nleb Rnum]. unfold Rleb. rewrite (nan_R v). destruct (Rle_dec v best) as [Le|Gt].
    + apply IH; try lia; try assumption.
      * intros k Hk'. destruct (Nat.eq_dec k i) as [->|Ne]; [rewrite <- Ev; exact Le|apply Hk; lia].
      * intro k. rewrite Nat.add_succ_comm. exact (Hl (S k)).
    + apply IH; try lia; try (symmetry; assumption).
      * intros k Hk'. assert (nth k all 0 <= best) by (apply Hk; lia). lra.
      * intros k Hk'. destruct (Nat.eq_dec k i) as [->|Ne]; [rewrite <- Ev; lra|]. assert (nth k all 0 <= best) by (apply Hk; lia). lra.
      * intro k. rewrite Nat.add_succ_comm. exact (Hl (S k)).
Qed.
Lemma argmax_first (l : list R) m : argmax (N := Rnum) l = Ok m -> forall k, (k < m)%nat -> nth k l 0 < nth m l 0.
Proof.
  destruct l as [|v l]; [discriminate|]. unfold argmax. rewrite (nan_R v). intro E.
  assert (E' : m = argmax_from (N := Rnum) 1 v 0 l) by congruence. rewrite E'.
  apply (argmax_from_first (v :: l) l 1 v 0); try reflexivity; try lia. intros [|k] Hk; [cbn; lra|lia].
Qed.

Lemma best_first (f : list bool -> result (list R * R)) (g : list bool -> R) (Q : list bool -> list R -> Prop) supports : supports <> [] ->
  (forall mask, In mask supports -> exists e, f mask = Ok (e, - g mask) /\ Q mask e) ->
  exists before mask after e, supports = before ++ mask :: after /\ (let* out := mapM f supports in best_estimate (N := Rnum) out) = Ok e /\ Q mask e /\
    (forall m, In m before -> g mask < g m) /\ (forall m, In m supports -> g mask <= g m).
Proof.
  intros Hs Hf. destruct (mapM_ok f (fun mask o => Q mask (fst o) /\ snd o = - g mask) supports) as (out & Eo & F).
  { intros mask Hm. destruct (Hf mask Hm) as (e & Ee & He). eexists. split; [exact Ee|]. split; [exact He|reflexivity]. }
  assert (L : length supports = length out) by (clear -F; induction F; cbn; congruence).
  assert (At : forall k, (k < length out)%nat -> Q (nth k supports []) (fst (nth k out ([], 0))) /\ nth k (map snd out) 0 = - g (nth k supports [])).
  { intros k Hk. rewrite (map_nth snd out ([], 0) k : nth k (map snd out) 0 = snd (nth k out ([], 0))).
    clear -F Hk. revert k Hk. induction F as [|x o l l' [_ H] F IH]; intros [|k] Hk; cbn in *; try lia; [exact H|apply IH; lia]. }
  rewrite Eo. cbn [bind]. unfold best_estimate.
  assert (Hne : map snd out <> []) by (destruct out; [destruct supports; [easy|discriminate]|discriminate]).
  destruct (argmax_spec (map snd out) Hne) as (m & Em & Hm & Hmax). pose proof (argmax_first _ _ Em) as Hfirst. rr. rewrite Em. cbn [rmap]. rewrite map_length in Hm, Hmax.
  destruct (nth_split supports [] (eq_ind_r (fun z => (m < z)%nat) Hm L)) as (before & after & Es & Lb).
  destruct (At m Hm) as [Q1 Q2].
  exists before, (nth m supports []), after, (nth m (map fst out) []). split; [exact Es|]. split; [reflexivity|]. split; [|split].
  - rewrite (map_nth fst out ([], 0) m : nth m (map fst out) [] = fst (nth m out ([], 0))). exact Q1.
  - intros m' Hm'. destruct (In_nth _ _ [] Hm') as (k & Hk & Ek). rewrite Lb in Hk. pose proof (Hfirst k Hk) as G.
    destruct (At k ltac:(lia)) as [_ Q3]. rewrite Q2, Q3 in G.
    assert (Ek' : nth k supports [] = m') by (rewrite Es, app_nth1 by lia; exact Ek). rewrite Ek' in G. lra.
  - intros m' Hm'. destruct (In_nth _ _ [] Hm') as (k & Hk & Ek). pose proof (Hmax k ltac:(lia)) as G.
    destruct (At k ltac:(lia)) as [_ Q3]. rewrite Q2, Q3, Ek in G. lra.
Qed.

(** ** Scores *)
Lemma map_nth_seq {A} (l : list A) d : map (fun i => nth i l d) (seq 0 (length l)) = l.
Proof.
  induction l as [|x l IH]; [reflexivity|]. cbn [length seq map nth]. f_equal. rewrite <- seq_shift, map_map. exact IH.
Qed.
Lemma map_const_seq {A} (v : A) k : map (fun _ => v) (seq 0 k) = repeat v k.
Proof. generalize 0%nat. induction k as [|k IH]; intro i; [reflexivity|]. cbn [seq map repeat]. f_equal. apply IH. Qed.
Lemma filter_count {A} (f : A -> bool) l : INR (length (filter f l)) = fold_right Rplus 0 (map (fun x => if f x then 1 else 0) l).
Proof. induction l as [|x l IH]; [reflexivity|]. cbn [filter map fold_right]. destruct (f x); [cbn [length]; rewrite S_INR, IH; ring|rewrite IH; ring]. Qed.

Lemma accuracy_value (k : nat) (a q : nat -> nat) :
  Model_Labels.accuracy (N := Rnum) (map a (seq 0 k)) (map q (seq 0 k)) = INR (length (filter (fun i => Nat.eqb (q i) (a i)) (seq 0 k))) / INR k.
Proof.
  unfold Model_Labels.accuracy.
  assert (E : map2 (fun a b => if Nat.eqb a b then none (N := Rnum) else nzero) (map a (seq 0 k)) (map q (seq 0 k)) = map (fun i => if Nat.eqb (q i) (a i) then 1 else 0) (seq 0 k)).
  { generalize (seq 0 k). intro l. induction l as [|i l IH]; [reflexivity|]. cbn [map map2]. rewrite (Nat.eqb_sym (a i)). f_equal. exact IH. }
  rr. rewrite E. refine (eq_trans (mean_n k _ ltac:(rewrite map_length; apply seq_length)) _). rewrite filter_count. unfold Rdiv. f_equal.
  unfold Sum. f_equal. apply map_ext_in. intros i Hi. apply in_seq in Hi. refine (entry_mapseq _ k i _). lia.
Qed.

Lemma clip_R (eps v : R) : Model_Labels.clip (N := Rnum) eps v = clamp eps v.
Proof. unfold Model_Labels.clip, clamp. rewrite Proofs_Logistic.nmin2_R. f_equal. exact (Proofs_PoissonOpt.nmax2_R _ _). Qed.
Lemma clamp_other eps v : 0 < eps <= 1 / 2 -> clamp eps (1 - v) = 1 - clamp eps v.
Proof. intro H. unfold clamp, Rmin, Rmax. destruct (Rle_dec v eps), (Rle_dec (1 - v) eps); repeat destruct Rle_dec; lra. Qed.
Lemma clamp_pos eps v : 0 < eps <= 1 / 2 -> 0 < clamp eps v < 1.
Proof. intro H. unfold clamp, Rmin, Rmax. destruct (Rle_dec v eps); repeat destruct Rle_dec; lra. Qed.

(** The clipped and normalized pair of probabilities of one sample. *)
Definition both (eps v : R) : list R := [clamp eps (1 - v); clamp eps v].
Lemma one_loss (eps v : R) (c : nat) : 0 < eps <= 1 / 2 -> (c < 2)%nat ->
  nopp (n := Rnum) (nsum (map2 (fun a b => nmul a (nln b)) (Model_Labels.binarized (N := Rnum) [Model_Labels.LInt 0; Model_Labels.LInt 1] c)
    (map (fun w => ndiv w (nsum (N := Rnum) (both eps v))) (both eps v)))) = - ln (clamp eps (if Nat.eqb c 1 then v else 1 - v)).
Proof.
  intros He Hc. assert (S1 : nsum (N := Rnum) (both eps v) = 1).
  { change (clamp eps (1 - v) + (clamp eps v + 0) = 1). rewrite clamp_other by exact He. ring. }
  rr. rewrite S1. unfold Model_Labels.binarized. cbn [length Nat.eqb nth Model_Labels.label_eqb Model_Labels.of_code].
  destruct c as [|[|c]]; [| |lia]; cbn [Z.of_nat Pos.of_succ_nat Z.eqb Pos.eqb Nat.eqb both map map2].
  - change (- ((1 - 0) * ln (clamp eps (1 - v) / 1) + (0 * ln (clamp eps v / 1) + 0)) = - ln (clamp eps (1 - v))). unfold Rdiv. rewrite Rinv_1, !Rmult_1_r. ring.
  - change (- ((1 - 1) * ln (clamp eps (1 - v) / 1) + (1 * ln (clamp eps v / 1) + 0)) = - ln (clamp eps v)). unfold Rdiv. rewrite Rinv_1, !Rmult_1_r. ring.
Qed.

Lemma loss_value (eps : R) (k : nat) (q : nat -> R) (a : nat -> nat) (P : @Model_Labels.proba Rnum) : 0 < eps <= 1 / 2 -> (forall i, (i < k)%nat -> (a i < 2)%nat) ->
  Model_Labels.samples P = k -> Model_Labels.columns P = 2%nat -> Model_Labels.clipped (N := Rnum) eps P = map (fun i => both eps (q i)) (seq 0 k) ->
  Model_Labels.log_loss (N := Rnum) eps [Model_Labels.LInt 0; Model_Labels.LInt 1] P (map a (seq 0 k)) =
  Ok (- (/ INR k * Sum k (fun i => ln (clamp eps (if Nat.eqb (a i) 1 then q i else 1 - q i))))).
Proof.
  intros He Ha Hs Hc Hp. unfold Model_Labels.log_loss. rewrite Hs, Hc, map_length, seq_length, Nat.eqb_refl. cbn [negb length Nat.eqb]. rr. rewrite Hp. f_equal.
  match goal with |- nmean ?l = _ => assert (E : l = map (fun i => - ln (clamp eps (if Nat.eqb (a i) 1 then q i else 1 - q i))) (seq 0 k)) end.
  { assert (Hin : forall i, In i (seq 0 k) -> (a i < 2)%nat) by (intros i Hi; apply in_seq in Hi; apply Ha; lia). revert Hin.
    generalize (seq 0 k). intro l. induction l as [|i l IH]; intro Hin; [reflexivity|]. cbn [map map2]. f_equal.
    - apply one_loss; [exact He|]. apply Hin. now left.
    - apply IH. intros j Hj. apply Hin. now right. }
  rr. rewrite E. refine (eq_trans (mean_n k _ ltac:(rewrite map_length; apply seq_length)) _).
  set (h := fun i => ln (clamp eps (if Nat.eqb (a i) 1 then q i else 1 - q i))).
  assert (F : Sum k (entry (map (fun i => - h i) (seq 0 k))) = -1 * Sum k h).
  { rewrite <- Sum_scal. apply Sum_ext. intros i Hi. refine (eq_trans (entry_mapseq (fun i => - h i) k i Hi) _). ring. }
  change (Sum k (entry (map (fun i => - h i) (seq 0 k))) / INR k = - (/ INR k * Sum k h)). rewrite F. unfold Rdiv. ring.
Qed.

Lemma proba_R (c : list R) (b : R) x :
  Model_Labels.predict_proba (N := Rnum) false 2 (Model_Labels.decision_function (N := Rnum) [c] [b] x) =
  [1 - / (1 + exp (- (ndot (N := Rnum) x c + b))); / (1 + exp (- (ndot (N := Rnum) x c + b)))].
Proof.
  change ([1 - 1 / (1 + exp (- (ndot (N := Rnum) x c + b))); 1 / (1 + exp (- (ndot (N := Rnum) x c + b)))] =
          [1 - / (1 + exp (- (ndot (N := Rnum) x c + b))); / (1 + exp (- (ndot (N := Rnum) x c + b)))]).
  unfold Rdiv. now rewrite Rmult_1_l.
Qed.

Lemma half_share (a b : R) : 0 < b + a -> 1 / 2 <= a / (b + a) <-> b <= a.
Proof.
  intro H. assert (E : a = a / (b + a) * (b + a)) by (field; lra). set (q := a / (b + a)) in *. clearbody q. split; intro L.
  - pose proof (Rmult_le_compat_r (b + a) _ _ (Rlt_le _ _ H) L). lra.
  - apply (Rmult_le_reg_r (b + a)); [exact H|]. lra.
Qed.

Section Score.
  Variables (n p : nat) (X : list (list R)) (y : list Model_Labels.label).
  Notation z := (Model_Labels.codes y).
  Hypothesis HX : matrix n p X.
  Hypothesis Hb : Forall (fun v => (v < 2)%nat) z.
  Variables (est_lm : solver_ml (N := Rnum)) (clip : R) (metric : string) (target : nat) (sp : Model_Fit.split).
  Hypothesis Hmetric : In metric ["acc"; "log"; "BIC"; "AIC"; "AICc"]%string.
  Hypothesis Hlabels : metric <> "acc"%string -> Model_Labels.uoi_classes y = [Model_Labels.LInt 0; Model_Labels.LInt 1] /\ 0 < clip <= 1 / 2.
  Hypothesis Htrain : forall r, In r (fst sp) -> (r < n)%nat.
  Notation rows := (scored target sp).
  Hypothesis Hrows : forall r, In r rows -> (r < n)%nat.
  Hypothesis Hne : rows <> [].
  Hypothesis Htr : fst sp <> [].
  Notation fit_of mask := (est_lm (part X (fst sp) mask) (part_y (map INR z) (fst sp))).
  Notation cost_of mask := (class_cost metric clip X z (fst sp) rows mask (fit_of mask)).

  Lemma rows_seq {A} (f : nat -> A) : map f rows = map (fun i => f (nth i rows 0%nat)) (seq 0 (length rows)).
  Proof. rewrite <- (map_map (fun i => nth i rows 0%nat) f). f_equal. symmetry. apply map_nth_seq. Qed.

  Lemma score_value mask m support pred prob : count (fun b => b) support = count (fun b => b) mask ->
    pred rows = map (guess X z (fst sp) rows mask m) (seq 0 (length rows)) ->
    (metric <> "acc"%string -> Model_Labels.samples (prob rows) = length rows /\ Model_Labels.columns (prob rows) = 2%nat /\
       Model_Labels.clipped (N := Rnum) clip (prob rows) = map (fun i => both clip (chance X z (fst sp) rows mask m i)) (seq 0 (length rows))) ->
    Model_Labels.logistic_score (N := Rnum) clip y pred prob metric target support sp = Ok (- class_cost metric clip X z (fst sp) rows mask m).
  Proof.
    intros Ek Ep Hp. unfold Model_Labels.logistic_score, glm_score, class_cost. change (target_rows target sp) with rows.
    rewrite (rows_seq (fun i => nth i z 0%nat)).
    destruct (String.eqb_spec metric "acc") as [_|Ha].
    { rewrite Ep, accuracy_value. unfold hits. rewrite Ropp_involutive. reflexivity. }
    destruct (Hlabels Ha) as [Hl Hc]. destruct (Hp Ha) as (P1 & P2 & P3). rewrite Hl.
    rewrite (loss_value clip (length rows) (chance X z (fst sp) rows mask m) (fun i => nth (nth i rows 0%nat) z 0%nat) (prob rows) Hc ltac:(intros i _; now apply code_lt) P1 P2 P3).
    cbn [bind]. fold (class_merit clip X z (fst sp) rows mask m). set (ll := class_merit clip X z (fst sp) rows mask m).
    change (nopp (n := Rnum) (- (/ INR (length rows) * Sum (length rows) (fun i => ln (clamp clip (if Nat.eqb (nth (nth i rows 0%nat) z 0%nat) 1 then chance X z (fst sp) rows mask m i else 1 - chance X z (fst sp) rows mask m i)))))) with (- - ll).
    rewrite Ropp_involutive.
    destruct (String.eqb_spec metric "log") as [_|Hl']; [now rewrite Ropp_involutive|].
    rr. rewrite Ek. set (k := count (fun b => b) mask). set (N := length rows).
    unfold criterion, price. destruct Hmetric as [C|[C|[C|[C|[C|[]]]]]]; rewrite <- C; cbn [String.eqb Ascii.eqb Bool.eqb rmap]; [congruence|congruence| | |];
      f_equal; unfold BIC, AIC, AICc; cbn [nofZ ndiv nadd nln nmul nsub nopp Rnum].
    + rewrite <- !INR_IZR_INZ. rr. ring.
    + rewrite mult_IZR, <- !INR_IZR_INZ. rr. ring.
    + destruct (Z.ltb_spec (Z.of_nat k + 1) (Z.of_nat N)), (Nat.ltb_spec (k + 1) N); try lia; unfold AIC; cbn [nofZ ndiv nadd nln nmul nsub nopp Rnum]; rewrite ?minus_IZR, ?mult_IZR, ?plus_IZR, ?mult_IZR, <- ?INR_IZR_INZ.
      * assert (INR N - INR k - 1 <> 0) by (assert (INR (k + 1) < INR N) by (now apply lt_INR); rewrite plus_INR in *; cbn in *; lra). rr. field. assumption.
      * rr. ring.
  Qed.

  Lemma part_rows mask i : (i < length rows)%nat -> nth i (part X rows mask) [] = map (mat X (nth i rows 0%nat)) (chosen mask).
  Proof.
    intro Hi. unfold part. rewrite (nth_indep _ [] (map (mat X 0) (chosen mask))) by (rewrite map_length; exact Hi).
    exact (map_nth (fun i => map (mat X i) (chosen mask)) rows 0%nat i).
  Qed.
  Lemma dot_eta mask (c : list R) (b : R) i : length c = count (fun b => b) mask -> (i < length rows)%nat ->
    ndot (N := Rnum) (nth i (part X rows mask) []) c + b = eta (count (fun b => b) mask) (part X rows mask) c b i.
  Proof.
    intros Lc Hi. unfold eta. rewrite (Rplus_comm b). f_equal. rewrite (part_rows mask i Hi).
    refine (eq_trans (ndot_Sum _ _ _) _).
    - rewrite map_length, length_chosen. symmetry. exact Lc.
    - rewrite map_length, length_chosen. apply Sum_ext. intros j Hj. unfold mat at 2. now rewrite (part_rows mask i Hi).
  Qed.
  Lemma sigmoid_half v : 1 / 2 < / (1 + exp (- v)) <-> 0 < v.
  Proof.
    pose proof (exp_pos (- v)) as P. split; intro H.
    - destruct (Rlt_dec 0 v) as [L|L]; [exact L|exfalso]. assert (1 <= exp (- v)).
      { rewrite <- exp_0. destruct (Req_dec v 0) as [->|D]; [rewrite Ropp_0; lra|]. left. apply exp_increasing. lra. }
      apply (Rmult_lt_compat_r (1 + exp (- v))) in H; [|lra]. rewrite Rinv_l in H by lra. lra.
    - assert (exp (- v) < 1) by (rewrite <- exp_0; apply exp_increasing; lra).
      apply (Rmult_lt_reg_r (1 + exp (- v))); [lra|]. rewrite Rinv_l by lra. lra.
  Qed.

  Lemma estimate_value mask : length mask = p -> (existsb (fun b => b) mask = true -> length (fst (fit_of mask)) = count (fun b => b) mask) ->
    exists e, estimate_class (N := Rnum) est_lm clip metric target p X y sp mask = Ok (e, - cost_of mask) /\ estimate_of p mask (fit_of mask) e.
  Proof.
    intros Lm HL. unfold estimate_class. destruct (existsb (fun b : bool => b) mask) eqn:Em.
    - specialize (HL eq_refl). eexists. split; [|apply spread_estimate; [exact Lm|exact HL]].
      rewrite (numbers_R z), part_y_take, (part_masked n p X (fst sp) mask HX Lm Htrain). set (m := fit_of mask) in *.
      assert (Rw : masked_columns (N := Rnum) mask (matrix_rows (N := Rnum) X rows) = map (fun i => nth i (part X rows mask) []) (seq 0 (length rows))).
      { rewrite (part_masked n p X rows mask HX Lm Hrows). rewrite <- (map_length (fun i => map (mat X i) (chosen mask)) rows). symmetry. exact (map_nth_seq (part X rows mask) []). }
      assert (Ch : forall i, chance X z (fst sp) rows mask m i = / (1 + exp (- eta (count (fun b => b) mask) (part X rows mask) (fst m) (snd m) i))) by (intro i; unfold chance; now rewrite Em).
      rewrite (score_value mask m mask); [reflexivity|reflexivity| |].
      + rr. rewrite Rw, !map_map. apply map_ext_in. intros i Hi. apply in_seq in Hi.
        change (decided (fst m) (snd m) (nth i (part X rows mask) []) = guess X z (fst sp) rows mask m i).
        rewrite decided_R, dot_eta by (exact HL || lia). unfold guess. rewrite Em, Ch. pose proof (sigmoid_half (eta (count (fun b => b) mask) (part X rows mask) (fst m) (snd m) i)) as Q.
        destruct (Rlt_dec 0 _), (Rlt_dec (1 / 2) _); try reflexivity; exfalso; tauto.
      + intros Ha. destruct (Hlabels Ha) as [_ Hc]. split; [|split; [reflexivity|]].
        * cbn [Model_Labels.samples]. rr. rewrite Rw, !map_length. apply seq_length.
        * cbn [Model_Labels.clipped]. rr. rewrite Rw, !map_map. apply map_ext_in. intros i Hi. apply in_seq in Hi.
          rewrite Ch, <- dot_eta by (exact HL || lia). unfold both. rewrite <- !clip_R. refine (f_equal (map (Model_Labels.clip (N := Rnum) clip)) (proba_R (fst m) (snd m) _)).
    - eexists. split; [|exact (zeros_estimate p mask _ Em)].
      assert (C0 : forall q, count (fun b : bool => b) (repeat false q) = 0%nat) by (induction q; [reflexivity|exact IHq]).
      assert (C1 : count (fun b : bool => b) mask = 0%nat) by (clear -Em; induction mask as [|b m IH]; [reflexivity|]; cbn in *; destruct b; [discriminate|now apply IH]).
      set (c1 := map (fun i => nth i z 0%nat) (fst sp)).
      assert (H1 : Forall (fun v => (v < 2)%nat) c1) by (apply Forall_forall; intros v Hv; apply in_map_iff in Hv as (i & <- & _); now apply code_lt).
      assert (H2 : c1 <> []) by (unfold c1; destruct (fst sp); [easy|discriminate]).
      destruct (Proofs_Logistic.binary_only c1 H2 H1) as (B1 & _ & B2 & B3). cbv zeta in *.
      set (b := Model_Logistic.binary_intercept (N := Rnum) c1) in *.
      assert (Ch : forall i, chance X z (fst sp) rows mask (fit_of mask) i = Model_Logistic.binary_proba (N := Rnum) b) by (intro i; unfold chance; rewrite Em; symmetry; exact B1).
      rewrite (score_value mask (fit_of mask) (repeat false p)); [reflexivity|now rewrite C0, C1| |].
      + rewrite <- map_const_seq. apply map_ext_in. intros i _. unfold guess. rewrite Em, Ch.
        assert (S1 : 1 / 2 <= Model_Logistic.binary_proba (N := Rnum) b <-> Model_Logistic.binary_predict (N := Rnum) b = 1%nat).
        { rewrite B2, B1. pose proof Proofs_Logistic.tiny_pos as T. pose proof (Proofs_Logistic.count_01 c1 H1) as K.
          assert (In0 : 0 < INR (length c1)) by (apply lt_0_INR; destruct c1; [easy|cbn; lia]).
          transitivity (1 / 2 <= INR (Spec_Logistic.count 1 c1) / INR (length c1)).
          - unfold Rmin, Rmax. destruct (Rle_dec _ Spec_Logistic.tiny); destruct (Rle_dec _ (1 - Spec_Logistic.tiny)); lra.
          - rewrite <- K, plus_INR in *. rewrite half_share by exact In0. split; [apply INR_le|apply le_INR]. }
        destruct (Rle_dec (1 / 2) _) as [L|L]; [now apply S1|]. pose proof (predict_lt b). destruct (Model_Logistic.binary_predict (N := Rnum) b) as [|[|?]]; [reflexivity| |lia]. exfalso. apply L, S1. reflexivity.
      + intros Ha. destruct (Hlabels Ha) as [_ Hc]. split; [|split; [reflexivity|]].
        * cbn [Model_Labels.samples]. apply repeat_length.
        * cbn [Model_Labels.clipped]. rewrite <- map_const_seq, map_map. apply map_ext_in. intros i _. rewrite Ch. unfold both.
          rewrite clamp_other by exact Hc. rewrite <- !clip_R. reflexivity.
  Qed.
End Score.

(** ** The fit *)
Lemma transformed_matrix standardize has n p X : matrix n p X -> matrix n p (map (base_transform (N := Rnum) standardize has (fit_scaler (columns p X))) X).
Proof.
  intros [L F]. split; [now rewrite map_length|]. rewrite Forall_map, Forall_forall in *. intros x Hx. unfold base_transform. destruct standardize; [|exact (F x Hx)].
  rewrite (scaler_value n p X (conj L (proj2 (Forall_forall _ _) F))). apply length_transform; [apply length_means|apply length_scales|exact (F x Hx)].
Qed.

Lemma class_choice standardize has n p X (y : list Model_Labels.label) eps num (Cs : list R) ts clip metric target
    (sel_lm : solver_C (N := Rnum)) (est_lm : solver_ml (N := Rnum)) (refit : refitter (N := Rnum)) sel est :
  let z := Model_Labels.codes y in
  matrix n p X -> length z = n -> Forall (fun v => (v < 2)%nat) z -> In 0%nat z -> In 1%nat z ->
  In metric ["acc"; "log"; "BIC"; "AIC"; "AICc"]%string ->
  (metric <> "acc"%string -> Model_Labels.uoi_classes y = [Model_Labels.LInt 0; Model_Labels.LInt 1] /\ 0 < clip <= 1 / 2) ->
  ts <> [] -> Cs <> [] -> est <> [] ->
  let Xs := map (base_transform (N := Rnum) standardize has (fit_scaler (columns p X))) X in
  class_Cs (N := Rnum) has p eps num Xs z = Ok Cs ->
  let supports := class_select (N := Rnum) p sel_lm ts Cs sel Xs z in
  let fit_of sp mask := est_lm (part Xs (fst sp) mask) (part_y (map INR z) (fst sp)) in
  let cost_of sp mask := class_cost metric clip Xs z (fst sp) (scored target sp) mask (fit_of sp mask) in
  (forall sp, In sp est ->
     (forall r, In r (fst sp) -> (r < n)%nat) /\ fst sp <> [] /\ (forall r, In r (scored target sp) -> (r < n)%nat) /\ scored target sp <> [] /\
     forall mask, In mask supports -> existsb (fun b => b) mask = true -> length (fst (fit_of sp mask)) = count (fun b => b) mask) ->
  exists best c b,
    class_fit (N := Rnum) standardize has eps num ts clip metric target p sel_lm est_lm refit sel est X y = Ok (c, b) /\
    Forall2 (fun sp e => exists before mask after, supports = before ++ mask :: after /\ estimate_of p mask (fit_of sp mask) e /\
      (forall m, In m before -> cost_of sp mask < cost_of sp m) /\ forall m, In m supports -> cost_of sp mask <= cost_of sp m) est best /\
    length c = p /\
    forall j, (j < p)%nat -> median_of (map (fun e => entry e j) best) (entry c j * if standardize then column_scale (N := Rnum) (col n X j) else 1).
Proof.
  intros z HX0 Lz Hb H0 H1 Hmetric Hlabels Hts HCs Hest Xs G supports fit_of cost_of Hok.
  assert (Hn : (0 < n)%nat) by (rewrite <- Lz; destruct z; [easy|cbn; lia]).
  pose proof (transformed_matrix standardize has n p X HX0) as HX. fold Xs in HX.
  set (P := fun (sp : Model_Fit.split) (e : list R) => exists before mask after, supports = before ++ mask :: after /\ estimate_of p mask (fit_of sp mask) e /\
      (forall m, In m before -> cost_of sp mask < cost_of sp m) /\ forall m, In m supports -> cost_of sp mask <= cost_of sp m).
  destruct (mapM_ok (fun sp => let* out := mapM (estimate_class (N := Rnum) est_lm clip metric target p Xs y sp) supports in best_estimate (N := Rnum) out) P est) as (best & Eb & F).
  { intros sp Hsp. destruct (Hok sp Hsp) as (B1 & B2 & B3 & B4 & B5).
    destruct (best_first (estimate_class (N := Rnum) est_lm clip metric target p Xs y sp) (cost_of sp) (fun mask => estimate_of p mask (fit_of sp mask)) supports) as (before & mask & after & e & Es & Ee & Q1 & Q2 & Q3).
    - unfold supports, class_select. apply module_cons; [exact Hts|]. destruct Cs; [easy|discriminate].
    - intros mask Hm. exact (estimate_value n p Xs y HX Hb est_lm clip metric target sp Hmetric Hlabels B1 B3 B2 mask (module_length mask Hm) (B5 mask Hm)).
    - exists e. split; [exact Ee|]. exists before, mask, after. exact (conj Es (conj Q1 (conj Q2 Q3))). }
  assert (Lb : length est = length best) by (clear -F; induction F as [|? ? ? ? _ _ IH]; [reflexivity|exact (f_equal S IH)]).
  assert (Lc : length (bagged (N := Rnum) p best) = p) by (unfold bagged; now rewrite map_length, seq_length).
  set (post := glm_post (N := Rnum) standardize has (fit_scaler (columns p X)) (bagged (N := Rnum) p best) (class_intercept (N := Rnum) refit has Xs (bagged (N := Rnum) p best) z)).
  exists best, (fst post), (snd post). split; [|split; [|split]].
  - assert (V : exists i j, (i < n)%nat /\ (j < n)%nat /\ nth i z 0%nat = 0%nat /\ nth j z 0%nat = 1%nat).
    { apply (In_nth _ _ 0%nat) in H0 as (i & Hi & Ei). apply (In_nth _ _ 0%nat) in H1 as (j & Hj & Ej). exists i, j. rewrite Lz in Hi, Hj. now repeat split. }
    assert (L1 : length (numbers (N := Rnum) z) = n) by (unfold numbers; now rewrite map_length).
    assert (C1 : constant_response (N := Rnum) (numbers z) = false).
    { apply (not_constant n (numbers (N := Rnum) z) L1 (numbers (N := Rnum) z) L1). destruct V as (i & j & Hi & Hj & Ei & Ej). exists i, j. split; [exact Hi|]. split; [exact Hj|].
      rewrite !number_at, Ei, Ej. cbn. lra. }
    unfold class_fit. fold Xs. fold z. rr. rewrite C1, G. cbn [bind]. fold supports. unfold class_module. rr. rewrite Eb. cbn [bind fst snd]. fold z. fold post. now destruct post.
  - clear -F. induction F as [|sp e l l' [_ H] F IH]; constructor; assumption.
  - unfold post, glm_post, base_post. cbn [fst]. destruct standardize; [|exact Lc]. rewrite (scaler_value n p X HX0). cbn [scale_]. rewrite map2_length, length_scales. rr. rewrite Lc. apply Nat.min_id.
  - intros j Hj. assert (Ej : entry (bagged (N := Rnum) p best) j = median (N := Rnum) (map (fun e => entry e j) best)).
    { unfold bagged. exact (entry_mapseq (fun j => median (N := Rnum) (map (fun e => nth j e 0) best)) p j Hj). }
    assert (Ec : entry (fst post) j * (if standardize then column_scale (N := Rnum) (col n X j) else 1) = entry (bagged (N := Rnum) p best) j).
    { unfold post, glm_post, base_post. cbn [fst]. destruct standardize; [|rr; ring]. rewrite (scaler_value n p X HX0). cbn [scale_].
      pose proof (entry_map2n Rdiv p (bagged (N := Rnum) p best) (scales n p X) j Lc (length_scales n p X) Hj) as E. rewrite entry_scales in E by exact Hj.
      refine (eq_trans (f_equal (fun z => z * column_scale (N := Rnum) (col n X j)) E) _).
      pose proof (scale_pos n (col n X j) Hn (length_col n X j)). rr. field. lra. }
    refine (eq_ind_r (fun z => median_of _ z) _ Ec). rewrite Ej. apply median_value. destruct best; [|discriminate]. destruct est; [easy|discriminate].
Qed.
