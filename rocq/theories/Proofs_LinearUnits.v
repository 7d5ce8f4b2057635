(** Proofs about standardization: units of measurement (C102) and the largest penalty of
    standardized data (C101). *)
From Coq Require Import ZArith List Bool Arith Lia Reals Lra Psatz.
From Verif Require Import Prelude Num Model_Rescale Model_Refit Spec_Rescale Proofs_Rescale
  Model_Poisson Spec_Poisson Proofs_Poisson Proofs_PoissonOpt Model_Linear Spec_Linear Proofs_Linear.
Import ListNotations.
Local Open Scope R_scope.

(** ** One column *)
Definition spread n (v : list R) := Sum n (fun i => (entry v i - average n v) * (entry v i - average n v)).
Lemma spread_pos n v : 0 <= spread n v.
Proof. apply Sum_nonneg. intros. apply Rle_0_sqr. Qed.

Lemma scale_formula n (v : list R) : (0 < n)%nat -> length v = n ->
  column_scale (N := Rnum) v = if Req_EM_T (spread n v / INR n) 0 then 1 else deviation n v.
Proof.
  intros Hn Lv.
  assert (Em : nmean (N := Rnum) v = average n v) by exact (mean_n n v Lv).
  set (w := map (fun u : R => (u - nmean (N := Rnum) v) * (u - nmean (N := Rnum) v)) v).
  assert (Lw : @length R w = n) by (unfold w; rewrite map_length; exact Lv).
  assert (Ev : nmean (N := Rnum) w = spread n v / INR n).
  { refine (eq_trans (mean_n n w Lw) _). unfold Rdiv. f_equal. apply Sum_ext. intros i Hi. unfold w.
    refine (eq_trans (entry_mapn (fun u : R => (u - nmean (N := Rnum) v) * (u - nmean (N := Rnum) v)) n v i Lv Hi) _).
    change ((entry v i - nmean (N := Rnum) v) * (entry v i - nmean (N := Rnum) v) = (entry v i - average n v) * (entry v i - average n v)).
    now rewrite Em. }
  change ((if Reqb (nmean (N := Rnum) w) 0 then 1 else sqrt (nmean (N := Rnum) w)) = if Req_EM_T (spread n v / INR n) 0 then 1 else deviation n v).
  rewrite Ev. unfold Reqb. now destruct (Req_EM_T _ 0).
Qed.

Lemma Sum_term p f j : (forall k, (k < p)%nat -> 0 <= f k) -> (j < p)%nat -> f j <= Sum p f.
Proof.
  intros H Hj. pose proof (Sum_at p j f 0 Hj) as E.
  assert (0 <= Sum p (fun k => if Nat.eqb k j then 0 else f k)).
  { apply Sum_nonneg. intros k Hk. destruct (Nat.eqb k j); [lra|auto]. }
  lra.
Qed.
Lemma varies_spread n v : varies n v -> 0 < spread n v.
Proof.
  intros (i & k & Hi & Hk & Ne). pose proof (spread_pos n v) as S0.
  destruct (Rle_lt_or_eq_dec _ _ S0) as [|E]; [assumption|exfalso]. apply Ne.
  assert (A : forall l, (l < n)%nat -> entry v l = average n v).
  { intros l Hl. pose proof (Sum_term n (fun i => (entry v i - average n v) * (entry v i - average n v)) l
      (fun _ _ => Rle_0_sqr _) Hl) as T. cbv beta in T. change (Sum n _) with (spread n v) in T.
    assert (Z : (entry v l - average n v) * (entry v l - average n v) = 0).
    { apply Rle_antisym; [lra|apply Rle_0_sqr]. }
    apply Rmult_integral in Z. lra. }
  now rewrite (A i Hi), (A k Hk).
Qed.
Lemma varies_dec n v : varies n v \/ forall i k, (i < n)%nat -> (k < n)%nat -> entry v i = entry v k.
Proof.
  destruct (Req_dec (spread n v) 0) as [E|E].
  - right. intros i k Hi Hk. destruct (Req_dec (entry v i) (entry v k)) as [|Ne]; [assumption|].
    pose proof (varies_spread n v (ex_intro _ i (ex_intro _ k (conj Hi (conj Hk Ne))))). lra.
  - destruct n as [|n]; [right; intros; lia|].
    assert (D : (exists i, (i < S n)%nat /\ entry v i <> entry v 0) \/ forall i, (i < S n)%nat -> entry v i = entry v 0).
    { generalize (S n). intro q. induction q as [|q IH]; [right; intros; lia|]. destruct IH as [(i & Hi & Ne)|IH].
      - left. exists i. split; [lia|assumption].
      - destruct (Req_dec (entry v q) (entry v 0)) as [Eq|Ne]; [|left; exists q; split; [lia|assumption]].
        right. intros i Hi. destruct (Nat.eq_dec i q) as [->|]; [assumption|apply IH; lia]. }
    destruct D as [(i & Hi & Ne)|D].
    + left. exists i, 0%nat. repeat split; [assumption|lia|assumption].
    + right. intros i k Hi Hk. now rewrite (D i Hi), (D k Hk).
Qed.
Lemma constant_spread n v : (0 < n)%nat -> (forall i k, (i < n)%nat -> (k < n)%nat -> entry v i = entry v k) -> 
  average n v = entry v 0 /\ spread n v = 0.
Proof.
  intros Hn H. assert (HN' : 0 < INR n) by (apply lt_0_INR; lia).
  assert (A : average n v = entry v 0).
  { unfold average. rewrite (Sum_ext n _ (fun _ => entry v 0)) by (intros i Hi; apply H; lia). rewrite Sum_const. field. lra. }
  split; [exact A|]. apply Sum_zero. intros i Hi. rewrite A, (H i 0%nat) by lia. ring.
Qed.

Lemma deviation_pos n v : (0 < n)%nat -> varies n v -> 0 < deviation n v.
Proof.
  intros Hn V. apply sqrt_lt_R0. apply Rmult_lt_0_compat; [exact (varies_spread n v V)|apply Rinv_0_lt_compat, lt_0_INR; lia].
Qed.
Lemma scale_varies n v : (0 < n)%nat -> length v = n -> varies n v -> column_scale (N := Rnum) v = deviation n v.
Proof.
  intros Hn Lv V. rewrite (scale_formula n v Hn Lv). destruct (Req_EM_T _ 0) as [E|]; [exfalso|reflexivity].
  assert (0 < spread n v / INR n) by (apply Rmult_lt_0_compat; [exact (varies_spread n v V)|apply Rinv_0_lt_compat, lt_0_INR; lia]).
  lra.
Qed.
Lemma scale_constant n v : (0 < n)%nat -> length v = n ->
  (forall i k, (i < n)%nat -> (k < n)%nat -> entry v i = entry v k) -> column_scale (N := Rnum) v = 1.
Proof.
  intros Hn Lv V. rewrite (scale_formula n v Hn Lv), (proj2 (constant_spread n v Hn V)).
  destruct (Req_EM_T _ 0) as [|Ne]; [reflexivity|exfalso]. apply Ne. unfold Rdiv. ring.
Qed.
Lemma scale_pos n v : (0 < n)%nat -> length v = n -> 0 < column_scale (N := Rnum) v.
Proof.
  intros Hn Lv. destruct (varies_dec n v) as [V|V].
  - rewrite (scale_varies n v Hn Lv V). now apply deviation_pos.
  - rewrite (scale_constant n v Hn Lv V). apply Rlt_0_1.
Qed.

(** A column in other units. *)
Section Column.
  Variables (n : nat) (a d : R) (v w : list R).
  Hypothesis Hn : (0 < n)%nat.
  Hypothesis Ha : 0 < a.
  Hypothesis Lv : length v = n.
  Hypothesis Lw : length w = n.
  Hypothesis Hw : forall i, (i < n)%nat -> entry w i = a * entry v i + d.

  Lemma average_affine : average n w = a * average n v + d.
  Proof.
    assert (HN' : 0 < INR n) by (apply lt_0_INR; lia). unfold average.
    rewrite (Sum_ext n _ (fun i => a * entry v i + d)) by exact Hw. rewrite Sum_plus, Sum_scal, Sum_const.
    change (fun i => entry v i) with (entry v). field. lra.
  Qed.
  Lemma deviation_affine : deviation n w = a * deviation n v.
  Proof.
    unfold deviation. rewrite average_affine.
    rewrite (Sum_ext n _ (fun i => a * a * ((entry v i - average n v) * (entry v i - average n v)))) by (intros i Hi; rewrite Hw by assumption; ring).
    rewrite Sum_scal. unfold Rdiv. rewrite Rmult_assoc, sqrt_mult_alt by (apply Rle_0_sqr).
    rewrite sqrt_square by lra. reflexivity.
  Qed.
  Lemma varies_affine : varies n v -> varies n w.
  Proof.
    intros (i & k & Hi & Hk & Ne). exists i, k. repeat split; try assumption. rewrite !Hw by assumption. intro E. apply Ne.
    apply (Rmult_eq_reg_l a); lra.
  Qed.
  Lemma constant_affine : (forall i k, (i < n)%nat -> (k < n)%nat -> entry v i = entry v k) ->
    forall i k, (i < n)%nat -> (k < n)%nat -> entry w i = entry w k.
  Proof. intros H i k Hi Hk. rewrite !Hw, (H i k) by assumption. reflexivity. Qed.
  Lemma scale_affine : varies n v -> column_scale (N := Rnum) w = a * column_scale (N := Rnum) v.
  Proof.
    intro V. rewrite (scale_varies n w Hn Lw (varies_affine V)), (scale_varies n v Hn Lv V). apply deviation_affine.
  Qed.
End Column.

(** ** Matrices *)
Definition means n p X := map (fun j => average n (col n X j)) (seq 0 p).
Definition scales n p X := map (fun j => column_scale (N := Rnum) (col n X j)) (seq 0 p).
Lemma length_means n p X : length (means n p X) = p.
Proof. unfold means. now rewrite map_length, seq_length. Qed.
Lemma length_scales n p X : length (scales n p X) = p.
Proof. unfold scales. now rewrite map_length, seq_length. Qed.
Lemma entry_means n p X j : (j < p)%nat -> entry (means n p X) j = average n (col n X j).
Proof. exact (entry_mapseq (fun j => average n (col n X j)) p j). Qed.
Lemma entry_scales n p X j : (j < p)%nat -> entry (scales n p X) j = column_scale (N := Rnum) (col n X j).
Proof. exact (entry_mapseq (fun j => column_scale (N := Rnum) (col n X j)) p j). Qed.
Lemma scales_good n p X : (0 < n)%nat -> scales_ok p (scales n p X).
Proof.
  intro Hn. split; [apply length_scales|]. intros j Hj. rewrite entry_scales by assumption.
  pose proof (scale_pos n (col n X j) Hn (length_col n X j)). lra.
Qed.
Lemma scaler_value n p X : matrix n p X -> fit_scaler (N := Rnum) (columns (N := Rnum) p X) = mkScaler (means n p X) (scales n p X).
Proof.
  intro HX. unfold fit_scaler. rewrite (columns_col n p X HX), !map_map. f_equal. apply map_ext. intro j.
  exact (mean_n n _ (length_col n X j)).
Qed.
Lemma length_transform p (m s x : list R) f : length m = p -> length s = p -> length x = p ->
  @length R (transform (N := Rnum) (mkScaler m s) f x) = p.
Proof.
  intros H1 H2 H3. unfold transform. cbn [mean_ scale_]. destruct f; rewrite !map2_length; rr; lia.
Qed.

Section Units.
  Variables (n p : nat) (a d : nat -> R) (X X2 : list (list R)).
  Hypothesis Hn : (0 < n)%nat.
  Hypothesis HU : other_units n p a d X X2.

  Lemma col_affine j : (j < p)%nat -> forall i, (i < n)%nat -> entry (col n X2 j) i = a j * entry (col n X j) i + d j.
  Proof. destruct HU as (_ & _ & _ & E). intros Hj i Hi. rewrite !entry_colmat by assumption. auto. Qed.
  Lemma mean_units j : (j < p)%nat -> average n (col n X2 j) = a j * average n (col n X j) + d j.
  Proof. intro Hj. exact (average_affine n (a j) (d j) _ _ Hn (length_col n X j) (length_col n X2 j) (col_affine j Hj)). Qed.
  Lemma scale_units j : (j < p)%nat -> varies n (col n X j) ->
    column_scale (N := Rnum) (col n X2 j) = a j * column_scale (N := Rnum) (col n X j).
  Proof.
    intros Hj V. destruct HU as (_ & _ & A & _).
    exact (scale_affine n (a j) (d j) _ _ Hn (A j Hj) (length_col n X j) (length_col n X2 j) (col_affine j Hj) V).
  Qed.

  (** The standardized value of a sample does not depend on the units. *)
  Lemma std_units j (u : R) : (j < p)%nat -> varies n (col n X j) ->
    (a j * u + d j - average n (col n X2 j)) / column_scale (N := Rnum) (col n X2 j)
    = (u - average n (col n X j)) / column_scale (N := Rnum) (col n X j).
  Proof.
    intros Hj V. rewrite (mean_units j Hj). refine (eq_trans (f_equal (fun q => _ / q) (scale_units j Hj V)) _).
    destruct HU as (_ & _ & A & _). pose proof (A j Hj). pose proof (scale_pos n (col n X j) Hn (length_col n X j)).
    field. split; lra.
  Qed.

  Lemma same_matrix (f : bool) : (f = false -> forall j, (j < p)%nat -> d j = 0 /\ varies n (col n X j)) ->
    map (base_transform (N := Rnum) true f (fit_scaler (columns (N := Rnum) p X2))) X2
    = map (base_transform (N := Rnum) true f (fit_scaler (columns (N := Rnum) p X))) X.
  Proof.
    intro Hf. destruct HU as (HX & HX2 & A & E). pose proof (proj1 HX) as L1. pose proof (proj1 HX2) as L2.
    rewrite (scaler_value n p X HX), (scaler_value n p X2 HX2). unfold base_transform.
    set (f1 := transform (N := Rnum) (mkScaler (means n p X) (scales n p X)) f).
    set (f2 := transform (N := Rnum) (mkScaler (means n p X2) (scales n p X2)) f).
    apply (nth_ext _ _ (f2 []) (f1 [])); [rewrite !map_length; exact (eq_trans L2 (eq_sym L1))|].
    intros i Hi. rewrite map_length in Hi. rewrite (map_nth f2), (map_nth f1).
    assert (Hi' : (i < n)%nat) by (rewrite <- L2; exact Hi).
    pose proof (row_length n p X i HX Hi') as R1. pose proof (row_length n p X2 i HX2 Hi') as R2.
    apply (list_eq_entries _ _ p).
    - apply length_transform; [apply length_means|apply length_scales|exact R2].
    - apply length_transform; [apply length_means|apply length_scales|exact R1].
    - intros j Hj. unfold f1, f2.
      refine (eq_trans (transform_entry' p _ _ _ (length_means n p X2) (scales_good n p X2 Hn) R2 f j Hj) _).
      refine (eq_trans _ (eq_sym (transform_entry' p _ _ _ (length_means n p X) (scales_good n p X Hn) R1 f j Hj))).
      rewrite !entry_means, !entry_scales by assumption.
      change (entry (nth i X2 []) j) with (mat X2 i j). change (entry (nth i X []) j) with (mat X i j).
      rewrite (E i j Hi' Hj). destruct f.
      + destruct (varies_dec n (col n X j)) as [V|V]; [now apply std_units|].
        pose proof (constant_affine n (a j) (d j) _ _ (col_affine j Hj) V) as V2.
        destruct (constant_spread n _ Hn V) as [A1 _]. rewrite (mean_units j Hj), A1.
        assert (mat X i j = entry (col n X j) 0) by (rewrite <- (V i 0%nat) by lia; now rewrite entry_colmat).
        rewrite H. replace (a j * entry (col n X j) 0 + d j - (a j * entry (col n X j) 0 + d j)) with 0 by ring.
        replace (entry (col n X j) 0 - entry (col n X j) 0) with 0 by ring. unfold Rdiv. ring.
      + destruct (Hf eq_refl j Hj) as [Hd V]. refine (eq_trans (f_equal (fun q => _ / q) (scale_units j Hj V)) _). rewrite Hd.
        pose proof (A j Hj). pose proof (scale_pos n (col n X j) Hn (length_col n X j)). field. split; lra.
  Qed.

  (** Values of the standardized model. *)
  Lemma same_value (f : bool) (c : list R) b x x2 : (f = false -> forall j, (j < p)%nat -> d j = 0) ->
    (forall j, (j < p)%nat -> varies n (col n X j) \/ entry c j = 0) -> other_sample p a d x x2 ->
    std_value p f (means n p X2) (scales n p X2) c b x2 = std_value p f (means n p X) (scales n p X) c b x.
  Proof.
    intros Hf Hc (Lx & Lx2 & Ex). unfold std_value. f_equal. apply Sum_ext. intros j Hj.
    rewrite !entry_means, !entry_scales, (Ex j Hj) by assumption.
    destruct (Hc j Hj) as [V| E0]; [|rewrite E0; ring]. f_equal. destruct f; [now apply std_units|].
    refine (eq_trans (f_equal (fun q => _ / q) (scale_units j Hj V)) _). rewrite (Hf eq_refl j Hj).
    destruct HU as (_ & _ & A & _). pose proof (A j Hj). pose proof (scale_pos n (col n X j) Hn (length_col n X j)). field. split; lra.
  Qed.
End Units.

(** ** fit *)
Section Fits.
  Variables (n p : nat) (a d : nat -> R) (X X2 : list (list R)) (s t : R) (y y2 : list R).
  Hypothesis Hn : (0 < n)%nat.
  Hypothesis HU : other_units n p a d X X2.
  Hypothesis HR : other_response n s t y y2.
  Hypothesis Hv : varies n y.
  Variables (has : bool).
  Hypothesis Hno : has = false -> t = 0 /\ forall j, (j < p)%nat -> d j = 0 /\ varies n (col n X j).

  Lemma response_mean : nmean (N := Rnum) y2 = s * nmean (N := Rnum) y + t.
  Proof.
    destruct HR as (L1 & L2 & Hs & E). refine (eq_trans (mean_n n y2 L2) _).
    refine (eq_trans (average_affine n s t y y2 Hn L1 L2 E) _). f_equal. f_equal. symmetry. exact (mean_n n y L1).
  Qed.
  Lemma response_scale : column_scale (N := Rnum) y2 = s * column_scale (N := Rnum) y.
  Proof. destruct HR as (L1 & L2 & Hs & E). exact (scale_affine n s t y y2 Hn Hs L1 L2 E Hv). Qed.

  Lemma same_data : linear_pre (N := Rnum) true has p X2 y2 = linear_pre (N := Rnum) true has p X y.
  Proof.
    unfold linear_pre. f_equal.
    - apply (same_matrix n p a d X X2 Hn HU). intros E j Hj. exact (proj2 (Hno E) j Hj).
    - destruct HR as (L1 & L2 & Hs & E).
      pose proof (scale_pos n y Hn L1) as P.
      assert (L1' : length (map (fun v : R => (if has then v - nmean (N := Rnum) y else v) / column_scale (N := Rnum) y) y) = n) by (now rewrite map_length).
      assert (L2' : length (map (fun v : R => (if has then v - nmean (N := Rnum) y2 else v) / column_scale (N := Rnum) y2) y2) = n) by (now rewrite map_length).
      apply (list_eq_entries _ _ n L2' L1'). intros i Hi.
      rewrite (entry_mapn (fun v : R => (if has then v - nmean (N := Rnum) y2 else v) / column_scale (N := Rnum) y2) n y2 i L2 Hi).
      rewrite (entry_mapn (fun v : R => (if has then v - nmean (N := Rnum) y else v) / column_scale (N := Rnum) y) n y i L1 Hi).
      rewrite response_mean, response_scale, (E i Hi).
      set (q := column_scale (N := Rnum) y : R) in *. set (r := nmean (N := Rnum) y : R) in *. clearbody q r. destruct has; [|rewrite (proj1 (Hno eq_refl))]; field; split; lra.
  Qed.

  Variable core : list (list R) * list R -> list R * R.
  Let c := core (linear_pre (N := Rnum) true has p X y).
  Hypothesis Lc : length (fst c) = p.
  Hypothesis Zc : forall j, (j < p)%nat -> varies n (col n X j) \/ entry (fst c) j = 0.
  Hypothesis Ic : has = false -> snd c = 0.
  Let r := linear_fit (N := Rnum) true has p core X y.
  Let r2 := linear_fit (N := Rnum) true has p core X2 y2.

  Lemma fit_value x x2 : other_sample p a d x x2 ->
    value p (fst r2) (snd r2) x2 = s * value p (fst r) (snd r) x + t.
  Proof.
    intro HS. pose proof HU as (HX & HX2 & _). pose proof HS as (Lx & Lx2 & Ex).
    unfold r, r2, linear_fit. rewrite same_data. fold c.
    rewrite (scaler_value n p X HX), (scaler_value n p X2 HX2).
    rewrite (linear_rescaled p _ _ (fst c) x2 (snd c) (length_means n p X2) (scales_good n p X2 Hn) Lc Lx2 has _ _ Ic).
    rewrite (linear_rescaled p _ _ (fst c) x (snd c) (length_means n p X) (scales_good n p X Hn) Lc Lx has _ _ Ic).
    rewrite (same_value n p a d X X2 Hn HU has (fst c) (snd c) x x2); [|intros E j Hj; exact (proj1 (proj2 (Hno E) j Hj))|exact Zc|exact HS].
    rewrite response_mean, response_scale.
    set (q := column_scale (N := Rnum) y : R). set (u := nmean (N := Rnum) y : R). clearbody q u.
    destruct has; [ring|rewrite (proj1 (Hno eq_refl)); ring].
  Qed.

  Lemma post_coef (m sc : list R) (ym ys : R) (cc : list R) (b : R) j : length cc = p -> length sc = p -> (j < p)%nat ->
    entry (fst (linear_post (N := Rnum) true has (mkScaler m sc) ym ys cc b)) j = entry cc j / entry sc j * ys.
  Proof.
    intros L1 L2 Hj. unfold linear_post, base_post. cbn [fst scale_].
    assert (L : length (map2 Rdiv cc sc) = p) by (rewrite map2_length; lia).
    refine (eq_trans (entry_mapn (fun v => v * ys) p (map2 Rdiv cc sc) j L Hj) _). f_equal.
    exact (entry_map2n Rdiv p cc sc j L1 L2 Hj).
  Qed.
  Lemma fit_coef j : (j < p)%nat -> entry (fst r2) j = s * entry (fst r) j / a j.
  Proof.
    intro Hj. pose proof HU as (HX & HX2 & A & _). unfold r, r2, linear_fit. rewrite same_data. fold c.
    rewrite (scaler_value n p X HX), (scaler_value n p X2 HX2).
    rewrite (post_coef _ _ _ _ _ _ j Lc (length_scales n p X2) Hj), (post_coef _ _ _ _ _ _ j Lc (length_scales n p X) Hj).
    rewrite !entry_scales, response_scale by assumption. pose proof (A j Hj) as Aj.
    pose proof (scale_pos n (col n X j) Hn (length_col n X j)) as P.
    destruct (Zc j Hj) as [V|E]; [|rewrite E; unfold Rdiv; ring].
    pose proof (scale_units n p a d X X2 Hn HU j Hj V) as E2.
    set (q := column_scale (N := Rnum) y : R). clearbody q.
    refine (eq_trans (f_equal (fun z => _ / z * _) E2) _). set (w := column_scale (N := Rnum) (col n X j) : R) in *. clearbody w.
    field. split; lra.
  Qed.
End Fits.

(** Poisson and logistic: the response is the same. *)
Section Others.
  Variables (n p : nat) (a d : nat -> R) (X X2 : list (list R)).
  Hypothesis Hn : (0 < n)%nat.
  Hypothesis HU : other_units n p a d X X2.

  Lemma poisson_units has (core : list (list R) * list R -> list R * R) y x x2 :
    let c := core (map (centering_transform (N := Rnum) true (fit_scaler (columns (N := Rnum) p X))) X, y) in
    length (fst c) = p -> (forall j, (j < p)%nat -> varies n (col n X j) \/ entry (fst c) j = 0) ->
    other_sample p a d x x2 ->
    let r := poisson_uoi_fit (N := Rnum) true has p core X y in
    let r2 := poisson_uoi_fit (N := Rnum) true has p core X2 y in
    value p (fst r2) (snd r2) x2
    = value p (fst r) (snd r) x + if has then 0 else Sum p (fun j => entry (fst r) j * (d j / a j)).
  Proof.
    intros c Lc Zc HS. pose proof HS as (Lx & Lx2 & Ex). pose proof HU as (HX & HX2 & A & _). cbv zeta.
    pose proof (same_matrix n p a d X X2 Hn HU true ltac:(discriminate)) as EM.
    change (base_transform (N := Rnum) true true) with (centering_transform (N := Rnum) true) in EM.
    assert (R1 : poisson_uoi_fit (N := Rnum) true has p core X y = poisson_post (N := Rnum) true has (fit_scaler (columns (N := Rnum) p X)) (fst c) (snd c)) by reflexivity.
    assert (R2 : poisson_uoi_fit (N := Rnum) true has p core X2 y = poisson_post (N := Rnum) true has (fit_scaler (columns (N := Rnum) p X2)) (fst c) (snd c)).
    { unfold c. refine (eq_trans _ (f_equal (fun Z => poisson_post (N := Rnum) true has (fit_scaler (columns (N := Rnum) p X2)) (fst (core (Z, y))) (snd (core (Z, y)))) EM)). reflexivity. }
    rewrite R1, R2. clear R1 R2. clearbody c.
    rewrite (scaler_value n p X HX), (scaler_value n p X2 HX2).
    rewrite (poisson_rescaled p _ _ (fst c) x2 (snd c) (length_means n p X2) (scales_good n p X2 Hn) Lc Lx2 has).
    rewrite (poisson_rescaled p _ _ (fst c) x (snd c) (length_means n p X) (scales_good n p X Hn) Lc Lx has).
    rewrite (same_value n p a d X X2 Hn HU true (fst c) (snd c) x x2); [|discriminate|exact Zc|exact HS].
    destruct has; [ring|]. rewrite Rplus_assoc. f_equal. rewrite <- Sum_plus. apply Sum_ext. intros j Hj.
    assert (EC : forall Y, entry (fst (poisson_post (N := Rnum) true false (mkScaler (means n p Y) (scales n p Y)) (fst c) (snd c))) j
                 = entry (fst c) j / column_scale (N := Rnum) (col n Y j)).
    { intro Y. unfold poisson_post. cbn [fst scale_].
      refine (eq_trans (entry_map2n Rdiv p (fst c) (scales n p Y) j Lc (length_scales n p Y) Hj) _). now rewrite entry_scales. }
    rewrite !EC, !entry_means, (mean_units n p a d X X2 Hn HU j Hj) by assumption. pose proof (A j Hj) as Aj.
    pose proof (scale_pos n (col n X j) Hn (length_col n X j)) as P.
    destruct (Zc j Hj) as [V|E]; [|rewrite E; unfold Rdiv; ring].
    refine (eq_trans (f_equal (fun z => _ * (_ / z)) (scale_units n p a d X X2 Hn HU j Hj V)) _).
    set (w := column_scale (N := Rnum) (col n X j) : R) in *. clearbody w. field. split; lra.
  Qed.

  Lemma logistic_units {Y : Type} (core : list (list R) * Y -> list R * R) y x x2 :
    let c := core (map (base_transform (N := Rnum) true true (fit_scaler (columns (N := Rnum) p X))) X, y) in
    length (fst c) = p -> (forall j, (j < p)%nat -> varies n (col n X j) \/ entry (fst c) j = 0) ->
    other_sample p a d x x2 ->
    let r := logistic_uoi_fit (N := Rnum) true true p core X y in
    let r2 := logistic_uoi_fit (N := Rnum) true true p core X2 y in
    value p (fst r2) (snd r2) x2
    = value p (fst r) (snd r) x
      + Sum p (fun j => entry (fst r) j * (d j / a j + deviation n (col n X j)
                        * (a j * average n (col n X j) + d j - average n (col n X j)))).
  Proof.
    intros c Lc Zc HS. pose proof HS as (Lx & Lx2 & Ex). pose proof HU as (HX & HX2 & A & _). cbv zeta.
    pose proof (same_matrix n p a d X X2 Hn HU true ltac:(discriminate)) as EM.
    assert (R1 : logistic_uoi_fit (N := Rnum) true true p core X y = glm_post (N := Rnum) true true (fit_scaler (columns (N := Rnum) p X)) (fst c) (snd c)) by reflexivity.
    assert (R2 : logistic_uoi_fit (N := Rnum) true true p core X2 y = glm_post (N := Rnum) true true (fit_scaler (columns (N := Rnum) p X2)) (fst c) (snd c)).
    { unfold c. refine (eq_trans _ (f_equal (fun Z => glm_post (N := Rnum) true true (fit_scaler (columns (N := Rnum) p X2)) (fst (core (Z, y))) (snd (core (Z, y)))) EM)). reflexivity. }
    rewrite R1, R2. clear R1 R2. clearbody c.
    rewrite (scaler_value n p X HX), (scaler_value n p X2 HX2).
    rewrite (glm_rescaled p _ _ (fst c) x2 (snd c) (length_means n p X2) (scales_good n p X2 Hn) Lc Lx2 true).
    rewrite (glm_rescaled p _ _ (fst c) x (snd c) (length_means n p X) (scales_good n p X Hn) Lc Lx true).
    rewrite (same_value n p a d X X2 Hn HU true (fst c) (snd c) x x2); [|discriminate|exact Zc|exact HS].
    rewrite Rplus_assoc. f_equal. rewrite <- Sum_plus. apply Sum_ext. intros j Hj.
    assert (EC : entry (fst (glm_post (N := Rnum) true true (mkScaler (means n p X) (scales n p X)) (fst c) (snd c))) j
                 = entry (fst c) j / column_scale (N := Rnum) (col n X j)).
    { unfold glm_post, base_post. cbn [fst scale_].
      refine (eq_trans (entry_map2n Rdiv p (fst c) (scales n p X) j Lc (length_scales n p X) Hj) _). now rewrite entry_scales. }
    rewrite EC, !entry_means, !entry_scales, (mean_units n p a d X X2 Hn HU j Hj) by assumption. pose proof (A j Hj) as Aj.
    pose proof (scale_pos n (col n X j) Hn (length_col n X j)) as P.
    destruct (Zc j Hj) as [V|E]; [|rewrite E; unfold Rdiv; ring].
    refine (eq_trans (f_equal (fun z => _ * (1 + / z)) (scale_units n p a d X X2 Hn HU j Hj V)) _).
    rewrite <- (scale_varies n (col n X j) Hn (length_col n X j) V).
    set (w := column_scale (N := Rnum) (col n X j) : R) in *. clearbody w. field. split; lra.
  Qed.

  Lemma logistic_units_no_intercept {Y : Type} (core : list (list R) * Y -> list R * R) y x x2 :
    (forall j, (j < p)%nat -> d j = 0 /\ varies n (col n X j)) ->
    let c := core (map (base_transform (N := Rnum) true false (fit_scaler (columns (N := Rnum) p X))) X, y) in
    length (fst c) = p -> other_sample p a d x x2 ->
    let r := logistic_uoi_fit (N := Rnum) true false p core X y in
    let r2 := logistic_uoi_fit (N := Rnum) true false p core X2 y in
    value p (fst r2) (snd r2) x2 = value p (fst r) (snd r) x.
  Proof.
    intros Hd c Lc HS. pose proof HS as (Lx & Lx2 & Ex). pose proof HU as (HX & HX2 & A & _). cbv zeta.
    pose proof (same_matrix n p a d X X2 Hn HU false (fun _ => Hd)) as EM.
    assert (R1 : logistic_uoi_fit (N := Rnum) true false p core X y = glm_post (N := Rnum) true false (fit_scaler (columns (N := Rnum) p X)) (fst c) (snd c)) by reflexivity.
    assert (R2 : logistic_uoi_fit (N := Rnum) true false p core X2 y = glm_post (N := Rnum) true false (fit_scaler (columns (N := Rnum) p X2)) (fst c) (snd c)).
    { unfold c. refine (eq_trans _ (f_equal (fun Z => glm_post (N := Rnum) true false (fit_scaler (columns (N := Rnum) p X2)) (fst (core (Z, y))) (snd (core (Z, y)))) EM)). reflexivity. }
    rewrite R1, R2. clear R1 R2. clearbody c.
    rewrite (scaler_value n p X HX), (scaler_value n p X2 HX2).
    rewrite (glm_rescaled p _ _ (fst c) x2 (snd c) (length_means n p X2) (scales_good n p X2 Hn) Lc Lx2 false).
    rewrite (glm_rescaled p _ _ (fst c) x (snd c) (length_means n p X) (scales_good n p X Hn) Lc Lx false).
    rewrite (same_value n p a d X X2 Hn HU false (fst c) (snd c) x x2); [reflexivity| |intros j Hj; left; apply (Hd j Hj)|exact HS].
    intros _ j Hj. apply (Hd j Hj).
  Qed.
End Others.

(** ** The largest penalty of standardized data *)
Lemma cauchy n f g : Sum n (fun i => f i * g i) * Sum n (fun i => f i * g i)
  <= Sum n (fun i => f i * f i) * Sum n (fun i => g i * g i).
Proof.
  set (A := Sum n (fun i => f i * f i)). set (B := Sum n (fun i => f i * g i)). set (C := Sum n (fun i => g i * g i)).
  assert (Q : forall t u, 0 <= t * t * A - 2 * t * u * B + u * u * C).
  { intros t u. unfold A, B, C. rewrite <- !Sum_scal, <- Sum_minus, <- Sum_plus. apply Sum_nonneg. intros i _.
    replace (t * t * (f i * f i) - 2 * t * u * (f i * g i) + u * u * (g i * g i)) with ((t * f i - u * g i) * (t * f i - u * g i)) by ring.
    apply Rle_0_sqr. }
  assert (A0 : 0 <= A) by (apply Sum_nonneg; intros; apply Rle_0_sqr).
  destruct (Req_dec A 0) as [E|Ne].
  - rewrite E. assert (B = 0); [|subst B; rewrite H; lra].
    destruct (Req_dec B 0) as [|Nb]; [assumption|exfalso]. pose proof (Q ((C + 1) / B) 1) as H. rewrite E in H.
    assert (C0 : 0 <= C) by (apply Sum_nonneg; intros; apply Rle_0_sqr).
    replace ((C + 1) / B * ((C + 1) / B) * 0 - 2 * ((C + 1) / B) * 1 * B + 1 * 1 * C) with (- C - 2) in H by (field; assumption). lra.
  - pose proof (Q B A) as H. assert (0 < A) by lra. apply (Rmult_le_reg_l A); [assumption|]. lra.
Qed.
Lemma correlation_le n u v : (0 < n)%nat -> varies n u -> varies n v -> Rabs (correlation n u v) <= 1.
Proof.
  intros Hn Vu Vv. pose proof (deviation_pos n u Hn Vu) as Pu. pose proof (deviation_pos n v Hn Vv) as Pv.
  assert (HN' : 0 < INR n) by (apply lt_0_INR; lia).
  unfold correlation. set (B := Sum n _).
  assert (Su : deviation n u * deviation n u = spread n u / INR n).
  { apply sqrt_sqrt. apply Rmult_le_pos; [apply spread_pos|left; now apply Rinv_0_lt_compat]. }
  assert (Sv : deviation n v * deviation n v = spread n v / INR n).
  { apply sqrt_sqrt. apply Rmult_le_pos; [apply spread_pos|left; now apply Rinv_0_lt_compat]. }
  pose proof (cauchy n (fun i => entry u i - average n u) (fun i => entry v i - average n v)) as CS. cbv beta in CS.
  change (B * B <= spread n u * spread n v) in CS.
  set (q := B / INR n / (deviation n u * deviation n v)).
  assert (Pq : q * (deviation n u * deviation n v) * INR n = B) by (unfold q; field; lra).
  assert (Hq : q * q <= 1).
  { assert (E : spread n u * spread n v = deviation n u * deviation n u * (deviation n v * deviation n v) * (INR n * INR n)) by (rewrite Su, Sv; field; lra).
    rewrite E in CS. set (z := deviation n u * deviation n v * INR n). assert (Pz : 0 < z * z) by (unfold z; repeat apply Rmult_lt_0_compat; assumption).
    apply (Rmult_le_reg_r (z * z)); [assumption|]. unfold z. rewrite <- Pq in CS. lra. }
  apply Rabs_le. nra.
Qed.

Section Standardized.
  Variables (n p : nat) (X : list (list R)) (y : list R).
  Hypothesis HX : matrix n p X.
  Hypothesis Hn : (0 < n)%nat.
  Hypothesis Hp : (0 < p)%nat.
  Hypothesis Hy : length y = n.
  Hypothesis Hv : varies n y.
  Let D := linear_pre (N := Rnum) true true p X y.

  Lemma std_matrix : matrix n p (fst D).
  Proof.
    destruct HX as [L F]. unfold D, linear_pre. cbn [fst]. split; [now rewrite map_length|].
    rewrite Forall_map, Forall_forall in *. intros x Hx. rewrite (scaler_value n p X HX).
    apply length_transform; [apply length_means|apply length_scales|exact (F x Hx)].
  Qed.
  Lemma std_length : length (snd D) = n.
  Proof. unfold D, linear_pre. cbn [snd]. rewrite map_length. exact Hy. Qed.
  Lemma std_X i j : (i < n)%nat -> (j < p)%nat ->
    mat (fst D) i j = (mat X i j - average n (col n X j)) / column_scale (N := Rnum) (col n X j).
  Proof.
    intros Hi Hj. unfold D, linear_pre. cbn [fst]. rewrite (scaler_value n p X HX). unfold base_transform.
    set (f := transform (N := Rnum) _ _). unfold mat at 1. pose proof (row_length n p X i HX Hi) as Lr.
    rewrite (nth_indep _ [] (f [])) by (rewrite map_length; rewrite <- (proj1 HX) in Hi; exact Hi). rewrite (map_nth f).
    refine (eq_trans (transform_entry' p _ _ _ (length_means n p X) (scales_good n p X Hn) Lr true j Hj) _).
    now rewrite entry_means, entry_scales.
  Qed.
  Lemma std_y i : (i < n)%nat -> entry (snd D) i = (entry y i - average n y) / deviation n y.
  Proof.
    intro Hi. unfold D, linear_pre. cbn [snd].
    refine (eq_trans (entry_mapn (fun v : R => (v - nmean (N := Rnum) y) / column_scale (N := Rnum) y) n y i Hy Hi) _).
    rewrite (scale_varies n y Hn Hy Hv). f_equal. f_equal. exact (mean_n n y Hy).
  Qed.
  Lemma sum_centered v : Sum n (fun i => entry v i - average n v) = 0.
  Proof.
    assert (HN' : 0 < INR n) by (apply lt_0_INR; lia). rewrite Sum_minus, Sum_const. unfold average.
    change (fun i => entry v i) with (entry v). field. lra.
  Qed.
  Lemma std_comoment j : (j < p)%nat -> comoment true n (fst D) (snd D) j = INR n * correlation n (col n X j) y.
  Proof.
    intro Hj. assert (HN' : 0 < INR n) by (apply lt_0_INR; lia).
    assert (A1 : average n (col n (fst D) j) = 0).
    { unfold average. rewrite (Sum_ext n _ (fun i => (entry (col n X j) i - average n (col n X j)) * / column_scale (N := Rnum) (col n X j))).
      - rewrite Sum_scal_r, sum_centered. unfold Rdiv. rewrite !Rmult_0_l. reflexivity.
      - intros i Hi. rewrite !entry_colmat, std_X by assumption. reflexivity. }
    assert (A2 : average n (snd D) = 0).
    { unfold average. rewrite (Sum_ext n _ (fun i => (entry y i - average n y) * / deviation n y)).
      - rewrite Sum_scal_r, sum_centered. unfold Rdiv. rewrite !Rmult_0_l. reflexivity.
      - intros i Hi. rewrite std_y by assumption. reflexivity. }
    unfold comoment. rewrite A1, A2. pose proof (deviation_pos n y Hn Hv) as Py.
    destruct (varies_dec n (col n X j)) as [V|V].
    - pose proof (deviation_pos n _ Hn V) as Px. unfold correlation.
      rewrite (Sum_ext n (fun i => (mat (fst D) i j - 0) * _)
        (fun i => / (deviation n (col n X j) * deviation n y) * ((entry (col n X j) i - average n (col n X j)) * (entry y i - average n y)))).
      + rewrite Sum_scal. field. repeat split; lra.
      + intros i Hi. rewrite std_X, std_y, entry_colmat by assumption. rewrite (scale_varies n _ Hn (length_col n X j) V).
        field. split; lra.
    - destruct (constant_spread n _ Hn V) as [A _]. unfold correlation.
      rewrite (Sum_zero n (fun i => (mat (fst D) i j - 0) * _)).
      + rewrite (Sum_zero n). unfold Rdiv. ring. intros i Hi. rewrite A, (V i 0%nat) by lia. ring.
      + intros i Hi. rewrite std_X by assumption. rewrite A. rewrite <- (entry_colmat n X j i Hi), (V i 0%nat) by lia. unfold Rdiv. ring.
  Qed.
  Lemma std_alpha_max (mix : R) : mix <> 0 -> exists m,
    largest p (fun j => correlation n (col n X j) y) m /\ m <= 1 /\
    alpha_max (N := Rnum) true p (fst D) (snd D) mix = m / mix.
  Proof.
    intro Hm. assert (HN' : 0 < INR n) by (apply lt_0_INR; lia).
    destruct (alpha_max_value true n p (fst D) (snd D) std_matrix Hn std_length mix Hp) as (m & (M1 & j0 & Hj0 & M2) & E).
    assert (Q : forall j, (j < p)%nat -> Rabs (comoment true n (fst D) (snd D) j) = INR n * Rabs (correlation n (col n X j) y)).
    { intros j Hj. rewrite std_comoment by assumption. rewrite Rabs_mult, (Rabs_right (INR n)) by lra. reflexivity. }
    exists (m / INR n). split; [split|split].
    - intros j Hj. specialize (M1 j Hj). rewrite Q in M1 by assumption. apply (Rmult_le_reg_l (INR n)); [assumption|].
      replace (INR n * (m / INR n)) with m by (field; lra). exact M1.
    - exists j0. split; [assumption|]. rewrite Q in M2 by assumption. rewrite <- M2. field. lra.
    - rewrite Q in M2 by assumption. rewrite <- M2. replace (INR n * Rabs (correlation n (col n X j0) y) / INR n) with (Rabs (correlation n (col n X j0) y)) by (field; lra).
      destruct (varies_dec n (col n X j0)) as [V|V]; [now apply correlation_le|].
      destruct (constant_spread n _ Hn V) as [A _]. unfold correlation. rewrite (Sum_zero n).
      + unfold Rdiv. rewrite !Rmult_0_l, Rabs_R0. lra.
      + intros i Hi. rewrite A, (V i 0%nat) by lia. ring.
    - refine (eq_trans E _). change (m / (INR n * mix) = m / INR n / mix). field. split; [lra|assumption].
  Qed.
End Standardized.
