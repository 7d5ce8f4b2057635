(** Proofs about the Poisson and classification data sets (C69, C95). *)
From Coq Require Import ZArith List Bool Arith Reals Lia Lra Sorting.Permutation.
From Verif Require Import Prelude Num Spec_Rescale Spec_Poisson Model_Poisson Model_Logistic Model_Fit Model_Datasets Spec_Datasets
  Proofs_Rescale Proofs_Multinomial Proofs_Poisson Proofs_Logistic Proofs_Nmf Proofs_LbfgsVec Proofs_PoissonOpt Proofs_Datasets.
Import ListNotations.

Lemma mapM_total {A B} (f : A -> result B) (g : A -> B) l : (forall x, In x l -> f x = Ok (g x)) ->
  mapM f l = Ok (map g l).
Proof.
  induction l as [|x l IH]; intro H; [reflexivity|]. cbn [mapM map].
  rewrite (H x (or_introl eq_refl)). cbn [bind]. rewrite IH; [reflexivity|]. intros y Hy. apply H. now right.
Qed.

Lemma poisson_data n p k (X_loc X_scale shape scale : R) beta include (d : reg_draws Rnum)
    (pois : nat -> R -> result R) (draw : nat -> R -> R) :
  reg_draws_ok n p d -> (0 <= X_scale)%R -> (0 <= shape)%R -> (0 <= scale)%R ->
  (forall b : list R, beta = Some b -> length b = p) ->
  (forall i lam, pois i lam = Ok (draw i lam)) ->
  exists r : regression Rnum,
    make_poisson_regression (N := Rnum) p k X_loc X_scale beta shape scale include d pois = Ok r /\
    matrix n p (r_X r) /\ length (r_y r) = n /\ length (r_beta r) = p /\
    (forall i j, i < n -> j < p -> mat (r_X r) i j = (X_loc + X_scale * mat (d_X d) i j)%R) /\
    r_intercept r = (if include then scale * d_int d else 0)%R /\
    (forall b, beta = Some b -> r_beta r = b) /\
    (beta = None ->
     features p (informative p k) (chosen p k (d_perm d)) /\
     supported_on p (chosen p k (d_perm d)) (fun j => (scale * entry (d_beta d) j)%R) (r_beta r)) /\
    (forall i, i < n -> entry (r_y r) i
       = draw i (exp (eta p (r_X r) (r_beta r) (r_intercept r) i))).
Proof.
  intros (MX & Lb & P & _) HX Hsh Hsc Hb Hp.
  set (X := map (map (normal (N := Rnum) X_loc X_scale)) (d_X d) : list (list R)).
  set (be := match beta with Some b => b | None =>
     sparse_beta (N := Rnum) p k (d_perm d) (map (gamma_draw (N := Rnum) scale) (d_beta d)) end : list R).
  set (ic := (if include then gamma_draw (N := Rnum) scale (d_int d) else @nzero Rnum) : R).
  set (et := linear_predictor (N := Rnum) X be ic : list R).
  assert (Lbe : length be = p).
  { unfold be. destruct beta as [b|]; [now apply Hb|].
    apply (sparse_supported p k (d_perm d)); [exact P|]. now rewrite map_length. }
  assert (MX' : matrix n p X) by (apply matrix_map; exact MX).
  assert (Let : length et = n) by (unfold et, linear_predictor; rewrite map_length; apply MX').
  assert (Ee : forall i, i < n -> entry et i = eta p X be ic i)
    by (intros i Hi; now apply (predictor_entry n)).
  exists (mkRegression (N := Rnum) X (map (fun i => draw i (exp (nth i et 0%R))) (seq 0 n)) be ic).
  split; [|cbn [r_X r_y r_beta r_intercept]; split; [exact MX'|]; split;
    [|split; [exact Lbe|]; split; [|split; [|split; [|split]]]]].
  - unfold make_poisson_regression.
    assert (F : forall a : R, (0 <= a)%R -> nltb (n := Rnum) a (@nzero Rnum) = false).
    { intros a Ha. cbn. unfold Rltb. destruct (Rlt_dec a 0); [lra|reflexivity]. }
    rewrite (F X_scale HX), (F shape Hsh), (F scale Hsc). cbv zeta. cbn [orb]. rewrite andb_false_r.
    fold X. fold ic.
    change (match beta with Some b => b | None => sparse_beta p k (d_perm d) (map (gamma_draw scale) (d_beta d)) end)
      with be.
    assert (E2 : Nat.eqb (length be) p = true) by now apply Nat.eqb_eq.
    refine (eq_trans (f_equal (fun b : bool => if negb b then _ else _) E2) _). cbn [negb].
    fold et.
    assert (E3 : mapM (fun i => pois i (exp (nth i et 0%R))) (seq 0 (length et))
      = Ok (map (fun i => draw i (exp (nth i et 0%R))) (seq 0 n))).
    { rewrite Let. apply mapM_total. intros i _. apply Hp. }
    exact (f_equal (fun y => let* y := y in Ok (mkRegression (N := Rnum) X y be ic)) E3).
  - now rewrite map_length, seq_length.
  - intros i j Hi Hj. exact (mat_map n p (normal (N := Rnum) X_loc X_scale) (d_X d) i j MX Hi Hj).
  - unfold ic. destruct include; reflexivity.
  - intros b E. unfold be. now rewrite E.
  - intro E. split; [now apply chosen_features|]. unfold be. rewrite E.
    destruct (sparse_supported p k (d_perm d) (map (gamma_draw (N := Rnum) scale) (d_beta d)) P) as (A & B & C);
      [now rewrite map_length|].
    split; [exact A|]. split; [|exact C]. intros j Hj.
    refine (eq_trans (B j Hj) _).
    assert (Lj : j < p) by (destruct (chosen_features p k (d_perm d) P) as (_ & _ & H); now apply H).
    refine (eq_trans (entry_mapf (gamma_draw (N := Rnum) scale) (d_beta d) j 0%R _) _);
      [exact (eq_ind_r (fun q => j < q) Lj Lb)|]. reflexivity.
  - intros i Hi. refine (eq_trans (entry_mapf (fun i => draw i (exp (nth i et 0%R))) (seq 0 n) i 0 _) _);
      [now rewrite seq_length|]. cbv beta. rewrite seq_nth by exact Hi. cbn [plus].
    exact (f_equal (fun a => draw i (exp a)) (Ee i Hi)).
Qed.

(** ** Classification: coefficients *)
Definition kept (p : nat) (k : Z) (perm : list nat) : list nat :=
  if (0 <? Z.of_nat p - k)%Z
  then filter (fun j => negb (existsb (Nat.eqb j) (uninformative (Z.of_nat p - k) perm))) (seq 0 p)
  else seq 0 p.

Lemma existsb_In j l : existsb (Nat.eqb j) l = true <-> In j l.
Proof.
  rewrite existsb_exists. split.
  - intros (x & Hx & E). apply Nat.eqb_eq in E. now subst.
  - intro H. exists j. split; [exact H|]. apply Nat.eqb_refl.
Qed.

Lemma filter_negb_length {A} (f : A -> bool) l :
  length (filter f l) + length (filter (fun x => negb (f x)) l) = length l.
Proof. induction l as [|x l IH]; [reflexivity|]. cbn [filter]. destruct (f x); cbn; lia. Qed.

Lemma NoDup_prefix {A} (l m : list A) : NoDup (l ++ m) -> NoDup l.
Proof.
  induction l as [|x l IH]; intro H; [constructor|]. cbn in H. apply NoDup_cons_iff in H. destruct H as [H1 H2].
  constructor; [|now apply IH]. intro Q. apply H1, in_or_app. now left.
Qed.

Lemma kept_features p k perm : Permutation perm (seq 0 p) ->
  features p (class_informative p k) (kept p k perm).
Proof.
  intro P. pose proof (Permutation_length P) as L. rewrite seq_length in L.
  unfold kept, class_informative. destruct (Z.ltb_spec 0 (Z.of_nat p - k)) as [H|H].
  - set (idxs := uninformative (Z.of_nat p - k) perm).
    assert (NDp : NoDup perm) by (apply (Permutation_NoDup (Permutation_sym P)), seq_NoDup).
    assert (ND : NoDup idxs).
    { unfold idxs, uninformative. rewrite <- (firstn_skipn (Z.to_nat (Z.of_nat p - k)) perm) in NDp.
      now apply NoDup_prefix in NDp. }
    assert (Inc : forall j, In j idxs -> j < p).
    { intros j Hj. assert (In j perm).
      { rewrite <- (firstn_skipn (Z.to_nat (Z.of_nat p - k)) perm). apply in_or_app. now left. }
      apply (Permutation_in _ P) in H0. apply in_seq in H0. lia. }
    assert (Li : length (filter (fun j => existsb (Nat.eqb j) idxs) (seq 0 p)) = length idxs).
    { apply Permutation_length, NoDup_Permutation; [apply NoDup_filter, seq_NoDup|exact ND|].
      intro j. rewrite filter_In, existsb_In, in_seq. split; [tauto|]. intro Hj. specialize (Inc j Hj). split; [lia|exact Hj]. }
    pose proof (filter_negb_length (fun j => existsb (Nat.eqb j) idxs) (seq 0 p)) as C.
    rewrite seq_length, Li in C.
    assert (Lx : length idxs = Nat.min (Z.to_nat (Z.of_nat p - k)) p)
      by (unfold idxs, uninformative; rewrite firstn_length; lia).
    split; [apply NoDup_filter, seq_NoDup|]. split; [lia|].
    intros j Hj. apply filter_In in Hj. destruct Hj as [Hj _]. apply in_seq in Hj. lia.
  - split; [apply seq_NoDup|]. split; [rewrite seq_length; lia|]. intros j Hj. apply in_seq in Hj. lia.
Qed.

Lemma coef_supported p out k (shared : bool) (w_scale : R) (d : class_draws Rnum) c : c < out ->
  let perm := nth (if shared then 0 else c) (c_perms d) [] in
  supported_on p (kept p k perm) (fun j => (entry (nth j (c_w d) []) c * w_scale)%R)
    (nth c (class_coef (N := Rnum) p out (Z.of_nat p - k) shared w_scale d) []).
Proof.
  intros Hc perm. unfold class_coef.
  set (g := fun c0 : nat => map (fun j =>
        let v := nth c0 (nth j (c_w d) []) (@nzero Rnum) in
        let perm0 := nth (if shared then 0 else c0) (c_perms d) [] in
        nmul (n := Rnum) (if (0 <? Z.of_nat p - k)%Z then cleared (N := Rnum) (uninformative (Z.of_nat p - k) perm0) j v else v)
          w_scale) (seq 0 p)).
  assert (Eg : nth c (map g (seq 0 out)) [] = g c).
  { rewrite (nth_mapd g (seq 0 out) c 0 []) by now rewrite seq_length. f_equal. rewrite seq_nth by exact Hc. reflexivity. }
  assert (Ej : forall j, j < p -> entry (g c) j
    = ((if (0 <? Z.of_nat p - k)%Z then cleared (N := Rnum) (uninformative (Z.of_nat p - k) perm) j (entry (nth j (c_w d) []) c)
        else entry (nth j (c_w d) []) c) * w_scale)%R).
  { intros j Hj. unfold g. refine (eq_trans (entry_mapf _ (seq 0 p) j 0 _) _); [now rewrite seq_length|].
    rewrite seq_nth by exact Hj. reflexivity. }
  refine (eq_ind_r (supported_on p (kept p k perm) (fun j => (entry (nth j (c_w d) []) c * w_scale)%R)) _ Eg).
  split; [|split].
  - unfold g. now rewrite map_length, seq_length.
  - intros j Hj. unfold kept in Hj. destruct (Z.ltb_spec 0 (Z.of_nat p - k)) as [H|H].
    + apply filter_In in Hj. destruct Hj as [Hj E]. apply in_seq in Hj. rewrite Ej by lia.
      unfold cleared. apply negb_true_iff in E. rewrite E. reflexivity.
    + apply in_seq in Hj. rewrite Ej by lia. reflexivity.
  - intros j Hj Hn. unfold kept in Hn. rewrite Ej by exact Hj. destruct (Z.ltb_spec 0 (Z.of_nat p - k)) as [H|H].
    + unfold cleared. destruct (existsb (Nat.eqb j) (uninformative (Z.of_nat p - k) perm)) eqn:E.
      * cbn. ring.
      * exfalso. apply Hn, filter_In. split; [apply in_seq; lia|]. now rewrite E.
    + exfalso. apply Hn, in_seq. lia.
Qed.

(** ** Rows of the design matrix *)
Lemma INR_pos p : 0 < p -> (0 < INR p)%R. Proof. intro H. now apply lt_0_INR. Qed.

Lemma standard_row (x : list R) p : length x = p -> 0 < p ->
  length (standardize_row (N := Rnum) x) = p /\
  (forall j, j < p -> entry (standardize_row (N := Rnum) x) j
     = ((entry x j - average p (entry x)) / sqrt (variance p (entry x)))%R).
Proof.
  intros L Hp. unfold standardize_row. rewrite !map_length. split; [exact L|]. intros j Hj.
  set (c := map (fun v => nsub (n := Rnum) v (nmean (N := Rnum) x)) x : list R).
  assert (Lc : length c = p) by (unfold c; now rewrite map_length).
  assert (Ec : forall i, i < p -> entry c i = (entry x i - average p (entry x))%R).
  { intros i Hi. unfold c. refine (eq_trans (entry_mapf _ x i 0%R _) _); [now rewrite L|].
    cbv beta. rewrite (nmean_R x), L. reflexivity. }
  assert (A0 : average p (entry c) = 0%R).
  { unfold average. rewrite (Sum_ext p (entry c) (fun i => (entry x i - average p (entry x))%R)) by exact Ec.
    rewrite Sum_minus, Sum_const. unfold average. field. apply not_0_INR. lia. }
  refine (eq_trans (entry_mapf _ c j 0%R _) _); [exact (eq_ind_r (fun q => j < q) Hj Lc)|].
  change ((entry c j / sqrt (nvar (N := Rnum) c))%R = ((entry x j - average p (entry x)) / sqrt (variance p (entry x)))%R).
  rewrite (nvar_R c p Lc), (Ec j Hj). f_equal. f_equal. unfold variance. rewrite A0.
  apply average_ext. intros i Hi. rewrite (Ec i Hi). ring.
Qed.

(** Every sample sums to zero. *)
Lemma row_sum (x : list R) p : length x = p -> 0 < p ->
  Sum p (entry (standardize_row (N := Rnum) x)) = 0%R.
Proof.
  intros L Hp. destruct (standard_row x p L Hp) as [_ E].
  rewrite (Sum_ext p _ (fun j => ((entry x j - average p (entry x)) * / sqrt (variance p (entry x)))%R)) by exact E.
  rewrite Sum_scal_r, Sum_minus, Sum_const. unfold average.
  replace (Sum p (fun j => entry x j)) with (Sum p (entry x)) by reflexivity.
  assert (INR p <> 0)%R by (apply not_0_INR; lia). 
  replace (Sum p (entry x) - INR p * (Sum p (entry x) / INR p))%R with 0%R by (field; assumption). ring.
Qed.

(** ... and has mean square one, unless all its entries were equal. *)
Lemma row_square (x : list R) p : length x = p -> 0 < p -> (0 < variance p (entry x))%R ->
  Sum p (fun j => (entry (standardize_row (N := Rnum) x) j * entry (standardize_row (N := Rnum) x) j)%R) = INR p.
Proof.
  intros L Hp V. destruct (standard_row x p L Hp) as [_ E].
  rewrite (Sum_ext p _ (fun j => ((entry x j - average p (entry x)) * (entry x j - average p (entry x))
      * / variance p (entry x))%R)).
  - rewrite Sum_scal_r. unfold variance at 1 in V. unfold variance, average at 1 in V.
    unfold variance. unfold average at 3.
    set (T := Sum p (fun i => ((entry x i - average p (entry x)) * (entry x i - average p (entry x)))%R)) in *.
    assert (INR p <> 0)%R by (apply not_0_INR; lia).
    assert (T <> 0)%R. { intro Z. fold T in V. rewrite Z in V. unfold Rdiv in V. rewrite Rmult_0_l in V. lra. }
    field. now split.
  - intros j Hj. rewrite (E j Hj). pose proof (sqrt_sqrt _ (Rlt_le _ _ V)) as Q.
    assert (S : (sqrt (variance p (entry x)) <> 0)%R) by (apply Rgt_not_eq, sqrt_lt_R0; exact V).
    set (V' := variance p (entry x)) in *. set (m := average p (entry x)).
    transitivity ((entry x j - m) * (entry x j - m) * / (sqrt V' * sqrt V'))%R; [field; exact S|now rewrite Q].
Qed.

(** Adding the same number to all coefficients changes no score. *)
Lemma shift_invariant (x : list R) p (w : nat -> R) t : length x = p -> 0 < p ->
  Sum p (fun j => (entry (standardize_row (N := Rnum) x) j * (w j + t))%R)
  = Sum p (fun j => (entry (standardize_row (N := Rnum) x) j * w j)%R).
Proof.
  intros L Hp. 
  rewrite (Sum_ext p _ (fun j => (entry (standardize_row (N := Rnum) x) j * w j
     + entry (standardize_row (N := Rnum) x) j * t)%R)) by (intros j _; exact (Rmult_plus_distr_l _ _ _)).
  rewrite Sum_plus.
  assert (Z : Sum p (fun j => (entry (standardize_row (N := Rnum) x) j * t)%R) = 0%R).
  { rewrite (Sum_scal_r p (entry (standardize_row (N := Rnum) x)) t), (row_sum x p L Hp). apply Rmult_0_l. }
  rewrite Z. apply Rplus_0_r.
Qed.

(** ** Labels *)
Lemma scores_entry p (coef : list (list R)) (ic : list R) include (x : list R) c : length x = p -> c < length coef ->
  length (nth c coef []) = p ->
  entry (class_scores (N := Rnum) coef ic include x) c
  = (Sum p (fun j => entry x j * entry (nth c coef []) j) + (if include then entry ic c else 0))%R.
Proof.
  intros Lx Hc Lc. unfold class_scores. refine (eq_trans (entry_mapf _ (seq 0 (length coef)) c 0 _) _);
    [now rewrite seq_length|]. cbv beta zeta. rewrite seq_nth by exact Hc. cbn [plus].
  assert (D : ndot (N := Rnum) x (nth c coef []) = Sum p (fun j => (entry x j * entry (nth c coef []) j)%R)).
  { refine (eq_trans (ndot_Sum x (nth c coef []) (eq_trans Lx (eq_sym Lc))) _).
    exact (f_equal (fun q => Sum q (fun j => (entry x j * entry (nth c coef []) j)%R)) Lx). }
  destruct include.
  - exact (f_equal (fun v => (v + entry ic c)%R) D).
  - refine (eq_trans D _). symmetry. apply Rplus_0_r.
Qed.

Lemma standard_matrix n p (A : list (list R)) : matrix n p A -> 0 < p ->
  matrix n p (map (standardize_row (N := Rnum)) A).
Proof.
  intros [L F] Hp. split; [now rewrite map_length|]. apply Forall_forall. intros r Hr.
  apply in_map_iff in Hr. destruct Hr as (x & <- & Hx).
  rewrite Forall_forall in F. now apply (standard_row x p (F x Hx) Hp).
Qed.

Lemma coef_length p out k (shared : bool) (w : R) (d : class_draws Rnum) :
  length (class_coef (N := Rnum) p out k shared w d) = out.
Proof. unfold class_coef. now rewrite map_length, seq_length. Qed.

Lemma coef_matrix p out k (shared : bool) (w : R) (d : class_draws Rnum) :
  matrix out p (class_coef (N := Rnum) p out k shared w d).
Proof.
  split; [apply coef_length|]. unfold class_coef. apply Forall_forall. intros r Hr. apply in_map_iff in Hr.
  destruct Hr as (c & <- & _). now rewrite map_length, seq_length.
Qed.

Lemma row_length n p (X : list (list R)) i : matrix n p X -> i < n -> length (nth i X []) = p.
Proof. intros [L F] Hi. rewrite Forall_forall in F. apply F, nth_In. now rewrite L. Qed.

Lemma score_entry n p out (X coef : list (list R)) (ic : list R) include c i : matrix n p X -> matrix out p coef ->
  i < n -> c < out -> (include = false -> ic = repeat 0%R out) ->
  entry (class_scores (N := Rnum) coef ic include (nth i X [])) c = score_of p X coef ic c i.
Proof.
  intros MX MC Hi Hc HI.
  refine (eq_trans (scores_entry p coef ic include (nth i X []) c (row_length n p X i MX Hi) _ (row_length out p coef c MC Hc)) _).
  { destruct MC as [L _]. now rewrite L. }
  unfold score_of, mat. refine (eq_trans (Rplus_comm _ _) _).
  apply (f_equal (fun a => (a + Sum p (fun j => (entry (nth i X []) j * entry (nth c coef []) j)))%R)).
  destruct include; [reflexivity|]. rewrite (HI eq_refl). unfold entry.
  symmetry. apply nth_repeat.
Qed.

Lemma scores_length (coef : list (list R)) (ic : list R) include (x : list R) :
  length (class_scores (N := Rnum) coef ic include x) = length coef.
Proof. unfold class_scores. now rewrite map_length, seq_length. Qed.

Definition class_result (n p out : nat) (k : Z) (shared : bool) (w_scale : R) (d : class_draws Rnum)
    (r : classification Rnum) : Prop :=
  matrix n p (k_X r) /\ length (k_y r) = n /\ matrix out p (k_coef r) /\
  (forall i j, i < n -> j < p -> mat (k_X r) i j
     = ((mat (c_X d) i j - average p (mat (c_X d) i)) / sqrt (variance p (mat (c_X d) i)))%R) /\
  (forall c, c < out ->
     features p (class_informative p k) (kept p k (nth (if shared then 0 else c) (c_perms d) [])) /\
     supported_on p (kept p k (nth (if shared then 0 else c) (c_perms d) []))
       (fun j => (mat (c_w d) j c * w_scale)%R) (nth c (k_coef r) [])).

Lemma multi_data n p out k (shared : bool) (w_scale : R) (include : bool) (d : class_draws Rnum) bern
    (multi : nat -> list R -> result nat) (label : nat -> list R -> nat) :
  0 < p -> 2 < out -> class_draws_ok n p out (if shared then 1 else out) d ->
  (forall i q, multi i q = Ok (label i q)) ->
  exists r : classification Rnum,
    make_classification (N := Rnum) p k (Z.of_nat out) shared w_scale include d bern multi = Ok r /\
    class_result n p out k shared w_scale d r /\
    k_intercept r = (if include then shift_max (N := Rnum) (c_int d) else repeat 0%R out) /\
    (forall i, i < n -> exists q : list R, nth i (k_y r) 0 = label i q /\ length q = out /\
       forall c, c < out -> entry q c
         = (exp (score_of p (k_X r) (k_coef r) (k_intercept r) c i)
            / Sum out (fun c' => exp (score_of p (k_X r) (k_coef r) (k_intercept r) c' i)))%R).
Proof.
  intros Hp Ho (MX & Mw & Li & Lp & Fp) Hm.
  set (X := map (standardize_row (N := Rnum)) (c_X d) : list (list R)).
  set (coef := class_coef (N := Rnum) p out (Z.of_nat p - k) shared w_scale d : list (list R)).
  set (ic := (if include then shift_max (N := Rnum) (c_int d) else repeat (@nzero Rnum) out) : list R).
  assert (MX' : matrix n p X) by now apply standard_matrix.
  assert (MC : matrix out p coef) by apply coef_matrix.
  set (probs := fun i => softmax (N := Rnum) (class_scores (N := Rnum) coef ic include (nth i X [])) : list R).
  exists (mkClassification (N := Rnum) X (map (fun i => label i (probs i)) (seq 0 n)) coef ic).
  split; [|cbn [k_X k_y k_coef k_intercept]; split; [|split; [reflexivity|]]].
  - unfold make_classification. rewrite (proj2 (Z.ltb_lt 2 (Z.of_nat out))) by lia. rewrite Nat2Z.id. cbv zeta.
    fold X coef ic.
    assert (E : mapM (fun i => multi i (probs i)) (seq 0 (length X)) = Ok (map (fun i => label i (probs i)) (seq 0 n))).
    { destruct MX' as [L _]. rewrite L. apply mapM_total. intros. apply Hm. }
    exact (f_equal (fun y => let* y := y in Ok (mkClassification (N := Rnum) X y coef ic)) E).
  - unfold class_result. cbn [k_X k_y k_coef k_intercept]. split; [exact MX'|]. split; [now rewrite map_length, seq_length|].
    split; [exact MC|]. split.
    + intros i j Hi Hj. unfold mat, X.
      assert (E : nth i (map (standardize_row (N := Rnum)) (c_X d)) [] = standardize_row (N := Rnum) (nth i (c_X d) [])).
      { apply nth_mapd. destruct MX as [L _]. exact (eq_ind_r (fun q => i < q) Hi L). }
      refine (eq_trans (f_equal (fun l => entry l j) E) _).
      exact (proj2 (standard_row (nth i (c_X d) []) p (row_length n p _ i MX Hi) Hp) j Hj).
    + intros c Hc. split; [|exact (coef_supported p out k shared w_scale d c Hc)].
      apply kept_features. rewrite Forall_forall in Fp. apply Fp, nth_In. rewrite Lp. destruct shared; lia.
  - intros i Hi. exists (probs i).
    assert (LS : length (class_scores (N := Rnum) coef ic include (nth i X [])) = out)
      by (refine (eq_trans (scores_length coef ic include _) _); apply MC).
    assert (ES : forall c, c < out -> entry (class_scores (N := Rnum) coef ic include (nth i X [])) c = score_of p X coef ic c i).
    { intros c Hc. apply (score_entry n p out); try assumption. intro E. unfold ic. now rewrite E. }
    split; [|split].
    + rewrite (nth_mapd (fun i => label i (probs i)) (seq 0 n) i 0 0) by now rewrite seq_length.
      now rewrite seq_nth.
    + exact (eq_trans (softmax_length _) LS).
    + intros c Hc. unfold probs. refine (eq_trans (softmax_entry _ c _) _).
      { exact (eq_ind_r (fun q => c < q) Hc LS). }
      refine (eq_trans (f_equal (fun q => (exp (entry (class_scores (N := Rnum) coef ic include (nth i X [])) c)
         / Sum q (fun j => exp (entry (class_scores (N := Rnum) coef ic include (nth i X [])) j)))%R) LS) _).
      assert (E1 : exp (entry (class_scores (N := Rnum) coef ic include (nth i X [])) c) = exp (score_of p X coef ic c i))
        by exact (f_equal exp (ES c Hc)).
      assert (E2 : Sum out (fun j => exp (entry (class_scores (N := Rnum) coef ic include (nth i X [])) j))
         = Sum out (fun j => exp (score_of p X coef ic j i))).
      { apply Sum_ext. intros j Hj. exact (f_equal exp (ES j Hj)). }
      exact (f_equal2 Rdiv E1 E2).
Qed.

Lemma binary_data n p n_classes k shared (w_scale : R) (include : bool) (d : class_draws Rnum) (bern : nat -> R -> nat) multi :
  0 < p -> (n_classes <= 2)%Z -> n <> 1 -> class_draws_ok n p 1 1 d ->
  exists r : classification Rnum,
    make_classification (N := Rnum) p k n_classes shared w_scale include d bern multi = Ok r /\
    class_result n p 1 k true w_scale d r /\
    k_intercept r = (if include then c_int d else [0%R]) /\
    (forall i, i < n -> nth i (k_y r) 0
       = bern i (/ (1 + exp (- score_of p (k_X r) (k_coef r) (k_intercept r) 0 i)))%R).
Proof.
  intros Hp Ho Hn (MX & Mw & Li & Lp & Fp).
  set (X := map (standardize_row (N := Rnum)) (c_X d) : list (list R)).
  set (coef := class_coef (N := Rnum) p 1 (Z.of_nat p - k) true w_scale d : list (list R)).
  set (ic := (if include then c_int d else [@nzero Rnum]) : list R).
  assert (MX' : matrix n p X) by now apply standard_matrix.
  assert (MC : matrix 1 p coef) by apply coef_matrix.
  set (prob := fun i => sigmoid (N := Rnum) (nth 0 (class_scores (N := Rnum) coef ic include (nth i X [])) (@nzero Rnum)) : R).
  exists (mkClassification (N := Rnum) X (map (fun i => bern i (prob i)) (seq 0 n)) coef ic).
  split; [|cbn [k_X k_y k_coef k_intercept]; split; [|split; [reflexivity|]]].
  - unfold make_classification. rewrite (proj2 (Z.ltb_ge 2 n_classes)) by lia. cbv zeta. fold X coef ic.
    assert (EX : Nat.eqb (length X) 1 = false) by (apply Nat.eqb_neq; destruct MX' as [L _]; now rewrite L).
    refine (eq_trans (f_equal (fun b : bool => if b then _ else _) EX) _). cbv iota.
    assert (E : mapM (fun i => binomial (N := Rnum) bern i (prob i)) (seq 0 (length X)) = Ok (map (fun i => bern i (prob i)) (seq 0 n))).
    { destruct MX' as [L _]. rewrite L. apply (mapM_total _ (fun i => bern i (prob i))). intros i _. unfold binomial.
      destruct (sigmoid_facts (nth 0 (class_scores (N := Rnum) coef ic include (nth i X [])) (@nzero Rnum)) 0%R) as (_ & [S1 S2] & _).
      assert (G1 : nleb (n := Rnum) (@nzero Rnum) (prob i) = true).
      { exact (proj2 (Rleb_t _ _) (Rlt_le _ _ S1)). }
      assert (G2 : nleb (n := Rnum) (prob i) (@none Rnum) = true).
      { exact (proj2 (Rleb_t _ _) (Rlt_le _ _ S2)). }
      now rewrite G1, G2. }
    exact (f_equal (fun y => let* y := y in Ok (mkClassification (N := Rnum) X y coef ic)) E).
  - unfold class_result. cbn [k_X k_y k_coef k_intercept]. split; [exact MX'|]. split; [now rewrite map_length, seq_length|].
    split; [exact MC|]. split.
    + intros i j Hi Hj. unfold mat, X.
      assert (E : nth i (map (standardize_row (N := Rnum)) (c_X d)) [] = standardize_row (N := Rnum) (nth i (c_X d) [])).
      { apply nth_mapd. destruct MX as [L _]. exact (eq_ind_r (fun q => i < q) Hi L). }
      refine (eq_trans (f_equal (fun l => entry l j) E) _).
      exact (proj2 (standard_row (nth i (c_X d) []) p (row_length n p _ i MX Hi) Hp) j Hj).
    + intros c Hc. split; [|exact (coef_supported p 1 k true w_scale d c Hc)].
      apply kept_features. rewrite Forall_forall in Fp. apply Fp, nth_In. rewrite Lp. lia.
  - intros i Hi. rewrite (nth_mapd (fun i => bern i (prob i)) (seq 0 n) i 0 0) by now rewrite seq_length.
    rewrite seq_nth by exact Hi. cbn [plus]. apply (f_equal (bern i)). unfold prob.
    refine (eq_trans (sigmoid_R _) _).
    apply (f_equal (fun a => (/ (1 + exp (- a)))%R)).
    apply (score_entry n p 1); try assumption; [lia|]. intro E. unfold ic. now rewrite E.
Qed.

(** ** Failures *)
Lemma one_sample (N : NumOps) p k n_classes shared (w : N) include (d : class_draws N) bern multi :
  (n_classes <= 2)%Z -> length (c_X d) = 1 ->
  make_classification p k n_classes shared w include d bern multi = Raise TypeError.
Proof.
  intros Hc L. unfold make_classification. rewrite (proj2 (Z.ltb_ge 2 n_classes)) by lia. cbv zeta.
  now rewrite map_length, L.
Qed.

(** ** Packaged for the properties *)
Lemma counts p k :
  ((0 <= k <= Z.of_nat p)%Z -> Z.of_nat (informative p k) = k /\ Z.of_nat (class_informative p k) = k) /\
  ((Z.of_nat p <= k)%Z -> informative p k = p /\ class_informative p k = p) /\
  ((k < 0)%Z -> class_informative p k = 0 /\
     ((- Z.of_nat p <= k)%Z -> Z.of_nat (informative p k) = (Z.of_nat p + k)%Z)).
Proof. unfold informative, class_informative. destruct (Z.ltb_spec k 0); lia. Qed.

Lemma poisson_beta p k (X_loc X_scale shape scale : R) include (d : reg_draws Rnum)
    (pois : nat -> R -> result R) (r : regression Rnum) :
  make_poisson_regression (N := Rnum) p k X_loc X_scale None shape scale include d pois = Ok r ->
  r_beta r = sparse_beta (N := Rnum) p k (d_perm d) (map (gamma_draw (N := Rnum) scale) (d_beta d)).
Proof.
  unfold make_poisson_regression. destruct (nltb _ _); [discriminate|]. cbv zeta.
  destruct (_ && _); [discriminate|]. destruct (negb _); [discriminate|].
  destruct (mapM _ _) as [y|e]; [|discriminate]. intro E. cbn [bind] in E.
  assert (Q : r = mkRegression (N := Rnum) (map (map (normal (N := Rnum) X_loc X_scale)) (d_X d)) y
    (sparse_beta (N := Rnum) p k (d_perm d) (map (gamma_draw (N := Rnum) scale) (d_beta d)))
    (if include then gamma_draw (N := Rnum) scale (d_int d) else @nzero Rnum)) by (injection E; congruence).
  now rewrite Q.
Qed.

Lemma poisson_support n p k (X_loc X_scale shape scale : R) include (d : reg_draws Rnum)
    (pois : nat -> R -> result R) (r : regression Rnum) :
  reg_draws_ok n p d -> (0 <= X_scale)%R -> (0 <= shape)%R -> (0 <= scale)%R ->
  make_poisson_regression (N := Rnum) p k X_loc X_scale None shape scale include d pois = Ok r ->
  exists S, features p (informative p k) S /\
    supported_on p S (fun j => (scale * entry (d_beta d) j)%R) (r_beta r) /\
    ((forall j, j < p -> (scale * entry (d_beta d) j)%R <> 0%R) ->
     length (filter (fun j => negb (Reqb (entry (r_beta r) j) 0)) (seq 0 p)) = informative p k).
Proof.
  intros H HX Hsh Hsc E. pose proof (poisson_beta _ _ _ _ _ _ _ _ _ _ E) as EB.
  destruct (poisson_data n p k X_loc X_scale shape scale None include d (fun _ _ => Ok 0%R) (fun _ _ => 0%R) H HX Hsh Hsc)
    as (r' & E' & _ & _ & _ & _ & _ & _ & HB & _); [discriminate|reflexivity|].
  pose proof (poisson_beta _ _ _ _ _ _ _ _ _ _ E') as EB'.
  destruct (HB eq_refl) as [F S].
  assert (Q : r_beta r = r_beta r') by exact (eq_trans EB (eq_sym EB')).
  exists (chosen p k (d_perm d)). split; [exact F|].
  refine (eq_ind_r (fun b : list R => supported_on p (chosen p k (d_perm d)) (fun j => (scale * entry (d_beta d) j)%R) b /\
    ((forall j, j < p -> (scale * entry (d_beta d) j)%R <> 0%R) ->
     length (filter (fun j => negb (Reqb (entry b j) 0)) (seq 0 p)) = informative p k)) _ Q).
  split; [exact S|]. intro NZ. exact (nonzero_count p _ _ _ _ F S NZ).
Qed.

Lemma class_parts p k n_classes shared (w_scale : R) include (d : class_draws Rnum) bern multi (r : classification Rnum) :
  make_classification (N := Rnum) p k n_classes shared w_scale include d bern multi = Ok r ->
  k_X r = map (standardize_row (N := Rnum)) (c_X d) /\
  k_coef r = class_coef (N := Rnum) p (if (2 <? n_classes)%Z then Z.to_nat n_classes else 1) (Z.of_nat p - k)
    (shared || (n_classes <=? 2)%Z) w_scale d.
Proof.
  unfold make_classification. destruct (Z.ltb_spec 2 n_classes) as [H|H]; cbv zeta.
  - rewrite (proj2 (Z.leb_gt n_classes 2)) by lia. rewrite orb_false_r.
    destruct (mapM _ _) as [y|e]; [|discriminate]. cbn [bind]. intro E.
    split; [exact (eq_sym (f_equal (fun q => match q with Ok v => k_X v | _ => [] end) E))
           |exact (eq_sym (f_equal (fun q => match q with Ok v => k_coef v | _ => [] end) E))].
  - rewrite (proj2 (Z.leb_le n_classes 2)) by lia. rewrite orb_true_r.
    destruct (Nat.eqb _ _); [discriminate|].
    destruct (mapM _ _) as [y|e]; [|discriminate]. cbn [bind]. intro E.
    split; [exact (eq_sym (f_equal (fun q => match q with Ok v => k_X v | _ => [] end) E))
           |exact (eq_sym (f_equal (fun q => match q with Ok v => k_coef v | _ => [] end) E))].
Qed.

Lemma class_support n p out n_classes k (shared include : bool) (w_scale : R) (d : class_draws Rnum)
    bern multi (r : classification Rnum) :
  out = (if (2 <? n_classes)%Z then Z.to_nat n_classes else 1) ->
  class_draws_ok n p out (if shared || (n_classes <=? 2)%Z then 1 else out) d ->
  make_classification (N := Rnum) p k n_classes shared w_scale include d bern multi = Ok r ->
  length (k_coef r) = out /\
  exists S : nat -> list nat,
    (forall c, c < out -> features p (class_informative p k) (S c) /\
       supported_on p (S c) (fun j => (mat (c_w d) j c * w_scale)%R) (nth c (k_coef r) [])) /\
    (shared = true -> forall c c', S c = S c').
Proof.
  intros Ho (_ & _ & _ & Lp & Fp) E. destruct (class_parts _ _ _ _ _ _ _ _ _ _ E) as [_ C]. rewrite <- Ho in C.
  set (sh := shared || (n_classes <=? 2)%Z) in *.
  split; [refine (eq_trans (f_equal (@length _) C) _); apply coef_length|].
  exists (fun c => kept p k (nth (if sh then 0 else c) (c_perms d) [])). split.
  - intros c Hc. split.
    + apply kept_features. rewrite Forall_forall in Fp. apply Fp, nth_In. rewrite Lp. destruct sh; lia.
    + refine (eq_ind_r (fun q => supported_on p _ _ (nth c q [])) _ C). exact (coef_supported p out k sh w_scale d c Hc).
  - intros Hs c c'. unfold sh. rewrite Hs. reflexivity.
Qed.

Lemma class_rows n p out n_classes k (shared include : bool) (w_scale : R) (d : class_draws Rnum)
    bern multi (r : classification Rnum) i :
  0 < p -> out = (if (2 <? n_classes)%Z then Z.to_nat n_classes else 1) ->
  class_draws_ok n p out (if shared || (n_classes <=? 2)%Z then 1 else out) d ->
  make_classification (N := Rnum) p k n_classes shared w_scale include d bern multi = Ok r -> i < n ->
  Sum p (mat (k_X r) i) = 0%R /\
  ((0 < variance p (mat (c_X d) i))%R -> Sum p (fun j => (mat (k_X r) i j * mat (k_X r) i j)%R) = INR p) /\
  (forall (w : nat -> R) t, Sum p (fun j => (mat (k_X r) i j * (w j + t))%R) = Sum p (fun j => (mat (k_X r) i j * w j)%R)).
Proof.
  intros Hp _ (MX & _) E Hi. destruct (class_parts _ _ _ _ _ _ _ _ _ _ E) as [C _].
  assert (Q : nth i (k_X r) [] = standardize_row (N := Rnum) (nth i (c_X d) [])).
  { refine (eq_trans (f_equal (fun l => nth i l []) C) _). apply nth_mapd. destruct MX as [L _].
    exact (eq_ind_r (fun q => i < q) Hi L). }
  pose proof (row_length n p (c_X d) i MX Hi) as L. unfold mat.
  refine (eq_ind_r (fun q => Sum p (entry q) = 0%R /\
    ((0 < variance p (entry (nth i (c_X d) [])))%R -> Sum p (fun j => (entry q j * entry q j)%R) = INR p) /\
    (forall (w : nat -> R) t, Sum p (fun j => (entry q j * (w j + t))%R) = Sum p (fun j => (entry q j * w j)%R))) _ Q).
  split; [exact (row_sum _ p L Hp)|]. split; [exact (row_square _ p L Hp)|].
  intros w t. exact (shift_invariant _ p w t L Hp).
Qed.

Lemma seed_accepted (RS : Type) (seeded : Z -> RS) (os_entropy : RS) a :
  (exists rs, classification_rng seeded os_entropy a = Ok rs) <-> ~ exists z, a = NpInt z.
Proof.
  destruct a as [|z|z|r]; cbn; split;
    try (intros _ [z' Q]; discriminate); try (intros _; eexists; reflexivity);
    try (intros [rs Q]; discriminate); intro H; exfalso; apply H; eexists; reflexivity.
Qed.

(** Position of the first occurrence. *)
Fixpoint position (j : nat) (l : list nat) : nat :=
  match l with [] => 0 | x :: t => if Nat.eqb j x then 0 else S (position j t) end.
Lemma position_lt j l : In j l -> position j l < length l.
Proof.
  induction l as [|x l IH]; intro H; [destruct H|]. cbn. destruct (Nat.eqb_spec j x) as [E|E]; [lia|].
  destruct H as [H|H]; [congruence|]. specialize (IH H). lia.
Qed.
Lemma position_nth j l : In j l -> nth (position j l) l 0 = j.
Proof.
  induction l as [|x l IH]; intro H; [destruct H|]. cbn [position]. destruct (Nat.eqb_spec j x) as [E|E]; [now cbn|].
  destruct H as [H|H]; [congruence|]. now apply IH.
Qed.
Lemma position_app j l m : position j (l ++ m) < length l <-> In j l.
Proof.
  induction l as [|x l IH]; cbn [app position length]; [cbn; split; [lia|tauto]|].
  destruct (Nat.eqb_spec j x) as [E|E]; [subst; cbn; split; [now left|lia]|].
  cbn [In]. rewrite <- IH. split; [intro H; right; lia|]. intros [H|H]; [congruence|lia].
Qed.

Lemma reach p m T : features p m T -> exists perm, Permutation perm (seq 0 p) /\
  forall j, j < p -> (nth j perm 0 < m <-> In j T).
Proof.
  intros (ND & LT & HT).
  set (rest := filter (fun j => negb (existsb (Nat.eqb j) T)) (seq 0 p)).
  assert (In_all : forall j, j < p -> In j (T ++ rest)).
  { intros j Hj. apply in_or_app. destruct (existsb (Nat.eqb j) T) eqn:E; [left; now apply existsb_In|right].
    apply filter_In. split; [apply in_seq; lia|]. now rewrite E. }
  assert (PL : Permutation (T ++ rest) (seq 0 p)).
  { apply NoDup_Permutation; [|apply seq_NoDup|].
    - assert (NR : NoDup rest) by (apply NoDup_filter, seq_NoDup).
      assert (DJ : forall j, In j T -> ~ In j rest).
      { intros j H1 H2. apply filter_In in H2. destruct H2 as [_ H2]. apply negb_true_iff in H2.
        apply existsb_In in H1. congruence. }
      clearbody rest. clear -ND NR DJ. induction T as [|x T IH]; [exact NR|]. cbn. apply NoDup_cons_iff in ND. destruct ND as [N1 N2].
      constructor; [|apply IH; [exact N2|intros j Hj; apply DJ; now right]].
      intro H. apply in_app_or in H. destruct H as [H|H]; [now apply N1|]. exact (DJ x (or_introl eq_refl) H).
    - intro j. rewrite in_seq. split.
      + intro H. apply in_app_or in H. destruct H as [H|H]; [specialize (HT j H); lia|].
        apply filter_In in H. destruct H as [H _]. apply in_seq in H. lia.
      + intros [_ H]. apply In_all. lia. }
  pose proof (Permutation_length PL) as LL. rewrite seq_length in LL.
  exists (map (fun j => position j (T ++ rest)) (seq 0 p)). split.
  - apply Permutation_sym, NoDup_Permutation_bis; [apply seq_NoDup|rewrite map_length; lia|].
    intros i Hi. apply in_seq in Hi. apply in_map_iff. exists (nth i (T ++ rest) 0).
    assert (NDL : NoDup (T ++ rest)) by (apply (Permutation_NoDup (Permutation_sym PL)), seq_NoDup).
    assert (Hn : In (nth i (T ++ rest) 0) (T ++ rest)) by (apply nth_In; lia).
    split; [|exact (Permutation_in _ PL Hn)].
    apply (proj1 (NoDup_nth (T ++ rest) 0) NDL); [now apply position_lt|lia|now apply position_nth].
  - intros j Hj. rewrite (nth_mapd (fun j => position j (T ++ rest)) (seq 0 p) j 0 0) by now rewrite seq_length.
    rewrite seq_nth by exact Hj. cbn [plus]. rewrite <- LT. apply position_app.
Qed.

Lemma any_set p k T : features p (informative p k) T ->
  exists perm, Permutation perm (seq 0 p) /\
  forall n (X_loc X_scale snr low high : R) include (d : reg_draws Rnum),
  reg_draws_ok n p d -> d_perm d = perm -> (0 <= X_scale)%R -> (0 < snr)%R ->
  exists r : regression Rnum,
    make_linear_regression (N := Rnum) p k X_loc X_scale snr None low high include d = Ok r /\
    supported_on p T (fun j => (low + (high - low) * entry (d_beta d) j)%R) (r_beta r).
Proof.
  intro F. destruct (reach p _ T F) as (perm & P & HT). exists perm. split; [exact P|].
  intros n X_loc X_scale snr low high include d H Ep HX Hs.
  destruct (linear_data n p k X_loc X_scale snr low high None include d H HX Hs) as
    (r & sg & E & _ & _ & _ & _ & _ & _ & HB & _); [discriminate|].
  destruct (HB eq_refl) as [_ (S1 & S2 & S3)]. exists r. split; [exact E|].
  assert (Q : forall j, j < p -> (In j (chosen p k (d_perm d)) <-> In j T)).
  { intros j Hj. rewrite <- (HT j Hj). unfold chosen. rewrite filter_In, in_seq, Nat.ltb_lt, Ep, stop_informative.
    split; [tauto|]. intro. split; [lia|assumption]. }
  destruct F as (_ & _ & FT). split; [exact S1|]. split.
  - intros j Hj. apply S2, Q; [now apply FT|exact Hj].
  - intros j Hj Hn. apply S3; [exact Hj|]. intro C. apply Hn, (Q j Hj), C.
Qed.

Lemma multi_relations n p out k (shared : bool) (w_scale : R) (include : bool) (d : class_draws Rnum) bern
    (multi : nat -> list R -> result nat) (label : nat -> list R -> nat) :
  0 < p -> 2 < out -> class_draws_ok n p out (if shared then 1 else out) d ->
  (forall i q, multi i q = Ok (label i q)) ->
  exists r : classification Rnum,
    make_classification (N := Rnum) p k (Z.of_nat out) shared w_scale include d bern multi = Ok r /\
    matrix n p (k_X r) /\ length (k_y r) = n /\ matrix out p (k_coef r) /\
    length (k_intercept r) = out /\
    (include = false -> forall c, entry (k_intercept r) c = 0%R) /\
    (include = true -> exists top, (exists c, c < out /\ top = entry (c_int d) c) /\
       forall c, c < out -> (entry (c_int d) c <= top)%R /\
                            entry (k_intercept r) c = (entry (c_int d) c - top)%R) /\
    (forall i, i < n -> exists q : list R, nth i (k_y r) 0 = label i q /\ length q = out /\
       forall c, c < out -> entry q c
         = (exp (score_of p (k_X r) (k_coef r) (k_intercept r) c i)
            / Sum out (fun c' => exp (score_of p (k_X r) (k_coef r) (k_intercept r) c' i)))%R).
Proof.
  intros Hp Ho H Hm.
  destruct (multi_data n p out k shared w_scale include d bern multi label Hp Ho H Hm) as
    (r & E & (A1 & A2 & A3 & _) & A4 & A5).
  destruct H as (_ & _ & Li & _).
  exists r. repeat (split; [assumption|]). split; [|split; [|split; [|exact A5]]].
  - refine (eq_trans (f_equal (@length R) A4) _). destruct include; [|apply repeat_length].
    unfold shift_max. exact (eq_trans (map_length _ _) Li).
  - intros F c. refine (eq_trans (f_equal (fun l => entry l c) A4) _). rewrite F. unfold entry. apply nth_repeat.
  - intros F. set (l := c_int d : list R) in *. exists (nmaxl (N := Rnum) l).
    assert (Ne : l <> []) by (intro Q; rewrite Q in Li; cbn in Li; lia).
    destruct (nmaxl_R l Ne) as [M2 M1]. split.
    + apply (In_nth _ _ 0%R) in M1. destruct M1 as (c & Hc & Q). exists c. split; [exact (eq_ind _ (fun q => c < q) Hc _ Li)|].
      now symmetry.
    + intros c Hc. split; [apply M2, nth_In; exact (eq_ind_r (fun q => c < q) Hc Li)|].
      refine (eq_trans (f_equal (fun l => entry l c) A4) _). rewrite F. unfold shift_max.
      refine (eq_trans (entry_mapf _ l c 0%R _) _); [exact (eq_ind_r (fun q => c < q) Hc Li)|]. reflexivity.
Qed.
