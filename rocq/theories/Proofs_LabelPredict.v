(** Predicted labels and probabilities, renaming of classes (C99). *)
From Coq Require Import String ZArith List Bool Arith Lia Reals Lra.
From Verif Require Import Prelude Num Model_Fit Model_Scores Model_Poisson Model_Logistic Model_LogisticFit Model_Labels
  Spec_Rescale Spec_Poisson Spec_Labels Proofs_LbfgsVec Proofs_Rescale Proofs_Poisson Proofs_PoissonOpt Proofs_Logistic Proofs_Labels Proofs_LabelScores.
Import ListNotations.
Local Open Scope R_scope.

Lemma proba_facts multinomial k (d : decision Rnum) : decision_for multinomial k d ->
  let p := predict_proba (N := Rnum) multinomial k d : list R in
  let m := predicted_index (N := Rnum) d in
  length p = k /\ (forall j, (j < k)%nat -> 0 < entry p j) /\ Sum k (fun j => entry p j) = 1 /\ (m < k)%nat /\
  forall j, (j < k)%nat -> entry p j <= entry p m /\ ((j < m)%nat -> entry p j < entry p m).
Proof.
  destruct d as [v|row]; cbn [decision_for].
  - intros (-> & ->). unfold predict_proba, predicted_index. cbn [negb andb Nat.leb].
    change (nsub none (expit v)) with (1 - expit (N := Rnum) v). rewrite expit_R.
    pose proof (exp_pos (- v)) as Ep. set (q := / (1 + exp (- v))).
    assert (Q : 0 < q < 1).
    { unfold q. split; [apply Rinv_0_lt_compat; lra|].
      rewrite <- Rinv_1. apply Rinv_lt_contravar; lra. }
    change (nltb (n := Rnum) nzero v) with (Rltb 0 v).
    assert (H : if Rltb 0 v then 1 / 2 < q else q <= 1 / 2).
    { unfold q. destruct (Rltb 0 v) eqn:T.
      - apply Rltb_t in T. replace (1 / 2) with (/ (1 + 1)) by field. apply Rinv_lt_contravar; [nra|].
        apply Rplus_lt_compat_l. apply (Rlt_le_trans _ (exp 0)); [apply exp_increasing; lra|rewrite exp_0; lra].
      - apply Rltb_f in T. replace (1 / 2) with (/ (1 + 1)) by field. apply Rinv_le_contravar; [lra|].
        apply Rplus_le_compat_l. apply (Rle_trans _ (exp 0)); [rewrite exp_0; lra|].
        destruct T as [T|T]; [left; apply exp_increasing; lra|rewrite T, Ropp_0; lra]. }
    split; [reflexivity|]. split; [intros [|[|j]] Hj; [cbn; lra|cbn; lra|lia]|].
    split; [unfold Sum; cbn; lra|].
    split; [destruct (Rltb 0 v); lia|].
    intros [|[|j]] Hj; [| |lia]; destruct (Rltb 0 v); cbn; (split; [lra|intro; try lia; lra]).
  - intros (L & K2 & K3). unfold predict_proba, predicted_index.
    assert (B : negb multinomial && Nat.leb k 2 = false).
    { destruct multinomial; [reflexivity|]. specialize (K3 eq_refl). apply andb_false_intro2. apply Nat.leb_gt. lia. }
    rewrite B. change (@length R row = k) in L.
    assert (Nr : (row : list R) <> []) by (intro X; rewrite X in L; cbn in L; lia).
    destruct (softmax_facts row Nr) as (S1 & _ & S3 & S4 & S5 & _).
    destruct (nargmax_R row Nr) as (M1 & M2 & M3). change (@length R row) with (@length R row) in *.
    rewrite L in *. cbv zeta. split; [exact S1|]. split; [intros j Hj; apply S3, Hj|]. split; [exact S4|].
    split; [exact M1|]. intros j Hj. split.
    + apply Rnot_lt_le. intro A. apply S5 in A; [|exact M1|exact Hj]. specialize (M2 j Hj). lra.
    + intro A. apply S5; [exact Hj|exact M1|]. now apply M3.
Qed.

Lemma uoi_predict_label multinomial y (d : decision Rnum) : decision_for multinomial (length (uoi_classes y)) d ->
  nth_error (uoi_classes y) (predicted_index (N := Rnum) d) = Some (predict (N := Rnum) (uoi_classes y) d) /\
  In (predict (N := Rnum) (uoi_classes y) d) y.
Proof.
  intro H. destruct (proba_facts _ _ _ H) as (_ & _ & _ & M & _).
  split; [unfold predict; apply nth_error_nth'; exact M|].
  apply unique_In. unfold predict. apply nth_In. exact M.
Qed.
Lemma masked_predict_code multinomial y (d : decision Rnum) : decision_for multinomial (length (masked_classes y)) d ->
  length (masked_classes y) = length (uoi_classes y) /\
  predict (N := Rnum) (masked_classes y) d = LInt (Z.of_nat (predicted_index (N := Rnum) d)).
Proof.
  intro H. destruct (proba_facts _ _ _ H) as (_ & _ & _ & M & _).
  rewrite masked_numbers in *. rewrite numbers_length in *. split; [reflexivity|].
  unfold predict. apply nth_error_nth. apply numbers_nth. exact M.
Qed.

(** ** Renaming *)
Section Rename.
  Variables (f : label -> label) (y0 : list label).
  Hypothesis (Ho : forall a b, In a y0 -> In b y0 -> label_leb (f a) (f b) = label_leb a b)
    (Hi : forall a b, In a y0 -> In b y0 -> f a = f b -> a = b).
  Lemma rename_eqb a b : In a y0 -> In b y0 -> label_eqb (f a) (f b) = label_eqb a b.
  Proof.
    intros A B. destruct (label_eqb a b) eqn:E.
    - apply label_eqb_eq in E as ->. apply label_eqb_refl.
    - apply label_eqb_neq. apply label_eqb_neq in E. intro X. now apply E, Hi.
  Qed.
  Lemma rename_insert l c : In l y0 -> incl c y0 -> insert_label (f l) (map f c) = map f (insert_label l c).
  Proof.
    intros Hl. induction c as [|h c IH]; intro Hc; [reflexivity|]. cbn [map insert_label].
    rewrite Ho by (auto; apply Hc; now left). destruct (label_leb l h); [reflexivity|].
    cbn [map]. f_equal. apply IH. intros x Hx. apply Hc. now right.
  Qed.
  Lemma rename_existsb l c : In l y0 -> incl c y0 -> existsb (label_eqb (f l)) (map f c) = existsb (label_eqb l) c.
  Proof.
    intros Hl. induction c as [|h c IH]; intro Hc; [reflexivity|]. cbn [map existsb].
    rewrite rename_eqb by (auto; apply Hc; now left). f_equal. apply IH. intros x Hx. apply Hc. now right.
  Qed.
  Lemma rename_unique y : incl y y0 -> unique_labels (map f y) = map f (unique_labels y).
  Proof.
    induction y as [|l y IH]; intro Hy; [reflexivity|].
    assert (A : In l y0) by (apply Hy; now left). assert (B : incl y y0) by (intros x Hx; apply Hy; now right).
    assert (C : incl (unique_labels y) y0) by (intros x Hx; apply B; now apply unique_In).
    change (unique_labels (map f (l :: y))) with
      (let c := unique_labels (map f y) in if existsb (label_eqb (f l)) c then c else insert_label (f l) c).
    change (unique_labels (l :: y)) with
      (let c := unique_labels y in if existsb (label_eqb l) c then c else insert_label l c).
    cbv zeta. rewrite (IH B), rename_existsb, rename_insert by assumption. now destruct (existsb _ _).
  Qed.
  Lemma rename_index l c : In l y0 -> incl c y0 -> label_index (f l) (map f c) = label_index l c.
  Proof.
    intros Hl. induction c as [|h c IH]; intro Hc; [reflexivity|]. cbn [map label_index].
    rewrite rename_eqb by (auto; apply Hc; now left). rewrite IH; [reflexivity|]. intros x Hx. apply Hc. now right.
  Qed.
  Lemma rename_codes : codes (map f y0) = codes y0.
  Proof.
    unfold codes. rewrite (rename_unique y0 (incl_refl _)), map_map. apply map_ext_in. intros l Hl.
    unfold encode. rewrite rename_index; [reflexivity|exact Hl|]. intros x Hx. now apply unique_In.
  Qed.
End Rename.

Lemma masked_fit_codes {N : NumOps} l2 has multinomial p (C tol max_iter : number N) mi cw X y y' sw mask coef opt fuel lsfuel :
  codes y = codes y' ->
  masked_fit l2 has multinomial p C tol max_iter mi cw X y sw mask coef opt fuel lsfuel
  = masked_fit l2 has multinomial p C tol max_iter mi cw X y' sw mask coef opt fuel lsfuel.
Proof. intro H. unfold masked_fit, masked_classes. now rewrite H. Qed.

(** ** Accuracy *)
Lemma accuracy_R (y pred : list nat) n : (0 < n)%nat -> length y = n -> length pred = n ->
  accuracy (N := Rnum) y pred = Sum n (fun i => if Nat.eqb (nth i y 0%nat) (nth i pred 0%nat) then 1 else 0) / INR n.
Proof.
  intros Hn Ly Lp. unfold accuracy. set (h := fun a b : nat => if Nat.eqb a b then 1 else 0).
  change (nmean (N := Rnum) (map2 h y pred) = Sum n (fun i => h (nth i y 0%nat) (nth i pred 0%nat)) / INR n).
  rewrite (mean_n n) by (rewrite map2_length, Ly, Lp; apply Nat.min_id). f_equal. apply Sum_ext. intros i Hi.
  unfold entry. apply map2_nth; lia.
Qed.
Lemma score_acc_value eps y pred prob target support sp (g : nat -> nat) :
  let rows := target_rows target sp in let n := length rows in
  (0 < n)%nat -> length (pred rows) = n ->
  (forall i, (i < n)%nat -> (nth i rows 0 < length y)%nat /\ nth_error (uoi_classes y) (g i) = nth_error y (nth i rows 0%nat)) ->
  logistic_score (N := Rnum) eps y pred prob "acc" target support sp
  = Ok (Sum n (fun i => if Nat.eqb (g i) (nth i (pred rows) 0%nat) then 1 else 0) / INR n).
Proof.
  intros rows n Hn Lp Hg. rewrite score_acc. fold rows. f_equal.
  rewrite (accuracy_R _ _ n Hn) by (rewrite ?map_length; auto). f_equal. apply Sum_ext. intros i Hi.
  rewrite (nth_indep _ 0%nat (nth 0%nat (codes y) 0%nat)) by (rewrite map_length; exact Hi).
  rewrite (map_nth (fun i => nth i (codes y) 0%nat) rows 0%nat i). destruct (Hg i Hi) as (A & B).
  now rewrite (codes_class y _ (g i) A B).
Qed.

(** ** From coefficients to probabilities *)
Lemma masked_fit_rows {N : NumOps} l2 has multinomial p (C tol max_iter : number N) mi cw X y sw mask coef opt fuel lsfuel cl cf b w :
  masked_fit l2 has multinomial p C tol max_iter mi cw X y sw mask coef opt fuel lsfuel = Some (mkMasked cl (Fitted cf b w)) ->
  length cf = output_dim multinomial (length (uoi_classes y)) /\ length b = output_dim multinomial (length (uoi_classes y)).
Proof.
  unfold masked_fit. rewrite masked_numbers, numbers_length. change (uoi_classes y) with (unique_labels y). set (k := length (unique_labels y)).
  destruct (rejected C || rejected max_iter || rejected tol); [discriminate|]. cbv zeta.
  destruct (Nat.ltb k 2) eqn:K; [discriminate|]. apply Nat.ltb_ge in K.
  destruct (Model_Labels.weights _ cw (codes y) sw) as [ws|e]; [|discriminate].
  destruct C as [C|], tol as [tol|]; try discriminate.
  assert (O : output_dim multinomial k = if multinomial || Nat.ltb 2 k then k else 1%nat).
  { unfold output_dim. destruct (Nat.ltb 2 k) eqn:T; [now rewrite orb_true_r|]. apply Nat.ltb_ge in T.
    destruct multinomial; cbn; lia. }
  rewrite O. intro H.
  assert (S : forall rows v, split_rows has p rows v = Fitted cf b w -> length cf = length rows /\ length b = length rows).
  { intros rows v. unfold split_rows. destruct has; intro E; injection E as <- <- _; now rewrite !map_length. }
  assert (Ch : forall q k v, length (chunks (A := N) q k v) = k) by (intros q k0; induction k0 as [|k0 IH]; intro v; cbn; [reflexivity|now rewrite IH]).
  destruct (multinomial || Nat.ltb 2 k).
  - match type of H with option_map _ ?f = _ => destruct f as [r|] eqn:E; [|discriminate] end.
    injection H as _ ->. unfold fit_multi in E. cbv zeta in E.
    destruct l2.
    + injection E as E. apply S in E. rewrite Ch in E. exact E.
    + destruct (to_optimize _).
      * destruct (l1_solve _ _ _ _ _ _ _ _ _) as [[? ?|?|]|]; try discriminate. injection E as E. apply S in E. rewrite Ch in E. exact E.
      * injection E as E. apply S in E. rewrite Ch in E. exact E.
  - match type of H with option_map _ ?f = _ => destruct f as [r|] eqn:E; [|discriminate] end.
    injection H as _ ->. unfold fit_binary in E. cbv zeta in E.
    destruct (binary_start _ _ _ _); [|discriminate].
    destruct (negb _); [injection E as E; exact (S _ _ E)|].
    destruct l2; [injection E as E; exact (S _ _ E)|].
    destruct (l1_solve _ _ _ _ _ _ _ _ _) as [[? ?|?|]|]; try discriminate. injection E as E. exact (S _ _ E).
Qed.
Lemma decision_entry p (coef : list (list R)) (b x : list R) c : (c < length coef)%nat -> length b = length coef -> Forall (fun r => length r = p) coef -> length x = p ->
  entry (map2 (fun c b => nadd (n := Rnum) (ndot (N := Rnum) x c) b) coef b) c = Sum p (fun j => entry x j * mat coef c j) + entry b c.
Proof.
  intros Hc Lb F Lx. unfold entry at 1.
  assert (Lr : length (nth c coef []) = p) by (apply (proj1 (Forall_forall _ _) F), nth_In, Hc).
  refine (eq_trans (map2_nth (fun (c : list R) (b : R) => nadd (n := Rnum) (ndot (N := Rnum) x c) b) coef b c [] 0 0 Hc _) _); [rewrite Lb; exact Hc|].
  refine (f_equal2 Rplus _ eq_refl).
  refine (eq_trans (ndot_Sum x (nth c coef []) (eq_trans Lx (eq_sym Lr))) _). exact (f_equal (fun n => Sum n (fun j => entry x j * mat coef c j)) Lx).
Qed.
Lemma linear_probabilities multinomial k p (coef : list (list R)) (b x : list R) : let o := output_dim multinomial k in
  (2 <= k)%nat -> length coef = o -> Forall (fun r => length r = p) coef -> length b = o -> length x = p ->
  let score c := Sum p (fun j => entry x j * mat coef c j) + entry b c in
  let d := decision_function (N := Rnum) coef b x in
  let P := predict_proba (N := Rnum) multinomial k d in
  decision_for multinomial k d /\
  (multinomial = true \/ (3 <= k)%nat -> o = k /\ forall c, (c < k)%nat -> entry P c = exp (score c) / Sum k (fun i => exp (score i))) /\
  (multinomial = false -> k = 2%nat -> o = 1%nat /\ entry P 1 = 1 / (1 + exp (- score 0%nat)) /\ entry P 0 = 1 - entry P 1).
Proof.
  intros o K Lc F Lb Lx score d P.
  assert (E : forall c, (c < o)%nat -> entry (map2 (fun c b => nadd (n := Rnum) (ndot (N := Rnum) x c) b) coef b) c = score c).
  { intros c Hc. apply decision_entry; [now rewrite Lc|now rewrite Lc|exact F|exact Lx]. }
  set (row := map2 (fun c b => nadd (n := Rnum) (ndot (N := Rnum) x c) b) coef b : list R) in *.
  assert (Lr : length row = o).
  { unfold row. refine (eq_trans (map2_length _ _ _) _). refine (eq_trans (f_equal2 Nat.min Lc Lb) _). apply Nat.min_id. }
  assert (Ed : d = match row with [v] => D1 (N := Rnum) v | _ => D2 (N := Rnum) row end) by reflexivity.
  clearbody row. unfold P. clear P.
  destruct (Bool.bool_dec (negb multinomial && Nat.leb k 2) true) as [T|T].
  - apply andb_true_iff in T as (T1 & T2). apply negb_true_iff in T1. apply Nat.leb_le in T2. assert (k = 2%nat) by lia. subst k multinomial.
    assert (o = 1%nat) by reflexivity. rewrite H in *. clearbody o. subst o.
    destruct row as [|v [|? ?]]; try discriminate Lr. rewrite Ed. pose proof (E 0%nat Nat.lt_0_1) as E0. cbn in E0.
    split; [split; reflexivity|]. split; [intros [X|X]; [discriminate|lia]|]. intros _ _. split; [reflexivity|].
    unfold predict_proba. cbn [negb andb Nat.leb]. split; [|reflexivity].
    refine (eq_trans (expit_R v) _). rewrite E0. unfold Rdiv. now rewrite Rmult_1_l.
  - assert (M : multinomial = true \/ (3 <= k)%nat).
    { destruct multinomial; [now left|right]. cbn in T. destruct (Nat.leb k 2) eqn:X; [congruence|]. apply Nat.leb_gt in X. lia. }
    assert (Eo : o = k). { unfold o, output_dim. destruct (Nat.ltb 2 k) eqn:X; [reflexivity|]. apply Nat.ltb_ge in X. destruct M as [->|M]; lia. }
    clearbody o. rewrite Eo in *. clear o Eo. assert (Ed' : d = D2 (N := Rnum) row).
    { rewrite Ed. destruct row as [|v [|? ?]]; [cbn in Lr; lia|cbn in Lr; lia|reflexivity]. }
    rewrite Ed'. split; [split; [exact Lr|split; [exact K|destruct M as [->|M]; [discriminate|intros _; exact M]]]|].
    split.
    + intros _. split; [reflexivity|]. intros c Hc. unfold predict_proba. apply Bool.not_true_is_false in T. rewrite T.
      refine (eq_trans (softmax_entry row c _) _); [rewrite Lr; exact Hc|]. rewrite Lr, E by exact Hc.
      f_equal. apply Sum_ext. intros i Hi. now rewrite E.
    + intros -> ->. destruct M as [M|M]; [discriminate|lia].
Qed.
