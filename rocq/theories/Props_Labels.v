(** Class labels of the logistic models: C98, C99, C100. *)
From Coq Require Import String ZArith List Bool Arith Reals Lra Lia Floats.SpecFloat.
From Verif Require Import Prelude F64 Num Model_Mpi Model_Intersection Model_Fit Spec_Fit Model_Scores Spec_Scores Proofs_FitFind Proofs_Scores
  Model_Lbfgs Model_Poisson Model_Logistic Model_LogisticFit Model_Labels
  Spec_Rescale Spec_Poisson Spec_Lbfgs Spec_Logistic Spec_LogisticFit Spec_Labels
  Proofs_Labels Proofs_LabelScores Proofs_LabelTies Proofs_LabelPredict Proofs_LabelWeights Proofs_LabelMain Proofs_LabelL2
  Proofs_LbfgsVec Proofs_LogisticFitEx Proofs_LogisticL2Ex Proofs_LabelEx.
Import ListNotations.
Local Open Scope R_scope.

(** C98.  The log-likelihood score of UoI_L1Logistic is the mean logarithm of the
    (clipped) probability of the class as which the sample is counted. *)
Theorem C98_score : forall eps y pred prob target support sp (g : nat -> nat) (s : nat -> option nat),
  let classes := uoi_classes y in let k := length classes in let rows := scored_rows target sp in let n := length rows in
  0 < eps < 1 / 2 -> (2 <= k)%nat -> (0 < n)%nat -> (forall i, In i rows -> (i < length y)%nat) -> prob_shape n k (prob rows) ->
  (forall i, (i < n)%nat -> nth_error classes (g i) = nth_error y (nth i rows 0%nat) /\ counted_as classes (g i) (s i)) ->
  logistic_score (N := Rnum) eps y pred prob "log" target support sp
  = Ok (Sum n (fun i => match s i with Some j => ln (scored_prob eps k (prob_row (prob rows) i) j) | None => 0 end) / INR n).
Proof.
  intros eps y pred prob target support sp g s. cbv zeta. rewrite <- !(target_rows_eq target sp).
  exact (score_log_value eps y pred prob target support sp g s).
Qed.
Print Assumptions C98_score.

(** This is the class of the sample exactly if the classes are called 0, ..., k-1, or if
    there are two and the second is called 1. *)
Theorem C98_right_names : forall y, let classes := uoi_classes y in (2 <= length classes)%nat ->
  (forall c, (c < length classes)%nat -> counted_as classes c (Some c)) <->
  (if Nat.eqb (length classes) 2 then nth_error classes 1 = Some (LInt 1) else classes = numbers (length classes)).
Proof. intro y. exact (counted_right (uoi_classes y)). Qed.
Print Assumptions C98_right_names.

(** Classes 1 and 2: both are counted as class 1.  A model that gives every sample's class the
    probability 3/4 scores less than one that gives 3/4 to class 1 always. *)
Example C98_ex :
  let y := [LInt 1; LInt 2; LInt 2] in let sp := ([0; 1; 2], [0; 1; 2])%nat in
  uoi_classes y = [LInt 1; LInt 2] /\
  counted_as [LInt 1; LInt 2] 0 (Some 0%nat) /\ counted_as [LInt 1; LInt 2] 1 (Some 0%nat) /\
  let sc P := logistic_score (N := Rnum) (1 / 8) y (fun _ => []) (fun _ => P) "log" 1 [] sp in
  let right := Proba2 (N := Rnum) 2 [[3 / 4; 1 / 4]; [1 / 4; 3 / 4]; [1 / 4; 3 / 4]] in
  let wrong := Proba2 (N := Rnum) 2 [[3 / 4; 1 / 4]; [3 / 4; 1 / 4]; [3 / 4; 1 / 4]] in
  sc right = Ok ((ln (3 / 4) + ln (1 / 4) + ln (1 / 4)) / 3) /\ sc wrong = Ok (ln (3 / 4)) /\
  (ln (3 / 4) + ln (1 / 4) + ln (1 / 4)) / 3 < ln (3 / 4).
Proof.
  cbv zeta. split; [reflexivity|].
  assert (C0 : counted_as [LInt 1; LInt 2] 0 (Some 0%nat)) by (right; split; [discriminate|reflexivity]).
  assert (C1 : counted_as [LInt 1; LInt 2] 1 (Some 0%nat)) by (right; split; [discriminate|reflexivity]).
  split; [exact C0|]. split; [exact C1|].
  assert (V : forall P, prob_shape 3 2 P -> logistic_score (N := Rnum) (1 / 8) [LInt 1; LInt 2; LInt 2] (fun _ => []) (fun _ => P) "log" 1 [] ([0; 1; 2], [0; 1; 2])%nat
     = Ok (Sum 3 (fun i => ln (scored_prob (1 / 8) 2 (prob_row P i) 0)) / INR 3)).
  { intros P HP. refine (C98_score (1 / 8) [LInt 1; LInt 2; LInt 2] (fun _ => []) (fun _ => P) 1 [] ([0; 1; 2], [0; 1; 2])%nat
      (fun i => match i with O => O | _ => 1%nat end) (fun _ => Some 0%nat) _ _ _ _ HP _); cbn; try lra; try lia.
    intros [|[|[|i]]] Hi; try (exfalso; lia); (split; [reflexivity|assumption]). }
  assert (M : forall a, 1 / 8 <= a <= 1 - 1 / 8 -> clip_prob (1 / 8) a = a).
  { intros a Ha. unfold clip_prob, Rmin, Rmax. repeat destruct (Rle_dec _ _); lra. }
  assert (Q : forall a b, 1 / 8 <= a <= 1 - 1 / 8 -> b = 1 - a -> scored_prob (1 / 8) 2 [a; b] 0 = a).
  { intros a b Ha ->. unfold scored_prob, Sum, entry. cbn [seq map fold_right nth]. rewrite !M by lra. field. lra. }
  assert (L : ln (1 / 4) < ln (3 / 4)) by (apply ln_increasing; lra).
  split; [|split; [|lra]].
  - rewrite V by (repeat constructor). unfold Sum. cbn [seq map fold_right prob_row nth]. rewrite !Q by lra. f_equal. cbn [INR]. lra.
  - rewrite V by (repeat constructor). unfold Sum. cbn [seq map fold_right prob_row nth]. rewrite !Q by lra. f_equal. cbn [INR]. lra.
Qed.

(** Classes like -1 and 0: the two are exchanged. *)
Theorem C98_exchanged : forall a c, (c < 2)%nat -> counted_as [a; LInt 0] c (Some (1 - c)%nat).
Proof. exact counted_swap. Qed.
Print Assumptions C98_exchanged.

Example C98_exchanged_ex : uoi_classes [LInt 0; LInt (-1); LInt 0] = [LInt (-1); LInt 0].
Proof. reflexivity. Qed.

(** Two classes, the second of which is called neither 0 nor 1: in any arithmetic, none of
    the likelihood based scores depends on the labels. *)
Theorem C98_two_classes : forall (N : NumOps) (eps : N) y y' a b pred pred' prob metric target support sp,
  metric <> "acc"%string -> uoi_classes y = [a; b] -> uoi_classes y' = [a; b] -> b <> LInt 0 -> b <> LInt 1 ->
  (forall i, In i (scored_rows target sp) -> (i < length y)%nat /\ (i < length y')%nat) ->
  logistic_score eps y pred prob metric target support sp = logistic_score eps y' pred' prob metric target support sp.
Proof.
  intros N eps y y' a b pred pred' prob metric target support sp. rewrite <- (target_rows_eq target sp).
  exact (score_two eps y y' a b pred pred' prob metric target support sp).
Qed.
Print Assumptions C98_two_classes.

(** At least three classes, none of which is called like a code. *)
Theorem C98_many_classes : forall (N : NumOps) (eps : N) y y' pred pred' prob metric target support sp,
  metric <> "acc"%string -> uoi_classes y = uoi_classes y' -> (3 <= length (uoi_classes y))%nat ->
  (forall c, (c < length (uoi_classes y))%nat -> ~ In (LInt (Z.of_nat c)) (uoi_classes y)) ->
  (forall i, In i (scored_rows target sp) -> (i < length y)%nat /\ (i < length y')%nat) ->
  logistic_score eps y pred prob metric target support sp = logistic_score eps y' pred' prob metric target support sp.
Proof.
  intros N eps y y' pred pred' prob metric target support sp. rewrite <- (target_rows_eq target sp).
  exact (score_many eps y y' pred pred' prob metric target support sp).
Qed.
Print Assumptions C98_many_classes.

Example C98_classes_ex :
  uoi_classes [LStr "no"; LStr "yes"] = [LStr "no"; LStr "yes"] /\ uoi_classes [LStr "yes"; LStr "no"] = [LStr "no"; LStr "yes"] /\
  uoi_classes lab_y = [LStr "a"; LStr "b"; LStr "c"] /\
  forall c, (c < 3)%nat -> ~ In (LInt (Z.of_nat c)) [LStr "a"; LStr "b"; LStr "c"].
Proof. repeat split. intros c _ [X|[X|[X|[]]]]; discriminate. Qed.

(** In the latter case, a fit with estimation_score = 'log' scores every candidate support 0
    (unless NaN) and chooses the first one in every bootstrap. *)
Theorem C98_fit : forall S E Rng exp64 ln64 env d (sol : nat -> Model_Fit.solver S E) (draw : bool -> Rng -> result (split * Rng)) post
    (eps : Fnum exp64 ln64) y target (pred : E -> list bool -> list nat -> list nat) (prob : E -> list bool -> list nat -> proba (Fnum exp64 ln64))
    npred nprob n R s0 F,
  (forall i e mask sp, score (sol i) e mask sp
     = logistic_score (N := Fnum exp64 ln64) eps y (pred e mask) (prob e mask) "log" target mask sp) ->
  (forall i e sp, Model_Fit.null_score (sol i) e sp
     = logistic_score (N := Fnum exp64 ln64) eps y (npred e) (nprob e) "log" target (repeat false (n_feat d)) sp) ->
  (3 <= length (uoi_classes y))%nat ->
  (forall c, (c < length (uoi_classes y))%nat -> ~ In (LInt (Z.of_nat c)) (uoi_classes y)) ->
  (forall b r sp r', draw b r = Ok (sp, r') -> forall i, In i (scored_rows target sp) -> (i < length y)%nat) ->
  (1 <= n_boots_sel d)%nat -> (forall i, shapes_ok d (sol i)) ->
  (2 <= length (thresholds d) * n_reg d)%nat -> (2 <= n_coef d)%nat ->
  returned env d sol draw post n false R s0 F ->
  exists sel p rows, f_sel F = Some sel /\ s_supports sel = Arr2 p rows /\
    forall b, (b < n_boots_est d)%nat ->
    (forall j, (j < length rows)%nat -> is_nan64 (at2 (s_scores sel) b j) = false) ->
    index_at (s_rp_max_idx sel) b = 0%nat /\
    forall j, (j < length rows)%nat -> nonzero64 (at2 (s_scores sel) b j) = false.
Proof.
  intros S E Rng exp64 ln64 env d sol draw post eps y target pred prob npred nprob n R s0 F H1 H2 H3 H4 H5.
  refine (ties_first exp64 ln64 env d sol draw post eps y target pred prob npred nprob H1 H2 H3 H4 _ n R s0 F).
  intros b r sp r' Hd i. rewrite (target_rows_eq target sp). exact (H5 b r sp r' Hd i).
Qed.
Print Assumptions C98_fit.

(** Four samples of the classes a, b and c.  The model with both features assigns them to their
    classes, the model with the second feature to other classes; the latter is chosen twice. *)
Example C98_fit_ex : exists sel,
  returned ex_np lab_dims (fun _ => lab_solver) lab_draw ex_post 1 false (fun _ => 0%nat) (fun _ => tt) lab_fitted /\
  shapes_ok lab_dims lab_solver /\
  f_sel lab_fitted = Some sel /\ s_supports sel = Arr2 2 [[false; true]; [true; true]] /\
  (forall b j, (b < 2)%nat -> (j < 2)%nat -> is_nan64 (at2 (s_scores sel) b j) = false) /\
  map (index_at (s_rp_max_idx sel)) [0; 1]%nat = [0; 0]%nat.
Proof.
  eexists. split.
  - apply (serial_returned ex_np lab_dims (fun _ => lab_solver) lab_draw ex_post (fun _ => 0%nat) (fun _ => tt)). exact lab_serial.
  - split; [exact lab_shapes|]. split; [vm_compute; reflexivity|]. split; [vm_compute; reflexivity|].
    split; [|vm_compute; reflexivity].
    intros [|[|b]] [|[|j]] Hb Hj; try (exfalso; lia); vm_compute; reflexivity.
Qed.

(** The score 'acc' is the share of right predictions whatever the classes are called. *)
Theorem C98_accuracy : forall eps y pred prob target support sp (g : nat -> nat),
  let rows := scored_rows target sp in let n := length rows in
  (0 < n)%nat -> length (pred rows) = n ->
  (forall i, (i < n)%nat -> (nth i rows 0 < length y)%nat /\ nth_error (uoi_classes y) (g i) = nth_error y (nth i rows 0%nat)) ->
  logistic_score (N := Rnum) eps y pred prob "acc" target support sp
  = Ok (Sum n (fun i => if Nat.eqb (g i) (nth i (pred rows) 0%nat) then 1 else 0) / INR n).
Proof.
  intros eps y pred prob target support sp g. cbv zeta. rewrite <- !(target_rows_eq target sp).
  exact (score_acc_value eps y pred prob target support sp g).
Qed.
Print Assumptions C98_accuracy.

Example C98_accuracy_ex :
  logistic_score (N := Rnum) (1 / 8) [LStr "u"; LStr "v"] (fun _ => [0; 0]%nat) (fun _ => Proba1 (N := Rnum) []) "acc" 0 [] ([0; 1], [])%nat
  = Ok (1 / 2).
Proof.
  refine (eq_trans (C98_accuracy (1 / 8) [LStr "u"; LStr "v"] (fun _ => [0; 0]%nat) (fun _ => Proba1 (N := Rnum) []) 0 [] ([0; 1], [])%nat
    (fun i => i) _ _ _) _); cbn; try lia.
  - intros [|[|i]] Hi; try (exfalso; lia); cbn; split; reflexivity || lia.
  - f_equal. unfold Sum. cbn. lra.
Qed.

(** C99.  Codes: every sample gets the position of its label among the sorted classes. *)
Theorem C99_codes : forall y,
  class_list y (uoi_classes y) /\ length (codes y) = length y /\
  (forall i, (i < length y)%nat -> nth_error (uoi_classes y) (nth i (codes y) 0%nat) = nth_error y i) /\
  (forall c, (c < length (uoi_classes y))%nat <-> In c (codes y)).
Proof.
  intro y. split; [exact (unique_classes y)|]. split; [exact (length_codes y)|]. split; [exact (codes_label y)|].
  intro c. split; [exact (codes_all y c)|exact (codes_lt y c)].
Qed.
Print Assumptions C99_codes.

Example C99_codes_ex : let y := [LInt 7; LInt (-2); LInt 7; LInt 3] in
  uoi_classes y = [LInt (-2); LInt 3; LInt 7] /\ codes y = [2; 0; 2; 1]%nat.
Proof. split; reflexivity. Qed.

(** A fit gives coef_ and intercept_ one row per class, one row in all for two classes unless
    multi_class='multinomial'; predict_proba is the logistic function (softmax) of the
    linear scores. *)
Theorem C99_rows : forall (N : NumOps) l2 has multinomial p (C tol max_iter : number N) mi cw X y sw mask coef opt fuel lsfuel cl cf b w,
  let k := length (uoi_classes y) in
  masked_fit l2 has multinomial p C tol max_iter mi cw X y sw mask coef opt fuel lsfuel = Some (mkMasked cl (Fitted cf b w)) ->
  length cf = length b /\ (multinomial = true \/ (3 <= k)%nat -> length cf = k) /\ (multinomial = false -> k = 2%nat -> length cf = 1%nat).
Proof.
  intros N l2 has multinomial p C tol max_iter mi cw X y sw mask coef opt fuel lsfuel cl cf b w k H.
  assert (K : (2 <= k)%nat).
  { destruct (Nat.lt_ge_cases k 2) as [K|K]; [exfalso|exact K].
    unfold masked_fit in H. rewrite masked_numbers, numbers_length in H. change (length (unique_labels y)) with k in H. apply Nat.ltb_lt in K. rewrite K in H.
    destruct (rejected C || rejected max_iter || rejected tol); discriminate H. }
  destruct (masked_fit_rows l2 has multinomial p C tol max_iter mi cw X y sw mask coef opt fuel lsfuel cl cf b w H) as (A & B).
  split; [now rewrite A, B|]. rewrite A. fold k. split.
  - intro M. unfold output_dim. destruct (Nat.ltb 2 k) eqn:X1; [reflexivity|]. apply Nat.ltb_ge in X1. destruct M as [->|M]; lia.
  - intros -> ->. reflexivity.
Qed.
Print Assumptions C99_rows.

Theorem C99_probabilities : forall multinomial k p (coef : list (list R)) (b x : list R), let o := length coef in
  (2 <= k)%nat -> (multinomial = true \/ (3 <= k)%nat -> o = k) -> (multinomial = false -> k = 2%nat -> o = 1%nat) ->
  Forall (fun r => length r = p) coef -> length b = o -> length x = p ->
  let score c := Sum p (fun j => entry x j * mat coef c j) + entry b c in
  let d := decision_function (N := Rnum) coef b x in
  let P := predict_proba (N := Rnum) multinomial k d in
  decision_for multinomial k d /\
  (multinomial = true \/ (3 <= k)%nat -> forall c, (c < k)%nat -> entry P c = exp (score c) / Sum k (fun i => exp (score i))) /\
  (multinomial = false -> k = 2%nat -> entry P 1 = 1 / (1 + exp (- score 0%nat)) /\ entry P 0 = 1 - entry P 1).
Proof.
  intros multinomial k p coef b x o K O1 O2 F Lb Lx score d P.
  assert (E : o = output_dim multinomial k).
  { unfold output_dim. destruct (Nat.ltb 2 k) eqn:X1; [apply O1; right; now apply Nat.ltb_lt|]. apply Nat.ltb_ge in X1.
    assert (k = 2%nat) by lia. subst k. destruct multinomial; [apply O1; now left|now apply O2]. }
  destruct (linear_probabilities multinomial k p coef b x K E F (eq_trans Lb E) Lx) as (A & B & C).
  split; [exact A|]. split; [intro M; exact (proj2 (B M))|intros M1 M2; exact (proj2 (C M1 M2))].
Qed.
Print Assumptions C99_probabilities.

Example C99_probabilities_ex :
  let P := predict_proba (N := Rnum) false 2 (decision_function (N := Rnum) [[1; -1]] [2] [3; 5]) in
  entry P 1 = 1 / (1 + exp (- 0)) /\ entry P 0 = 1 - entry P 1 /\
  (forall opt, exists cf b, masked_fit (N := Rnum) false false true 1 (Num (N := Rnum) 1) (Num (N := Rnum) (1 / 1000)) (Num (N := Rnum) 100) 100
    (CWDict [(LInt 0, 6)]) ab_X ab None (Some [[1]; [0]]) (Some [[ln 2]; [7]]) opt 9 9 = Some (mkMasked (Some [LInt 0; LInt 1]) (Fitted (N := Rnum) cf b None)) /\ length cf = 2%nat).
Proof.
  cbv zeta.
  destruct (C99_probabilities false 2 2 [[1; -1]] [2] [3; 5]) as (_ & _ & H); try reflexivity; [intros [X|X]; [discriminate|lia]|repeat constructor|].
  destruct (H eq_refl eq_refl) as (H1 & H0). split; [|split; [exact H0|]].
  - refine (eq_trans H1 _). unfold Sum, mat, entry. cbn [seq map fold_right nth]. do 4 f_equal. ring.
  - intro opt. exists [[ln 2]; [0]], [0; 0]. split; [exact (ab_ok opt)|reflexivity].
Qed.

(** predict_proba is a distribution over the classes; predict takes the first most probable
    class.  UoI_L1Logistic returns its label, which is one of those it was fitted to. *)
Theorem C99_predict : forall multinomial y (d : decision Rnum), let k := length (uoi_classes y) in
  decision_for multinomial k d ->
  let p := predict_proba (N := Rnum) multinomial k d in
  length p = k /\ (forall j, (j < k)%nat -> 0 < entry p j) /\ Sum k (fun j => entry p j) = 1 /\
  exists m l, (m < k)%nat /\ nth_error (uoi_classes y) m = Some l /\ predict (N := Rnum) (uoi_classes y) d = l /\ In l y /\
    forall j, (j < k)%nat -> entry p j <= entry p m /\ ((j < m)%nat -> entry p j < entry p m).
Proof.
  intros multinomial y d k H p. destruct (proba_facts multinomial k d H) as (A & B & C & D & F).
  destruct (uoi_predict_label multinomial y d H) as (G & I').
  split; [exact A|]. split; [exact B|]. split; [exact C|].
  exists (predicted_index (N := Rnum) d), (predict (N := Rnum) (uoi_classes y) d).
  split; [exact D|]. split; [exact G|]. split; [reflexivity|]. split; [exact I'|exact F].
Qed.
Print Assumptions C99_predict.

(** MaskedCoefLogisticRegression returns the code of that class instead of its label. *)
Theorem C99_masked_predict : forall multinomial y (d : decision Rnum), let k := length (uoi_classes y) in
  decision_for multinomial k d ->
  masked_classes y = numbers k /\
  let p := predict_proba (N := Rnum) multinomial k d in
  exists m, (m < k)%nat /\ predict (N := Rnum) (masked_classes y) d = LInt (Z.of_nat m) /\
    forall j, (j < k)%nat -> entry p j <= entry p m /\ ((j < m)%nat -> entry p j < entry p m).
Proof.
  intros multinomial y d k H. split; [exact (masked_numbers y)|].
  destruct (proba_facts multinomial k d H) as (_ & _ & _ & D & F).
  exists (predicted_index (N := Rnum) d). split; [exact D|]. split; [|exact F].
  refine (proj2 (masked_predict_code multinomial y d _)). rewrite masked_numbers, numbers_length. exact H.
Qed.
Print Assumptions C99_masked_predict.

(** Classes 3 and 7 and a sample for which the decision function is 1. *)
Example C99_predict_ex : let y := [LInt 7; LInt 3] in let d := D1 (N := Rnum) 1 in
  decision_for false 2 d /\ predict (N := Rnum) (uoi_classes y) d = LInt 7 /\ predict (N := Rnum) (masked_classes y) d = LInt 1.
Proof.
  cbv zeta. split; [split; reflexivity|]. unfold predict, predicted_index. change (nltb (n := Rnum) nzero 1) with (Rltb 0 1).
  unfold Rltb. destruct (Rlt_dec 0 1); [split; reflexivity|lra].
Qed.

(** A renaming of the classes that keeps their order does not change the codes, the fit of
    MaskedCoefLogisticRegression nor, up to the names, what UoI_L1Logistic predicts. *)
Theorem C99_renaming : forall (N : NumOps) f y,
  (forall a b, In a y -> In b y -> label_leb (f a) (f b) = label_leb a b) ->
  (forall a b, In a y -> In b y -> f a = f b -> a = b) ->
  codes (map f y) = codes y /\ uoi_classes (map f y) = map f (uoi_classes y) /\
  forall l2 has multinomial p (C tol max_iter : number N) mi cw X sw mask coef opt fuel lsfuel,
    masked_fit l2 has multinomial p C tol max_iter mi cw X (map f y) sw mask coef opt fuel lsfuel
    = masked_fit l2 has multinomial p C tol max_iter mi cw X y sw mask coef opt fuel lsfuel.
Proof.
  intros N f y Ho Hi. split; [exact (rename_codes f y Ho Hi)|]. split; [exact (rename_unique f y Ho Hi y (incl_refl _))|].
  intros. apply masked_fit_codes. exact (rename_codes f y Ho Hi).
Qed.
Print Assumptions C99_renaming.

Example C99_renaming_ex : let f l := match l with LInt 3 => LStr "no" | _ => LStr "yes" end in
  let y := [LInt 7; LInt 3] in
  map f y = [LStr "yes"; LStr "no"] /\
  (forall a b, In a y -> In b y -> label_leb (f a) (f b) = label_leb a b) /\
  (forall a b, In a y -> In b y -> f a = f b -> a = b).
Proof.
  cbv zeta. split; [reflexivity|].
  split; intros a b [<-|[<-|[]]] [<-|[<-|[]]]; try reflexivity; discriminate.
Qed.

(** C100.  Weights: every sample counts with its sample weight times the weight of its class;
    dictionaries are looked up by codes. *)
Theorem C100_weights : forall (l2 has multinomial : bool) p C tol max_iter mi cw X y (sw : option (list R)) mask coef opt fuel lsfuel,
  let k := length (uoi_classes y) in let multi := multinomial || Nat.ltb 2 k in
  (2 <= k)%nat ->
  (weights_accepted multi cw k (length y) sw ->
   exists w, weighted_by cw y sw w /\
     masked_fit (N := Rnum) l2 has multinomial p C tol max_iter mi cw X y sw mask coef opt fuel lsfuel
     = masked_fit (N := Rnum) l2 has multinomial p C tol max_iter mi CWNone X y (Some w) mask coef opt fuel lsfuel) /\
  (~ weights_accepted multi cw k (length y) sw -> ~ (bad_number C \/ bad_number max_iter \/ bad_number tol) ->
   masked_fit (N := Rnum) l2 has multinomial p C tol max_iter mi cw X y sw mask coef opt fuel lsfuel
   = Some (mkMasked (Some (numbers k)) (FitRaises ValueError))).
Proof. exact masked_fit_weights. Qed.
Print Assumptions C100_weights.

(** 'balanced' gives every class the same total weight. *)
Theorem C100_balanced : forall y w c, let k := length (uoi_classes y) in let n := length y in
  (2 <= k)%nat -> weighted_by CWBalanced y None w -> (c < k)%nat ->
  Sum n (fun i => if Nat.eqb c (nth i (codes y) 0%nat) then entry w i else 0) = INR n / INR k.
Proof. exact balanced_totals. Qed.
Print Assumptions C100_balanced.

(** Labels 5, 9, 9 with the weights 1 and 3 for the codes; keys that are labels are refused;
    something else than a dictionary is ignored for two classes. *)
Example C100_weights_ex : let y := [LInt 5; LInt 9; LInt 9] in
  weights_accepted false (CWDict (N := Rnum) [(LInt 1, 3)]) 2 3 (Some [1; 1; 2]) /\
  weighted_by (CWDict (N := Rnum) [(LInt 1, 3)]) y (Some [1; 1; 2]) [1; 3; 6] /\
  ~ weights_accepted false (CWDict (N := Rnum) [(LInt 9, 3)]) 2 3 None /\
  ~ weights_accepted false CWNone 2 3 (Some [1; 1]) /\
  weights_accepted false CWOther 2 3 None /\ ~ weights_accepted true CWOther 2 3 None /\
  weighted_by CWBalanced y None [3 / 2; 3 / 4; 3 / 4].
Proof.
  cbv zeta. split; [split; [intros s X; now injection X as <-|intros l [<-|[]]; cbn; auto]|].
  split.
  - split; [reflexivity|]. intros [|[|[|i]]] Hi; try (exfalso; cbn in Hi; lia).
    + exists 1. split; [right; split; [intros [X|[]]; discriminate|reflexivity]|cbn; lra].
    + exists 3. split; [left; exists [], []; split; [reflexivity|intros []]|cbn; lra].
    + exists 3. split; [left; exists [], []; split; [reflexivity|intros []]|cbn; lra].
  - split; [intros (_ & H); destruct (H (LInt 9) (or_introl eq_refl)) as [X|[X|[]]]; discriminate|].
    split; [intros (H & _); specialize (H _ eq_refl); discriminate|].
    split; [split; [discriminate|reflexivity]|]. split; [intros (_ & H); discriminate|].
    split; [reflexivity|]. intros [|[|[|i]]] Hi; try (exfalso; cbn in Hi; lia); eexists; (split; [reflexivity|]); cbn; field.
Qed.

(** Checks of the arguments, in any arithmetic.  In binary64, NaN is accepted. *)
Theorem C100_checks : forall (N : NumOps) l2 has multinomial p (C tol max_iter : number N) mi cw X y sw mask coef opt fuel lsfuel,
  let o := masked_fit l2 has multinomial p C tol max_iter mi cw X y sw mask coef opt fuel lsfuel in
  let bad := bad_number C \/ bad_number max_iter \/ bad_number tol in let k := length (uoi_classes y) in
  (bad -> o = Some (mkMasked None (FitRaises ValueError))) /\
  (~ bad -> (k < 2)%nat -> o = Some (mkMasked (Some (numbers k)) (FitRaises ValueError))) /\
  (~ bad -> forall m, o = Some m -> mk_classes m = Some (numbers k)).
Proof.
  intros N l2 has multinomial p C tol max_iter mi cw X y sw mask coef opt fuel lsfuel. split; [|split].
  - exact (fit_rejected l2 has multinomial p C tol max_iter mi X y mask coef opt fuel lsfuel cw sw).
  - intros H K. exact (fit_one_class l2 has multinomial p C tol max_iter mi X y mask coef opt fuel lsfuel cw sw H K).
  - intros H m. exact (fit_classes l2 has multinomial p C tol max_iter mi X y mask coef opt fuel lsfuel cw sw m H).
Qed.
Print Assumptions C100_checks.

Example C100_checks_ex : forall exp64 ln64,
  bad_number (N := Fnum exp64 ln64) NotNumber /\ bad_number (Num (N := Fnum exp64 ln64) (f64_of_Z (-1))) /\
  ~ bad_number (Num (N := Fnum exp64 ln64) fnan) /\ ~ bad_number (Num (N := Fnum exp64 ln64) fzero) /\
  length (uoi_classes [LInt 4; LInt 4]) = 1%nat.
Proof. intros. split; [exact Logic.I|]. split; [reflexivity|]. split; [discriminate|]. split; [discriminate|reflexivity]. Qed.

(** What the fits minimize.  L1, two classes: the second class counts as +1. *)
Theorem C100_l1_two : forall n p (has : bool) (C tol : R) max_iter mi cw X y (sw : option (list R)) mask coef opt fuel lsfuel cl c b a1 a2,
  uoi_classes y = [a1; a2] -> matrix n p X -> length y = n ->
  match mask with Some m => zero_one p m | None => True end ->
  masked_fit (N := Rnum) false has false p (Num C) (Num tol) max_iter mi cw X y sw (option_map (fun m => [m]) mask) coef opt fuel lsfuel
    = Some (mkMasked cl (Fitted [c] [b] None)) ->
  exists w, weighted_by cw y sw w /\
    ((forall i, (i < n)%nat -> 0 <= entry w i) -> (exists j, (j < p)%nat /\ entry c j <> 0) ->
     let s := map (fun l => if label_eqb l a2 then 1 else -1) y in
     forall c' b', length c' = p -> obeys p mask c' -> (has = false -> b' = 0) ->
     l1_loss n p X s w (1 / C) c b - l1_loss n p X s w (1 / C) c' b'
     <= tol * Rmax 1 (norm (S p) (c ++ [b])) * distance (S p) (c ++ [b]) (c' ++ [b'])).
Proof. exact masked_l1_binary. Qed.
Print Assumptions C100_l1_two.

Theorem C100_l1_several : forall n p (has multinomial : bool) (C tol : R) max_iter mi cw X y (sw : option (list R)) mask coef opt fuel lsfuel cl cf b,
  let k := length (uoi_classes y) in
  (multinomial = true \/ (3 <= k)%nat) -> matrix n p X -> length y = n -> (0 < p)%nat ->
  mask_rows k p mask -> warm_rows k p (p + if has then 1 else 0) coef ->
  masked_fit (N := Rnum) false has multinomial p (Num C) (Num tol) max_iter mi cw X y sw mask coef opt fuel lsfuel
    = Some (mkMasked cl (Fitted cf b None)) ->
  exists w, weighted_by cw y sw w /\
    ((forall i, (i < n)%nat -> 0 <= entry w i) -> (exists c j, (c < k)%nat /\ (j < p)%nat /\ mat cf c j <> 0) ->
     forall cf' b', grid k p cf' -> length b' = k -> rows_obey k p mask cf' -> (has = false -> forall c, entry b' c = 0) ->
     l1_multi_loss n p k X (indicators k (codes y)) w (1 / C) cf b - l1_multi_loss n p k X (indicators k (codes y)) w (1 / C) cf' b'
     <= tol * Rmax 1 (norm (k * S p) (packed cf b)) * distance (k * S p) (packed cf b) (packed cf' b')).
Proof. exact masked_l1_multi. Qed.
Print Assumptions C100_l1_several.

(** Labels "yes", "no": class_weight {1: 6} makes the first sample count six times. *)
Example C100_l1_ex : forall opt,
  (forall c', length c' = 2%nat -> entry c' 1 = 0 ->
     l1_loss 2 2 yn_X [1; -1] [6; 1] (1 / 1) [ln 2; 0] 0 - l1_loss 2 2 yn_X [1; -1] [6; 1] (1 / 1) c' 0
     <= 1 / 1000 * Rmax 1 (norm 3 [ln 2; 0; 0]) * distance 3 [ln 2; 0; 0] (c' ++ [0])) /\
  masked_fit (N := Rnum) false false false 2 (Num (N := Rnum) 1) (Num (N := Rnum) (1 / 1000)) (Num (N := Rnum) 100) 100
    (CWDict [(LInt 1, 6)]) yn_X yn None (Some [[1; 0]]) (Some [[ln 2; 5]]) opt 9 9
    = Some (mkMasked (Some [LInt 0; LInt 1]) (Fitted (N := Rnum) [[ln 2; 0]] [0] None)) /\
  (forall u, l1_multi_loss 2 1 2 ab_X (indicators 2 [0; 1]%nat) [6; 1] (1 / 1) [[ln 2]; [0]] [0; 0]
     - l1_multi_loss 2 1 2 ab_X (indicators 2 [0; 1]%nat) [6; 1] (1 / 1) [[u]; [0]] [0; 0]
     <= 1 / 1000 * Rmax 1 (norm 4 (packed [[ln 2]; [0]] [0; 0])) * distance 4 (packed [[ln 2]; [0]] [0; 0]) (packed [[u]; [0]] [0; 0])) /\
  masked_fit (N := Rnum) false false true 1 (Num (N := Rnum) 1) (Num (N := Rnum) (1 / 1000)) (Num (N := Rnum) 100) 100
    (CWDict [(LInt 0, 6)]) ab_X ab None (Some [[1]; [0]]) (Some [[ln 2]; [7]]) opt 9 9
    = Some (mkMasked (Some [LInt 0; LInt 1]) (Fitted (N := Rnum) [[ln 2]; [0]] [0; 0] None)).
Proof.
  intro opt. pose proof ln2_pos as L2. split; [|split; [exact (yn_ok opt)|split; [|exact (ab_ok opt)]]].
  - destruct (C100_l1_two 2 2 false 1 (1 / 1000) (Num (N := Rnum) 100) 100 (CWDict [(LInt 1, 6)]) yn_X yn None (Some [1; 0]) (Some [[ln 2; 5]]) opt 9 9
      (Some [LInt 0; LInt 1]) [ln 2; 0] 0 (LStr "no") (LStr "yes")) as (w & W & H);
      [reflexivity|split; [reflexivity|repeat constructor]|reflexivity| |exact (yn_ok opt)|].
    + split; [reflexivity|]. intros [|[|j]] Hj; try lia; unfold entry; cbn; auto.
    + assert (E : w = [6; 1]).
      { apply (weighted_unique _ _ _ _ _ W). split; [reflexivity|]. intros [|[|i]] Hi; try (exfalso; cbn in Hi; lia).
        - exists 6. split; [left; exists [], []; split; [reflexivity|intros []]|cbn; lra].
        - exists 1. split; [right; split; [intros [X|[]]; discriminate|reflexivity]|cbn; lra]. }
      subst w. intros c' Lc Hc. refine (H _ _ c' 0 Lc _ (fun _ => eq_refl)).
      * intros [|[|i]] Hi; try lia; unfold entry; cbn; lra.
      * exists 0%nat. split; [lia|]. unfold entry. cbn. lra.
      * intros m E j Hj Z. injection E as <-. destruct j as [|[|j]]; [unfold entry in Z; cbn in Z; lra|exact Hc|lia].
  - destruct (C100_l1_several 2 1 false true 1 (1 / 1000) (Num (N := Rnum) 100) 100 (CWDict [(LInt 0, 6)]) ab_X ab None (Some [[1]; [0]]) (Some [[ln 2]; [7]]) opt 9 9
      (Some [LInt 0; LInt 1]) [[ln 2]; [0]] [0; 0]) as (w & W & H);
      [now left|split; [reflexivity|repeat constructor]|reflexivity|lia| | |exact (ab_ok opt)|].
    + split; [split; [reflexivity|repeat constructor]|]. intros [|[|c]] [|j] Hc Hj; try (cbn in Hc; lia); unfold mat, entry; cbn; auto.
    + left. split; [reflexivity|repeat constructor].
    + assert (E : w = [6; 1]).
      { apply (weighted_unique _ _ _ _ _ W). split; [reflexivity|]. intros [|[|i]] Hi; try (exfalso; cbn in Hi; lia).
        - exists 6. split; [left; exists [], []; split; [reflexivity|intros []]|cbn; lra].
        - exists 1. split; [right; split; [intros [X|[]]; discriminate|reflexivity]|cbn; lra]. }
      subst w. intro u. refine (H _ _ [[u]; [0]] [0; 0] _ eq_refl _ _).
      * intros [|[|i]] Hi; try lia; unfold entry; cbn; lra.
      * exists 0%nat, 0%nat. split; [cbn; lia|]. split; [lia|]. unfold mat, entry. cbn. lra.
      * split; [reflexivity|repeat constructor].
      * intros m E c j Hc Hj Z. injection E as <-. destruct j; [|lia]. destruct c as [|[|c]]; [unfold mat, entry in Z; cbn in Z; lra|reflexivity|cbn in Hc; lia].
      * intros _ [|[|[|c]]]; reflexivity.
Qed.

(** L2, if scipy's optimizer is within [delta] of the minimum. *)
Theorem C100_l2_two : forall n p (has : bool) (C tol : R) max_iter mi cw X y (sw : option (list R)) (mask coef : option (list R))
    opt fuel lsfuel fr delta a1 a2 w,
  ~ (bad_number (N := Rnum) (Num C) \/ bad_number max_iter \/ bad_number (N := Rnum) (Num tol)) ->
  uoi_classes y = [a1; a2] -> matrix n p X -> length y = n -> some_one p mask ->
  let q := (p + if has then 1 else 0)%nat in
  match coef with Some c => length c = p \/ length c = q | None => True end ->
  free_entries has 1 p (fun _ j => exists m, mask = Some m /\ entry m j = 0) fr ->
  weights_accepted false cw 2 n sw -> weighted_by cw y sw w ->
  let s := map (fun l => if label_eqb l a2 then 1 else -1) y in
  minimizes_from opt (kept fr (map (start_entry (N := Rnum) q coef 0) (seq 0 q)))
    (fun x => logistic_loss n p X s w (1 / C) (firstn p (fill fr x)) (entry (fill fr x) p)) delta ->
  exists c b,
    masked_fit (N := Rnum) true has false p (Num C) (Num tol) max_iter mi cw X y sw (option_map (fun m => [m]) mask)
      (option_map (fun m => [m]) coef) opt fuel lsfuel = Some (mkMasked (Some (numbers 2)) (Fitted [c] [b] None)) /\
    length c = p /\ obeys p mask c /\ (has = false -> b = 0) /\
    forall c' b', length c' = p -> obeys p mask c' -> (has = false -> b' = 0) ->
      logistic_loss n p X s w (1 / C) c b <= logistic_loss n p X s w (1 / C) c' b' + delta.
Proof. exact masked_l2_binary. Qed.
Print Assumptions C100_l2_two.

Theorem C100_l2_several : forall n p (has multinomial : bool) (C tol : R) max_iter mi cw X y (sw : option (list R)) mask coef
    opt fuel lsfuel fr delta w,
  ~ (bad_number (N := Rnum) (Num C) \/ bad_number max_iter \/ bad_number (N := Rnum) (Num tol)) ->
  let k := length (uoi_classes y) in
  (2 <= k)%nat -> (multinomial = true \/ (3 <= k)%nat) -> matrix n p X -> length y = n -> (0 < p)%nat -> some_one_of k p mask ->
  let q := (p + if has then 1 else 0)%nat in
  warm_rows k p q coef ->
  free_entries has k p (fun c j => exists m, mask = Some m /\ mat m c j = 0) fr ->
  weights_accepted true cw k n sw -> weighted_by cw y sw w ->
  minimizes_from opt (kept fr (starts q k coef (multi_intercept (N := Rnum) k (codes y))))
    (fun x => multi_loss n p q k X (indicators k (codes y)) w (1 / C) (fill fr x)) delta ->
  exists cf b,
    masked_fit (N := Rnum) true has multinomial p (Num C) (Num tol) max_iter mi cw X y sw mask coef opt fuel lsfuel
      = Some (mkMasked (Some (numbers k)) (Fitted cf b None)) /\
    grid k p cf /\ length b = k /\ rows_obey k p mask cf /\ (has = false -> forall c, (c < k)%nat -> entry b c = 0) /\
    forall cf' b', grid k p cf' -> length b' = k -> rows_obey k p mask cf' -> (has = false -> forall c, (c < k)%nat -> entry b' c = 0) ->
      multi_loss n p (S p) k X (indicators k (codes y)) w (1 / C) (packed cf b)
        <= multi_loss n p (S p) k X (indicators k (codes y)) w (1 / C) (packed cf' b') + delta.
Proof. exact masked_l2_multi. Qed.
Print Assumptions C100_l2_several.

(** Labels "no", "yes", no weights; the penalty is minimized at 0. *)
Example C100_l2_ex : let y := [LStr "no"; LStr "yes"] in
  (exists c b, masked_fit (N := Rnum) true true false 2 (Num (N := Rnum) 1) (Num (N := Rnum) 1) (Num (N := Rnum) 100) 100 CWNone l2_X y None
      (Some [[1; 0]]) (Some [[5; 9]]) l2_opt 0 0 = Some (mkMasked (Some [LInt 0; LInt 1]) (Fitted [c] [b] None)) /\
    length c = 2%nat /\ entry c 1 = 0) /\
  (exists cf b, masked_fit (N := Rnum) true false true 1 (Num (N := Rnum) 1) (Num (N := Rnum) 1) (Num (N := Rnum) 100) 100 CWNone [[1]; [1]] y None
      (Some [[1]; [0]]) (Some [[7]; [8]]) l2_opt 0 0 = Some (mkMasked (Some [LInt 0; LInt 1]) (Fitted cf b None)) /\
    grid 2 1 cf /\ rows_obey 2 1 (Some [[1]; [0]]) cf).
Proof.
  cbv zeta.
  assert (B : forall v : R, 0 <= v -> ~ bad_number (N := Rnum) (Num v)).
  { intros v Hv. assert (E : nltb (n := Rnum) v (@nzero Rnum) = false) by (apply Rltb_f; exact Hv). unfold bad_number. rewrite E. discriminate. }
  assert (B0 : ~ (bad_number (N := Rnum) (Num (N := Rnum) 1) \/ bad_number (Num (N := Rnum) 100) \/ bad_number (N := Rnum) (Num (N := Rnum) 1))).
  { intros [X|[X|X]]; revert X; apply B; lra. }
  assert (W : weighted_by CWNone [LStr "no"; LStr "yes"] None [1; 1]).
  { split; [reflexivity|]. intros [|[|i]] Hi; try (exfalso; cbn in Hi; lia); exists 1; (split; [reflexivity|cbn; lra]). }
  split.
  - destruct (C100_l2_two 2 2 true 1 1 (Num (N := Rnum) 100) 100 CWNone l2_X [LStr "no"; LStr "yes"] None (Some [1; 0]) (Some [5; 9]) l2_opt 0 0
      [true; false; true] 0 (LStr "no") (LStr "yes") [1; 1]) as (c & b & E & L & O & _);
      [exact B0|reflexivity|split; [reflexivity|repeat constructor]|reflexivity| |now left|exact l2_bin_free|split; [discriminate|exact Logic.I]|exact W|exact l2_bin_opt|].
    + split; [split; [reflexivity|]|exists 0%nat; split; [lia|reflexivity]]. intros [|[|j]] Hj; try lia; unfold entry; cbn; auto.
    + exists c, b. split; [exact E|]. split; [exact L|]. exact (O [1; 0] eq_refl 1%nat (Nat.lt_succ_diag_r 1) eq_refl).
  - destruct (C100_l2_several 2 1 false true 1 1 (Num (N := Rnum) 100) 100 CWNone [[1]; [1]] [LStr "no"; LStr "yes"] None (Some [[1]; [0]]) (Some [[7]; [8]]) l2_opt 0 0
      [true; false] 0 [1; 1]) as (cf & b & E & G & _ & O & _);
      [exact B0|cbn; lia|now left|split; [reflexivity|repeat constructor]|reflexivity|lia| | |exact l2_mul_free|split; [discriminate|exact Logic.I]|exact W|exact l2_mul_opt|].
    + split; [split; [split; [reflexivity|repeat constructor]|]|].
      * intros [|[|c]] [|j] Hc Hj; try (cbn in Hc; lia); unfold mat, entry; cbn; auto.
      * intros m E. injection E as <-. exists 0%nat, 0%nat. split; [cbn; lia|]. split; [lia|reflexivity].
    + left. split; [reflexivity|repeat constructor].
    + exists cf, b. split; [exact E|]. split; [exact G|exact O].
Qed.
