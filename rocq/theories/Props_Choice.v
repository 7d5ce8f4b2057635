(** C121 and C122: what the estimation module of UoI_Lasso and UoI_ElasticNet chooses (real
    numbers, standardize=False). *)
From Coq Require Import ZArith String List Bool Arith Lia Reals Lra.
From Verif Require Import Prelude F64 Num Model_Fit Model_Linear Model_Estimation Spec_Rescale Spec_Poisson Spec_Estimation Spec_Choice
  Proofs_Estimation5 Proofs_Choice Proofs_Choice2 Proofs_Choice3.
Import ListNotations.
Local Open Scope R_scope.

(** C121: fit returns.  In each bootstrap the estimate is that of a candidate with the lowest
    cost: its squared error ('r2'), or n times the logarithm of it plus a price for the
    features (BIC, AIC, AICc), on the training or the test samples.  The coefficients are the
    medians over the bootstraps, the intercept the one for these coefficients. *)
Theorem C121_choice : forall has metric target n p X y (ols : solver_ls (N := Rnum)) select splits,
  matrix n p X -> length y = n -> In metric ["r2"; "BIC"; "AIC"; "AICc"]%string ->
  (exists i j, (i < n)%nat /\ (j < n)%nat /\ entry y i <> entry y j) -> splits <> [] ->
  let supports := select X y in
  supports <> [] -> (forall mask, In mask supports -> length mask = p) ->
  let fit_of sp mask := ols (part X (fst sp) mask) (part_y y (fst sp)) in
  let err sp mask := model_error X y (fst sp) (scored target sp) mask (fit_of sp mask) in
  (forall sp, In sp splits ->
     (forall r, In r (fst sp) -> (r < n)%nat) /\ (forall r, In r (scored target sp) -> (r < n)%nat) /\ scored target sp <> [] /\
     (metric = "r2"%string -> (2 <= length (scored target sp))%nat /\
        distance2 (part_y y (scored target sp)) (average (length (scored target sp)) (part_y y (scored target sp))) <> 0) /\
     forall mask, In mask supports ->
       (existsb (fun b => b) mask = true -> length (fst (fit_of sp mask)) = count (fun b => b) mask) /\ (metric <> "r2"%string -> 0 < err sp mask)) ->
  exists best c b,
    regressor_fit (N := Rnum) false has metric target p ols select splits X y = Ok (c, b) /\
    Forall2 (fun sp e => exists mask, In mask supports /\ estimate_of p mask (fit_of sp mask) e /\
      forall mask', In mask' supports ->
        cost metric (length (scored target sp)) (count (fun b => b) mask) (err sp mask)
        <= cost metric (length (scored target sp)) (count (fun b => b) mask') (err sp mask')) splits best /\
    length c = p /\ (forall j, (j < p)%nat -> median_of (map (fun e => entry e j) best) (entry c j)) /\
    b = if has then average n y - Sum p (fun j => average n (map (fun r => entry r j) X) * entry c j) else 0.
Proof. exact fit_choice. Qed.
Print Assumptions C121_choice.

(** Eight samples, y = 2 * x_0 plus noise; candidates are no feature, x_0, and both.  BIC on
    the training samples takes x_0 alone. *)
Example C121_ex : exists c b,
  regressor_fit (N := Rnum) false true "BIC" 0 2 ols_balanced (fun _ _ => three_supports) [half_split] two_by_two y_noisy = Ok (c, b) /\ c = [2; 0].
Proof. exact noisy_bic. Qed.

(** C122: on the samples it is fitted to, a candidate that contains another never has the
    larger error.  (Without an intercept the support without features is excluded: see C120.) *)
Theorem C122_nested : forall has n p X y train mask mask' (m m' : list R * R),
  matrix n p X -> (forall r, In r train -> (r < n)%nat) ->
  length mask = p -> length mask' = p -> within mask mask' ->
  (if existsb (fun b => b) mask then length (fst m) = count (fun b => b) mask /\ (has = false -> snd m = 0) else has = true) ->
  (existsb (fun b => b) mask' = true -> least_squares has (count (fun b => b) mask') (part X train mask') (part_y y train) m') ->
  model_error X y train train mask' m' <= model_error X y train train mask m.
Proof. exact nested_error. Qed.
Print Assumptions C122_nested.

(** C122 (finding): so with estimation_score='r2' and estimation_target='train' the candidate
    that contains all others, if there is one, provides the estimate of every bootstrap,
    whatever the data are: fit is bagged least squares on that support, and the estimation
    module rejects no feature. *)
Theorem C122_train : forall n p X y (ols : solver_ls (N := Rnum)) select splits large,
  matrix n p X -> length y = n -> (exists i j, (i < n)%nat /\ (j < n)%nat /\ entry y i <> entry y j) -> splits <> [] ->
  let supports := select X y in
  (forall mask, In mask supports -> length mask = p /\ within mask large) -> In large supports ->
  (forall sp, In sp splits ->
     (forall r, In r (fst sp) -> (r < n)%nat) /\ (2 <= length (fst sp))%nat /\
     distance2 (part_y y (fst sp)) (average (length (fst sp)) (part_y y (fst sp))) <> 0 /\
     identified p true (fun j => nth j large false = true) X (fst sp) /\
     forall mask, In mask supports -> existsb (fun b => b) mask = true ->
       least_squares true (count (fun b => b) mask) (part X (fst sp) mask) (part_y y (fst sp)) (ols (part X (fst sp) mask) (part_y y (fst sp)))) ->
  exists best c b,
    regressor_fit (N := Rnum) false true "r2" 0 p ols select splits X y = Ok (c, b) /\
    Forall2 (fun sp e => estimate_of p large (ols (part X (fst sp) large) (part_y y (fst sp))) e) splits best /\
    length c = p /\ (forall j, (j < p)%nat -> median_of (map (fun e => entry e j) best) (entry c j)).
Proof. exact train_choice. Qed.
Print Assumptions C122_train.

(** The data of C121_ex: now the irrelevant feature stays in. *)
Example C122_ex : exists c b,
  regressor_fit (N := Rnum) false true "r2" 0 2 ols_balanced (fun _ _ => three_supports) [half_split] two_by_two y_noisy = Ok (c, b) /\ c = [2; 1/2].
Proof.
  destruct (C122_train 8 2 two_by_two y_noisy ols_balanced (fun _ _ => three_supports) [half_split] [true; true]) as (best & c & b & E & F & Lc & Hm).
  - exact matrix_two.
  - reflexivity.
  - exists 0%nat, 1%nat. repeat split; try lia. unfold entry. cbn. lra.
  - discriminate.
  - intros mask [<-|[<-|[<-|[]]]]; (split; [reflexivity|]); intros [|[|[|j]]]; cbn; congruence.
  - cbn. tauto.
  - intros sp [<-|[]]. split; [exact half_train|]. split; [cbn; lia|]. split; [unfold distance2, average, Sum, entry; cbn; lra|]. split.
    + apply (corners_identified _ _ 0); [reflexivity|now left].
    + intros mask Hmask Em. exact (noisy_ols mask Hmask Em).
  - exists c, b. split; [exact E|]. inversion F as [|sp e l l' (Le & Ze & Ve) F' Esp Eb]. subst. inversion F'. subst.
    rewrite noisy_both in Ve. specialize (Ve eq_refl). cbn in Ve. injection Ve as V0 V1.
    destruct c as [|c0 [|c1 [|]]]; try discriminate. pose proof (median_one _ _ (Hm 0%nat ltac:(lia))) as M0. pose proof (median_one _ _ (Hm 1%nat ltac:(lia))) as M1.
    rewrite V0 in M0. rewrite V1 in M1. unfold entry in M0, M1. cbn in M0, M1. now rewrite M0, M1.
Qed.
