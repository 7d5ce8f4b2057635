(** C130: the order of the samples does not matter (real numbers).  [reordered d perm] lists
    data in another order, [renamed perm] gives the samples of a bootstrap their old numbers. *)
From Coq Require Import ZArith String List Bool Arith Lia Reals Lra Permutation.
From Verif Require Import Prelude F64 Num Model_Intersection Model_Fit Model_Refit Model_Rescale Model_Poisson Model_Linear Model_Estimation Model_Selection Model_CountFit Model_ClassFit
  Spec_Rescale Spec_Poisson Spec_Linear Spec_Estimation Spec_Units Spec_ClassFit Proofs_Flat2 Proofs_CountFit3 Proofs_ClassFit4 Proofs_ClassFit5
  Spec_SampleOrder Proofs_SampleOrder Proofs_SampleOrder2 Proofs_SampleOrder3.
From Verif Require Model_Labels Proofs_CountFit3.
Import ListNotations.
Local Open Scope R_scope.

(** UoI_Lasso. *)
Theorem C130_lasso : forall n perm p X (y : list R), reorders n perm -> length X = n -> length y = n ->
  forall standardize has eps num ts metric target (net : solver_net (N := Rnum)) (ols : solver_ls (N := Rnum)) sel est,
  (forall sp, In sp sel \/ In sp est -> within n sp) ->
  let X' := reordered [] perm X in let y' := reordered 0 perm y in
  let D := linear_pre (N := Rnum) standardize has p X y in let D' := linear_pre (N := Rnum) standardize has p X' y' in
  lasso_select (N := Rnum) has p eps num net ts sel (fst D') (snd D') = lasso_select (N := Rnum) has p eps num net ts (map (renamed perm) sel) (fst D) (snd D) /\
  lasso_fit (N := Rnum) standardize has eps num ts metric target p net ols sel est X' y' =
  lasso_fit (N := Rnum) standardize has eps num ts metric target p net ols (map (renamed perm) sel) (map (renamed perm) est) X y.
Proof. exact lasso_reordered. Qed.
Print Assumptions C130_lasso.

(** Four samples in the opposite order. *)
Example C130_ex : forall ols : solver_ls (N := Rnum),
  let splits := [([3; 2], [1; 0]); ([1; 0], [3; 2])]%nat in
  exists c b, lasso_fit (N := Rnum) false true (1 / 2) 2 [2%Z] "r2" 1 2 flat_net ols flat_splits flat_splits flat_X flat_y = Ok (c, b) /\
    lasso_fit (N := Rnum) false true (1 / 2) 2 [2%Z] "r2" 1 2 flat_net ols splits splits [[-1; 7]; [1; 5]; [-1; 5]; [1; 5]] [-1; 1; -1; 1] = Ok (c, b).
Proof.
  intros ols splits. destruct (flat_example ols) as (c & b & E & _). exists c, b. split; [exact E|].
  refine (eq_trans (proj2 (C130_lasso 4 [3; 2; 1; 0]%nat 2 flat_X flat_y _ eq_refl eq_refl false true (1 / 2) 2%nat [2%Z] "r2" 1%nat flat_net ols splits splits _)) E).
  - apply Permutation_sym. exact (Permutation_rev (seq 0 4)).
  - intros sp [[<-|[<-|[]]]|[<-|[<-|[]]]]; intros i Hi; cbn in Hi; lia.
Qed.

(** UoI_ElasticNet. *)
Theorem C130_elastic : forall n perm p X (y : list R), reorders n perm -> length X = n -> length y = n ->
  forall standardize has eps num alphas ts metric target (net : solver_net (N := Rnum)) (ols : solver_ls (N := Rnum)) sel est,
  (forall sp, In sp sel \/ In sp est -> within n sp) ->
  let X' := reordered [] perm X in let y' := reordered 0 perm y in
  let D := linear_pre (N := Rnum) standardize has p X y in let D' := linear_pre (N := Rnum) standardize has p X' y' in
  elastic_select (N := Rnum) has p eps num alphas net ts sel (fst D') (snd D') = elastic_select (N := Rnum) has p eps num alphas net ts (map (renamed perm) sel) (fst D) (snd D) /\
  elastic_fit (N := Rnum) standardize has eps num alphas ts metric target p net ols sel est X' y' =
  elastic_fit (N := Rnum) standardize has eps num alphas ts metric target p net ols (map (renamed perm) sel) (map (renamed perm) est) X y.
Proof. exact elastic_reordered. Qed.
Print Assumptions C130_elastic.

Example C130_elastic_ex : forall ols : solver_ls (N := Rnum),
  let splits := [([3; 2], [1; 0]); ([1; 0], [3; 2])]%nat in
  elastic_fit (N := Rnum) false true (1 / 2) 2 [1] [2%Z] "r2" 1 2 flat_net ols splits splits [[-1; 7]; [1; 5]; [-1; 5]; [1; 5]] [-1; 1; -1; 1] =
  elastic_fit (N := Rnum) false true (1 / 2) 2 [1] [2%Z] "r2" 1 2 flat_net ols flat_splits flat_splits flat_X flat_y.
Proof.
  intros ols splits.
  refine (proj2 (C130_elastic 4 [3; 2; 1; 0]%nat 2 flat_X flat_y _ eq_refl eq_refl false true (1 / 2) 2%nat [1] [2%Z] "r2" 1%nat flat_net ols splits splits _)).
  - apply Permutation_sym. exact (Permutation_rev (seq 0 4)).
  - intros sp [[<-|[<-|[]]]|[<-|[<-|[]]]]; intros i Hi; cbn in Hi; lia.
Qed.

(** UoI_Poisson. *)
Theorem C130_poisson : forall n perm p X (y : list R), reorders n perm -> length X = n -> length y = n ->
  forall standardize has eps num alphas ts metric target (sel_lm est_lm : solver_glm (N := Rnum)) sel est,
  (forall sp, In sp sel \/ In sp est -> within n sp) ->
  let X' := reordered [] perm X in let y' := reordered 0 perm y in
  let Xs D := map (centering_transform (N := Rnum) standardize (fit_scaler (columns p D))) D in
  count_select (N := Rnum) p eps num alphas sel_lm ts sel (Xs X') y' = count_select (N := Rnum) p eps num alphas sel_lm ts (map (renamed perm) sel) (Xs X) y /\
  count_fit (N := Rnum) standardize has eps num alphas ts metric target p sel_lm est_lm sel est X' y' =
  count_fit (N := Rnum) standardize has eps num alphas ts metric target p sel_lm est_lm (map (renamed perm) sel) (map (renamed perm) est) X y.
Proof. intros n perm p X y HP LX Ly standardize has eps num alphas ts metric target sel_lm est_lm sel est H. now apply (count_reordered n perm HP p y Ly). Qed.
Print Assumptions C130_poisson.

(** The last of four samples put first. *)
Example C130_poisson_ex :
  let sp := ([1; 2; 3; 0], [1; 2])%nat in
  exists c b, count_fit (N := Rnum) false true (1 / 2) 2 [1] [1%Z] "log" 1 2 crossed_lm crossed_lm [crossed_split] [crossed_split] crossed crossed_y = Ok (c, b) /\
    count_fit (N := Rnum) false true (1 / 2) 2 [1] [1%Z] "log" 1 2 crossed_lm crossed_lm [sp] [sp] [[1; 1]; [0; 0]; [1; 0]; [0; 1]] [5; 1; 5; 1] = Ok (c, b).
Proof.
  intro sp. destruct (Proofs_CountFit3.count_example 1 ltac:(lra)) as (_ & c & b & E & _). exists c, b. split; [exact E|].
  refine (eq_trans (proj2 (C130_poisson 4 [3; 0; 1; 2]%nat 2 crossed crossed_y _ eq_refl eq_refl false true (1 / 2) 2%nat [1] [1%Z] "log" 1%nat crossed_lm crossed_lm [sp] [sp] _)) E).
  - exact (Permutation_cons_append [0; 1; 2]%nat 3%nat).
  - intros q [[<-|[]]|[<-|[]]]; intros i Hi; cbn in Hi; lia.
Qed.

(** UoI_L1Logistic, two classes.  With fit_intercept the last fit of the intercept must be
    exact for both orders. *)
Theorem C130_logistic : forall n perm p X (y : list Model_Labels.label) d, reorders n perm -> matrix n p X -> (0 < n)%nat -> (0 < p)%nat -> length y = n ->
  let z := Model_Labels.codes y in Forall (fun a => (a < 2)%nat) z ->
  forall standardize has eps num ts clip metric target (sel_lm : solver_C (N := Rnum)) (est_lm : solver_ml (N := Rnum)) (refit : refitter (N := Rnum)) sel est,
  (forall sp, In sp sel \/ In sp est -> within n sp) ->
  let X' := reordered [] perm X in let y' := reordered d perm y in let z' := Model_Labels.codes y' in
  let Xs D := map (base_transform (N := Rnum) standardize has (fit_scaler (columns p D))) D in
  (has = true -> forall c, length c = p -> matching_intercept n p (Xs X) (map INR z) c (refit (Xs X) c z) /\ matching_intercept n p (Xs X') (map INR z') c (refit (Xs X') c z')) ->
  (forall Cs, class_select (N := Rnum) p sel_lm ts Cs sel (Xs X') z' = class_select (N := Rnum) p sel_lm ts Cs (map (renamed perm) sel) (Xs X) z) /\
  class_Cs (N := Rnum) has p eps num (Xs X') z' = class_Cs (N := Rnum) has p eps num (Xs X) z /\
  class_fit (N := Rnum) standardize has eps num ts clip metric target p sel_lm est_lm refit sel est X' y' =
  class_fit (N := Rnum) standardize has eps num ts clip metric target p sel_lm est_lm refit (map (renamed perm) sel) (map (renamed perm) est) X y.
Proof.
  intros n perm p X y d HP HX Hn Hp Ly z Hb standardize has eps num ts clip metric target sel_lm est_lm refit sel est H X' y' z' Xs Hm.
  now apply (class_reordered n perm HP p y d Ly).
Qed.
Print Assumptions C130_logistic.

(** Twelve samples in the opposite order. *)
Example C130_logistic_ex clip :
  let flip (sp : list nat * list nat) := (map (Nat.sub 11) (fst sp), map (Nat.sub 11) (snd sp)) in
  exists b, class_fit (N := Rnum) false true (1 / 2) 1 [1%Z; 2%Z] clip "acc" 1 2 group_sel group_est (exact_refit 2) (map flip [ten_split; ten_four]) [flip ten_split] (rev ten_X) (rev (map label ten_z)) = Ok ([ln 6 / 2; 0], b).
Proof.
  intro flip. destruct (ten_fit clip) as (b & E & _). exists b. destruct ten_codes as [K _].
  assert (K' : Model_Labels.codes (rev (map label ten_z)) = rev ten_z) by reflexivity.
  refine (eq_trans (proj2 (proj2 (C130_logistic 12 (rev (seq 0 12)) 2 ten_X (map label ten_z) (Model_Labels.LInt 0) _ ten_matrix _ _ eq_refl _ false true (1 / 2) 1%nat [1%Z; 2%Z] clip "acc" 1%nat group_sel group_est (exact_refit 2) (map flip [ten_split; ten_four]) [flip ten_split] _ _))) E).
  - apply Permutation_sym, Permutation_rev.
  - lia.
  - lia.
  - rewrite K. exact ten_binary.
  - intros sp [[<-|[<-|[]]]|[<-|[]]]; intros i Hi; cbn in Hi; lia.
  - intros _ c Lc. split.
    + rewrite K. apply exact_matches; [reflexivity|lia|apply ten_sums; now left].
    + change (reordered (Model_Labels.LInt 0) (rev (seq 0 12)) (map label ten_z)) with (rev (map label ten_z)). rewrite K'.
      apply exact_matches; [reflexivity|lia|]. unfold ten_z. cbn [rev app]. cbn. lra.
Qed.
