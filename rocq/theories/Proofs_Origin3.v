(** Proofs about the zero points of the features (C131): UoI_L1Logistic. *)
From Coq Require Import ZArith String List Bool Arith Lia Reals Lra Psatz.
From Verif Require Import Prelude F64 Num Model_Intersection Model_Fit Model_Scores Model_Refit Model_Rescale Model_Poisson Model_Linear Model_Estimation Model_Selection Model_ClassFit
  Proofs_Intersection Spec_Rescale Proofs_Rescale Spec_Poisson Proofs_Poisson Proofs_PoissonOpt Spec_Linear Proofs_Linear
  Proofs_LinearUnits Spec_Estimation Proofs_Estimation Proofs_Estimation2 Proofs_Estimation3 Spec_Choice Proofs_Choice Spec_Units Spec_Flat Proofs_Flat Proofs_FlatCount Proofs_Totals
  Spec_ClassFit Proofs_ClassFit Proofs_ClassFit2 Proofs_ClassFit3 Proofs_ClassFit4 Proofs_ClassFit5 Proofs_FlatClass.
From Verif Require Model_Logistic Model_Labels Spec_Logistic Proofs_Logistic Proofs_LogisticGrid.
Import ListNotations.
Local Open Scope R_scope.

Lemma Sum_Rabs k f : Rabs (Sum k f) <= Sum k (fun i => Rabs (f i)).
Proof.
  induction k as [|k IH]; [rewrite !Sum_0, Rabs_R0; lra|]. rewrite !Sum_S. eapply Rle_trans; [apply Rabs_triang|]. lra.
Qed.

(** ** Penalties above the distances to a centre leave no feature *)
Section Zero.
  Variables (k p : nat) (X : list (list R)) (y o : list R) (M : R).
  Hypothesis Hk : (0 < k)%nat.
  Hypothesis Hy : forall i, (i < k)%nat -> 0 <= entry y i <= 1.
  Hypothesis Hs : 0 < Sum k (fun i => entry y i) < INR k.
  Hypothesis HM : forall i j, (i < k)%nat -> (j < p)%nat -> Rabs (mat X i j - entry o j) <= M.
  Definition rate : R := Sum k (fun i => entry y i) / INR k.
  Definition null_intercept : R := ln (rate / (1 - rate)).

  Lemma rate_bounds : 0 < rate < 1.
  Proof.
    assert (0 < INR k) by (apply lt_0_INR; lia). unfold rate. split; [apply Rdiv_lt_0_compat; lra|].
    apply (Rmult_lt_reg_r (INR k)); [lra|]. unfold Rdiv. rewrite Rmult_assoc, Rinv_l by lra. lra.
  Qed.
  Lemma sg_null : sg null_intercept = rate.
  Proof.
    pose proof rate_bounds as B. unfold sg, null_intercept. rewrite exp_Ropp, exp_ln by (apply Rdiv_lt_0_compat; lra). field. lra.
  Qed.
  Lemma eta_null b i : eta p X (repeat 0 p) b i = b.
  Proof. unfold eta. rewrite Sum_zero; [ring|]. intros j _. pose proof (entry_zeros p j) as E. rr. rewrite E. ring. Qed.
  Lemma residuals : Sum k (fun i => rate - entry y i) = 0.
  Proof.
    assert (0 < INR k) by (apply lt_0_INR; lia). rewrite (Sum_minus k (fun _ => rate) (fun i => entry y i)), Sum_const. unfold rate. field. lra.
  Qed.

  Lemma loss_above c b :
    Sum k (fun i => ln (1 + exp null_intercept) - entry y i * null_intercept) - INR k * M * Sum p (fun j => Rabs (entry c j))
    <= Sum k (fun i => ln (1 + exp (eta p X c b i)) - entry y i * eta p X c b i).
  Proof.
    pose proof sg_null as SN. set (b0 := null_intercept) in *.
    assert (T : Sum k (fun i => ln (1 + exp b0) - entry y i * b0) + Sum k (fun i => (rate - entry y i) * (eta p X c b i - b0))
      <= Sum k (fun i => ln (1 + exp (eta p X c b i)) - entry y i * eta p X c b i)).
    { rewrite <- (Sum_plus k (fun i => ln (1 + exp b0) - entry y i * b0) (fun i => (rate - entry y i) * (eta p X c b i - b0))). apply Sum_le. intros i Hi.
      destruct (softplus_tangent b0 (eta p X c b i)) as [U _]. unfold softplus in U. rewrite SN in U. lra. }
    assert (E : Sum k (fun i => (rate - entry y i) * (eta p X c b i - b0)) = Sum p (fun j => entry c j * Sum k (fun i => (rate - entry y i) * (mat X i j - entry o j)))).
    { rewrite (Sum_ext p (fun j => entry c j * Sum k (fun i => (rate - entry y i) * (mat X i j - entry o j))) (fun j => Sum k (fun i => entry c j * ((rate - entry y i) * (mat X i j - entry o j)))))
        by (intros j _; now rewrite Sum_scal).
      rewrite <- (Sum_swap k p (fun i j => entry c j * ((rate - entry y i) * (mat X i j - entry o j)))).
      rewrite (Sum_ext k (fun i => Sum p (fun j => entry c j * ((rate - entry y i) * (mat X i j - entry o j))))
        (fun i => (rate - entry y i) * (eta p X c b i - b0) - (b - b0 + Sum p (fun j => entry o j * entry c j)) * (rate - entry y i))).
      - rewrite (Sum_minus k (fun i => (rate - entry y i) * (eta p X c b i - b0)) (fun i => (b - b0 + Sum p (fun j => entry o j * entry c j)) * (rate - entry y i))).
        rewrite Sum_scal, residuals. ring.
      - intros i _. rewrite (Sum_ext p _ (fun j => (rate - entry y i) * (mat X i j * entry c j) - (rate - entry y i) * (entry o j * entry c j))) by (intros; ring).
        rewrite (Sum_minus p (fun j => (rate - entry y i) * (mat X i j * entry c j)) (fun j => (rate - entry y i) * (entry o j * entry c j))), !Sum_scal. unfold eta. ring. }
    assert (L : Rabs (Sum p (fun j => entry c j * Sum k (fun i => (rate - entry y i) * (mat X i j - entry o j)))) <= INR k * M * Sum p (fun j => Rabs (entry c j))).
    { eapply Rle_trans; [apply Sum_Rabs|]. rewrite <- Sum_scal. apply Sum_le. intros j Hj. rewrite Rabs_mult, Rmult_comm. apply Rmult_le_compat_r; [apply Rabs_pos|].
      eapply Rle_trans; [apply Sum_Rabs|]. rewrite <- (Sum_const k M). apply Sum_le. intros i Hi. rewrite Rabs_mult.
      pose proof (Hy i Hi) as B. pose proof rate_bounds as Q. pose proof (HM i j Hi Hj) as D. pose proof (Rabs_pos (mat X i j - entry o j)).
      assert (Rabs (rate - entry y i) <= 1) by (apply Rabs_le; lra). pose proof (Rabs_pos (rate - entry y i)). nra. }
    rewrite <- E in L. pose proof (Rle_abs (- Sum k (fun i => (rate - entry y i) * (eta p X c b i - b0)))) as N. rewrite Rabs_Ropp in N. lra.
  Qed.

  Lemma objective_above lam c b :
    class_objective k p X y lam (repeat 0 p) null_intercept + (lam - M) * Sum p (fun j => Rabs (entry c j)) <= class_objective k p X y lam c b.
  Proof.
    assert (K : 0 < INR k) by (apply lt_0_INR; lia). pose proof (loss_above c b) as L. apply (Rmult_le_compat_l (/ INR k)) in L; [|left; now apply Rinv_0_lt_compat].
    unfold class_objective. rewrite (Sum_zero p (fun j => Rabs (entry (repeat 0 p) j))) by (intros j _; pose proof (entry_zeros p j) as E; rr; rewrite E; apply Rabs_R0).
    rewrite (Sum_ext k (fun i => ln (1 + exp (eta p X (repeat 0 p) null_intercept i)) - entry y i * eta p X (repeat 0 p) null_intercept i)
      (fun i => ln (1 + exp null_intercept) - entry y i * null_intercept)) by (intros i _; now rewrite eta_null).
    set (S0 := Sum k (fun i => ln (1 + exp null_intercept) - entry y i * null_intercept)) in *. set (A := Sum p (fun j => Rabs (entry c j))) in *.
    replace (/ INR k * (S0 - INR k * M * A)) with (/ INR k * S0 - M * A) in L by (field; lra). lra.
  Qed.

  Lemma null_minimizer lam : M <= lam -> class_minimizer k p X y lam (repeat 0 p, null_intercept).
  Proof.
    intro Hl. split; [apply repeat_length|]. intros c b _. cbn [fst snd]. pose proof (objective_above lam c b) as H.
    assert (0 <= Sum p (fun j => Rabs (entry c j))) by (apply Sum_nonneg; intros; apply Rabs_pos). nra.
  Qed.
  Lemma minimizer_null lam m j : M < lam -> class_minimizer k p X y lam m -> (j < p)%nat -> entry (fst m) j = 0.
  Proof.
    intros Hl (Lc & H) Hj. specialize (H (repeat 0 p) null_intercept (repeat_length _ _)). pose proof (objective_above lam (fst m) (snd m)) as G.
    assert (Q : Sum p (fun j => Rabs (entry (fst m) j)) <= 0) by nra.
    destruct (Req_dec (entry (fst m) j) 0) as [E|E]; [exact E|]. exfalso.
    assert (P : Rabs (entry (fst m) j) <= Sum p (fun j => Rabs (entry (fst m) j))).
    { apply (Rle_trans _ (Sum p (fun q => if Nat.eqb q j then Rabs (entry (fst m) j) else 0))).
      - right. pose proof (Sum_at p j (fun _ => 0) (Rabs (entry (fst m) j)) Hj) as Ea. cbn beta in Ea. rewrite (Sum_zero p (fun _ => 0)) in Ea by reflexivity. lra.
      - apply Sum_le. intros q Hq. destruct (Nat.eqb_spec q j) as [->|]; [lra|apply Rabs_pos]. }
    pose proof (Rabs_pos_lt _ E). lra.
  Qed.
End Zero.

(** ** All penalties of the grid are large *)
Lemma grid_large A eps num (C : R) : 0 < A -> 0 < eps <= 1 -> In C (Model_Logistic.C_grid (N := Rnum) A eps num) -> A * eps <= / C.
Proof.
  intros HA He H. apply (In_nth _ _ 0) in H as (i & Hi & <-).
  assert (Hi' : (i < num)%nat).
  { unfold Model_Logistic.C_grid, logspace in Hi. rewrite map_length in Hi. unfold linspace in Hi. destruct num as [|[|num]]; cbn [length] in Hi; rewrite ?map_length, ?seq_length in Hi; lia. }
  pose proof (Proofs_LogisticGrid.C_grid_value A eps num i HA (proj1 He) Hi') as E. unfold entry in E. rr. rewrite E.
  assert (Ie : 1 <= / eps) by (rewrite <- Rinv_1; apply Rinv_le_contravar; lra).
  assert (Hx : INR i / INR (num - 1) <= 1).
  { destruct (Nat.eq_dec num 1) as [->|]. - assert (i = 0%nat) by lia. subst i. cbn [INR]. unfold Rdiv. rewrite Rmult_0_l. lra.
    - assert (0 < INR (num - 1)) by (apply lt_0_INR; lia). apply (Rmult_le_reg_r (INR (num - 1))); [lra|]. unfold Rdiv. rewrite Rmult_assoc, Rinv_l by lra. rewrite Rmult_1_l, Rmult_1_r. apply le_INR. lia. }
  assert (P : 0 < Rpower (/ eps) (INR i / INR (num - 1)) <= / eps).
  { split; [apply exp_pos|]. rewrite <- (Rpower_1 (/ eps)) at 2 by lra. apply Rle_Rpower; assumption. }
  rewrite Rinv_mult, Rinv_inv. apply Rmult_le_compat_l; [lra|].
  rewrite <- (Rinv_inv eps) at 1. apply Rinv_le_contravar; lra.
Qed.

Section Far.
  Variables (n p : nat) (X : list (list R)) (z : list nat) (o : list R) (M eps : R) (num : nat) (j0 : nat).
  Hypothesis HX : matrix n p X.
  Hypothesis Hn : (0 < n)%nat.
  Hypothesis Lz : length z = n.
  Hypothesis Hb : Forall (fun v => (v < 2)%nat) z.
  Hypothesis Hsh : Spec_Logistic.tiny <= Spec_Logistic.share z <= 1 - Spec_Logistic.tiny.
  Hypothesis He : 0 < eps <= 1.
  Hypothesis HM : forall i j, (i < n)%nat -> (j < p)%nat -> Rabs (mat X i j - entry o j) <= M.
  Hypothesis Hj0 : (j0 < p)%nat.
  Hypothesis Hfar : M < eps * (Spec_Logistic.share z * (1 - Spec_Logistic.share z) * (Rabs (entry o j0) - M)).

  Lemma far_grid Cs (C : R) : class_Cs (N := Rnum) true p eps num X z = Ok Cs -> In C Cs -> M < / C.
  Proof.
    pose proof Proofs_Logistic.tiny_pos as T.
    destruct (Proofs_LogisticGrid.alpha_max_binary n p X z HX Hn Lz Hb ltac:(lia)) as (A & EA & MA). rewrite (share_clipped z Hsh) in MA.
    unfold class_Cs. rewrite EA. cbn [rmap]. intros E HC. apply ok_inj in E. subst Cs.
    assert (K : 0 < INR n) by (apply lt_0_INR; lia).
    assert (M0 : 0 <= M) by (eapply Rle_trans; [apply Rabs_pos|apply (HM 0%nat j0); lia]).
    set (s := Spec_Logistic.share z) in *.
    assert (Es : Sum n (fun i => INR (nth i z 0%nat)) = INR n * s).
    { rewrite (Proofs_LogisticGrid.sum_labels n z Lz Hb). unfold s, Spec_Logistic.share. rewrite Lz. field. lra. }
    assert (B : s * (Rabs (entry o j0) - M) <= Rabs (/ INR n * Sum n (fun i => INR (nth i z 0%nat) * mat X i j0))).
    { assert (D : / INR n * Sum n (fun i => INR (nth i z 0%nat) * mat X i j0) = s * entry o j0 + / INR n * Sum n (fun i => INR (nth i z 0%nat) * (mat X i j0 - entry o j0))).
      { rewrite (Sum_ext n (fun i => INR (nth i z 0%nat) * mat X i j0) (fun i => entry o j0 * INR (nth i z 0%nat) + INR (nth i z 0%nat) * (mat X i j0 - entry o j0))) by (intros; ring).
        rewrite (Sum_plus n (fun i => entry o j0 * INR (nth i z 0%nat)) (fun i => INR (nth i z 0%nat) * (mat X i j0 - entry o j0))), Sum_scal, Es. field. lra. }
      assert (F : Rabs (/ INR n * Sum n (fun i => INR (nth i z 0%nat) * (mat X i j0 - entry o j0))) <= s * M).
      { rewrite Rabs_mult, (Rabs_pos_eq (/ INR n)) by (left; now apply Rinv_0_lt_compat).
        apply (Rle_trans _ (/ INR n * (M * (INR n * s)))); [|right; field; lra]. apply Rmult_le_compat_l; [left; now apply Rinv_0_lt_compat|].
        eapply Rle_trans; [apply Sum_Rabs|]. rewrite <- Es, <- Sum_scal. apply Sum_le. intros i Hi. rewrite Rabs_mult, (Rabs_pos_eq (INR _)) by apply pos_INR.
        rewrite Rmult_comm. apply Rmult_le_compat_r; [apply pos_INR|]. now apply HM. }
      rewrite D. set (r := / INR n * Sum n (fun i => INR (nth i z 0%nat) * (mat X i j0 - entry o j0))) in *.
      pose proof (Rabs_triang_inv (s * entry o j0) (- r)) as I. replace (s * entry o j0 - - r) with (s * entry o j0 + r) in I by ring.
      rewrite Rabs_Ropp, Rabs_mult, (Rabs_pos_eq s) in I by lra. lra. }
    destruct MA as [U _]. specialize (U j0 Hj0). cbn beta in U.
    assert (GA : s * (1 - s) * (Rabs (entry o j0) - M) <= A) by nra.
    assert (P : 0 < eps * (s * (1 - s) * (Rabs (entry o j0) - M))) by lra.
    assert (PA : 0 < s * (1 - s) * (Rabs (entry o j0) - M)) by (apply (Rmult_lt_reg_l eps); lra).
    pose proof (grid_large A eps num C ltac:(lra) He HC) as L. nra.
  Qed.

  Lemma rows_far rows : (forall i, In i rows -> (i < n)%nat) ->
    (exists i, In i rows /\ nth i z 0%nat = 0%nat) -> (exists i, In i rows /\ nth i z 0%nat = 1%nat) ->
    let k := length rows in let Xr := samples X rows in let yr := part_y (map INR z) rows in
    (0 < k)%nat /\ (forall i, (i < k)%nat -> 0 <= entry yr i <= 1) /\ 0 < Sum k (fun i => entry yr i) < INR k /\
    (forall i j, (i < k)%nat -> (j < p)%nat -> Rabs (mat Xr i j - entry o j) <= M).
  Proof.
    intros Hr (i0 & I0 & Z0) (i1 & I1 & Z1) k Xr yr.
    assert (Hk : (0 < k)%nat) by (unfold k; destruct rows; [destruct I0|cbn; lia]).
    assert (Ey : forall i, (i < k)%nat -> entry yr i = INR (nth (nth i rows 0%nat) z 0%nat)).
    { intros i Hi. unfold yr, part_y, entry, k in *. rewrite (nth_indep _ 0 ((fun i => nth i (map INR z) 0) 0%nat)) by (rewrite map_length; exact Hi).
      rewrite (map_nth (fun i => nth i (map INR z) 0)). change 0 with (INR 0) at 1. apply map_nth. }
    assert (Hz : forall i, In i rows -> (nth i z 0 < 2)%nat) by (intros i Hi; rewrite Forall_forall in Hb; apply Hb, nth_In; rewrite Lz; now apply Hr).
    assert (By : forall i, (i < k)%nat -> 0 <= entry yr i <= 1).
    { intros i Hi. rewrite (Ey i Hi). pose proof (Hz _ (nth_In rows 0%nat Hi)) as B. destruct (nth (nth i rows 0%nat) z 0%nat) as [|[|?]]; [| |lia]; cbn [INR]; lra. }
    split; [exact Hk|]. split; [exact By|]. split.
    - destruct (In_nth _ _ 0%nat I0) as (a & Ha & Ea). destruct (In_nth _ _ 0%nat I1) as (b & Hb' & Eb). fold k in Ha, Hb'.
      assert (Ya : entry yr a = 0) by (rewrite (Ey a Ha), Ea, Z0; reflexivity). assert (Yb : entry yr b = 1) by (rewrite (Ey b Hb'), Eb, Z1; reflexivity).
      split.
      + apply (Rlt_le_trans _ (Sum k (fun q => if Nat.eqb q b then 1 else 0))).
        * pose proof (Sum_at k b (fun _ => 0) 1 Hb') as Ea'. cbn beta in Ea'. rewrite (Sum_zero k (fun _ => 0)) in Ea' by reflexivity. lra.
        * apply Sum_le. intros q Hq. destruct (Nat.eqb_spec q b) as [->|]; [lra|]. now apply By.
      + apply (Rle_lt_trans _ (Sum k (fun q => if Nat.eqb q a then 0 else 1))).
        * apply Sum_le. intros q Hq. destruct (Nat.eqb_spec q a) as [->|]; [lra|]. now apply By.
        * pose proof (Sum_at k a (fun _ => 1) 0 Ha) as Ea'. cbn beta in Ea'. rewrite Sum_const in Ea'. lra.
    - intros i j Hi Hj. assert (E : mat Xr i j = mat X (nth i rows 0%nat) j).
      { unfold mat, Xr, samples. rewrite (nth_indep _ [] (nth 0 X [])) by (rewrite map_length; exact Hi). rewrite (map_nth (fun i => nth i X [])). reflexivity. }
      rewrite E. apply HM; [apply Hr, nth_In; exact Hi|exact Hj].
  Qed.
End Far.

Lemma logistic_far metric target n p X (y : list Model_Labels.label) eps num clip ts (sel_lm : solver_C (N := Rnum)) (est_lm : solver_ml (N := Rnum)) (refit : refitter (N := Rnum)) sel est (o : list R) M j0 :
  let z := Model_Labels.codes y in
  matrix n p X -> (0 < n)%nat -> length z = n -> Forall (fun v => (v < 2)%nat) z -> est <> [] ->
  Spec_Logistic.tiny <= Spec_Logistic.share z <= 1 - Spec_Logistic.tiny -> 0 < eps <= 1 ->
  (forall i j, (i < n)%nat -> (j < p)%nat -> Rabs (mat X i j - entry o j) <= M) -> (j0 < p)%nat ->
  M < eps * (Spec_Logistic.share z * (1 - Spec_Logistic.share z) * (Rabs (entry o j0) - M)) ->
  (forall sp, In sp sel -> (forall i, In i (fst sp) -> (i < n)%nat) /\
     (exists i, In i (fst sp) /\ nth i z 0%nat = 0%nat) /\ (exists i, In i (fst sp) /\ nth i z 0%nat = 1%nat)) ->
  (forall t, In t ts -> (0 < t)%Z) ->
  (forall sp Cs (C : R), In sp sel -> class_Cs (N := Rnum) true p eps num X z = Ok Cs -> In C Cs ->
     let Xr := samples X (fst sp) in let yr := part_y (map INR z) (fst sp) in
     class_minimizer (length (fst sp)) p Xr yr (/ C) (sel_lm Xr yr C)) ->
  (forall Cs mask, class_Cs (N := Rnum) true p eps num X z = Ok Cs -> In mask (class_select (N := Rnum) p sel_lm ts Cs sel X z) ->
     forall j, (j < p)%nat -> nth j mask false = false) /\
  forall c b, class_fit (N := Rnum) false true eps num ts clip metric target p sel_lm est_lm refit sel est X y = Ok (c, b) -> c = repeat 0 p.
Proof.
  intros z HX Hn Lz Hb Hest Hsh He HM Hj0 Hfar Hsel Ht Hsol.
  assert (HS : forall Cs mask, class_Cs (N := Rnum) true p eps num X z = Ok Cs -> In mask (class_select (N := Rnum) p sel_lm ts Cs sel X z) ->
     forall j, (j < p)%nat -> nth j mask false = false).
  { intros Cs mask EC Hmask j Hj. revert mask Hmask. unfold class_select. rewrite numbers_R. apply (select_zero (fun _ => false)); [exact Hj| |].
    - intros t Hti. assert (F : filter (fun _ : Model_Fit.split => false) sel = []) by (clear; induction sel; [reflexivity|assumption]). rewrite F. now apply Ht.
    - intros sp q Hsp _ Hq. apply in_map_iff in Hq as (C & <- & HC). cbn [apply_params].
      pose proof (Hsol sp Cs C Hsp EC HC) as Hmin. cbv zeta in Hmin. destruct (Hsel sp Hsp) as (Hr & H0 & H1).
      destruct (rows_far n p X z o M j0 Hn Lz Hb HM Hj0 (fst sp) Hr H0 H1) as (Hk & By & Bs & BM).
      refine (minimizer_null (length (fst sp)) p _ _ o M Hk By Bs BM (/ C) _ j _ Hmin Hj).
      exact (far_grid n p X z o M eps num j0 HX Hn Lz Hb Hsh He HM Hj0 Hfar Cs C EC HC). }
  split; [exact HS|]. intros c b. unfold class_fit. fold z.
  change (map (base_transform (N := Rnum) false true (fit_scaler (columns p X))) X) with (map (fun x : list R => x) X). rewrite map_id.
  destruct (constant_response (numbers z)); cbn [bind].
  - intro E. apply ok_inj in E. unfold glm_post, base_post in E. cbn [fst snd] in E. injection E as <- _. reflexivity.
  - destruct (class_Cs _ _ _ _ _ _) as [Cs|] eqn:EC; cbn [bind]; [|discriminate].
    destruct (class_module _ _ _ _ _ _ _ _ _ _ _) as [[c0 b0]|] eqn:Em; cbn [bind]; [|discriminate]. intro E. apply ok_inj in E.
    unfold glm_post, base_post in E. cbn [fst snd] in E. injection E as <- _.
    assert (Q : forall j, (j < p)%nat -> length c0 = p /\ entry c0 j = 0).
    { intros j Hj. exact (class_module_zero est_lm refit clip metric target p true X y _ est c0 b0 j Hj Hest (fun mask Hm => HS Cs mask eq_refl Hm j Hj) Em). }
    apply (nth_ext _ _ 0 0); [rewrite repeat_length; apply (Q j0 Hj0)|]. intros j Hj. pose proof (proj1 (Q j0 Hj0)) as L0. rr. rewrite L0 in Hj.
    pose proof (entry_zeros p j) as Ez. unfold entry in Ez. rr. refine (eq_trans _ (eq_sym Ez)). exact (proj2 (Q j Hj)).
Qed.

(** ** A clock that tells the classes apart *)
(** The first feature is 1000 for the samples of class 0 and 1001 for those of class 1. *)
Definition clock_X : list (list R) := [[1000; 0]; [1001; 1]; [1000; 1]; [1001; 0]].
Definition clock_y : list Model_Labels.label := map label [0; 1; 0; 1]%nat.
Definition clock_split : list nat * list nat := ([0; 1; 2]%nat, [3]%nat).
Definition clock_sel : solver_C (N := Rnum) := fun X y C => (repeat 0 2, null_intercept (length y) y).

Lemma clock_matrix : matrix 4 2 clock_X.
Proof. split; [reflexivity|]. repeat constructor. Qed.
Lemma clock_codes : Model_Labels.codes clock_y = [0; 1; 0; 1]%nat.
Proof. reflexivity. Qed.
Lemma clock_near i j : (i < 4)%nat -> (j < 2)%nat -> Rabs (mat clock_X i j - entry [1000; 0] j) <= 1.
Proof.
  intros Hi Hj. apply Rabs_le. destruct i as [|[|[|[|i]]]]; [| | | |lia]; (destruct j as [|[|j]]; [| |lia]); unfold mat, entry; cbn; lra.
Qed.
Lemma clock_example num clip metric (est_lm : solver_ml (N := Rnum)) (refit : refitter (N := Rnum)) c b :
  class_fit (N := Rnum) false true (1 / 100) num [1%Z] clip metric 1 2 clock_sel est_lm refit [clock_split] [clock_split] clock_X clock_y = Ok (c, b) -> c = [0; 0].
Proof.
  assert (Sh : Spec_Logistic.share [0; 1; 0; 1]%nat = 1 / 2) by (unfold Spec_Logistic.share; cbn; field). pose proof Proofs_Logistic.tiny_pos as T.
  assert (T2 : Spec_Logistic.tiny <= 1 / 2) by (pose proof ten_share as Q; unfold Spec_Logistic.tiny in *; lra).
  assert (Hr : forall i, In i (fst clock_split) -> (i < 4)%nat) by (intros i Hi; cbn in Hi; lia).
  assert (H0 : exists i, In i (fst clock_split) /\ nth i [0; 1; 0; 1]%nat 0%nat = 0%nat) by (exists 0%nat; cbn; tauto).
  assert (H1 : exists i, In i (fst clock_split) /\ nth i [0; 1; 0; 1]%nat 0%nat = 1%nat) by (exists 1%nat; cbn; tauto).
  assert (Hb : Forall (fun v => (v < 2)%nat) [0; 1; 0; 1]%nat) by (repeat constructor).
  assert (Hfar : 1 < 1 / 100 * (Spec_Logistic.share [0; 1; 0; 1]%nat * (1 - Spec_Logistic.share [0; 1; 0; 1]%nat) * (Rabs (entry [1000; 0] 0) - 1))).
  { rewrite Sh. unfold entry. cbn [nth]. rewrite Rabs_pos_eq by lra. lra. }
  revert c b. refine (proj2 (logistic_far metric 1 4 2 clock_X clock_y (1 / 100) num clip [1%Z] clock_sel est_lm refit [clock_split] [clock_split] [1000; 0] 1 0 clock_matrix _ eq_refl Hb _ _ _ clock_near _ Hfar _ _ _)).
  - lia.
  - discriminate.
  - rewrite clock_codes, Sh. lra.
  - lra.
  - lia.
  - intros sp [<-|[]]. split; [exact Hr|]. split; assumption.
  - intros t [<-|[]]. reflexivity.
  - intros sp Cs C [<-|[]] EC HC. rewrite clock_codes in *.
    destruct (rows_far 4 2 clock_X [0; 1; 0; 1]%nat [1000; 0] 1 0 ltac:(lia) eq_refl Hb clock_near ltac:(lia) (fst clock_split) Hr H0 H1) as (Hk & By & Bs & BM).
    refine (null_minimizer (length (fst clock_split)) 2 _ _ [1000; 0] 1 Hk By Bs BM (/ C) _). left.
    refine (far_grid 4 2 clock_X [0; 1; 0; 1]%nat [1000; 0] 1 (1 / 100) num 0 clock_matrix _ eq_refl Hb _ _ clock_near _ Hfar Cs C EC HC); [lia|rewrite Sh; lra|lra|lia].
Qed.
