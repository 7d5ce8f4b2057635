(** Proofs about the estimation module, continued: fit on data without noise (C119). *)
From Coq Require Import ZArith String List Bool Arith Lia Reals Lra Psatz.
From Verif Require Import Prelude F64 Num Model_Fit Model_Scores Model_Rescale Model_Poisson Model_Linear Model_Estimation
  Spec_Rescale Proofs_Rescale Spec_Poisson Proofs_Poisson Proofs_PoissonOpt Spec_Linear Proofs_Linear
  Proofs_LinearUnits Spec_Estimation Proofs_Estimation Proofs_Estimation2.
Import ListNotations.
Local Open Scope R_scope.

(** ** A constant response *)
Lemma constant_spec (y : list R) : (0 < length y)%nat ->
  (constant_response (N := Rnum) y = true <-> exists a, forall i, (i < length y)%nat -> entry y i = a).
Proof.
  destruct y as [|a r]; cbn [length]; [lia|]. intros _. unfold constant_response. rewrite forallb_forall. split.
  - intro H. exists a. intros [|i] Hi; [reflexivity|].
    assert (In (entry r i) r) as Hin by (apply nth_In; lia). specialize (H _ Hin). cbn in H. unfold Reqb in H.
    destruct (Req_EM_T a (entry r i)) as [E|]; [symmetry; exact E|discriminate].
  - intros [v Hv] x Hx. destruct (In_nth _ _ 0 Hx) as (k & Hk & <-). cbn. unfold Reqb.
    pose proof (Hv 0%nat ltac:(lia)) as E0. pose proof (Hv (S k) ltac:(rr; lia)) as Ek. unfold entry in E0, Ek. cbn in E0, Ek.
    destruct (Req_EM_T a (nth k r 0)) as [|C]; [reflexivity|]. elim C. now rewrite E0, Ek.
Qed.

Lemma informative_pos has n p X beta supports sp : informative has n p X beta supports sp -> (0 < n)%nat.
Proof.
  intros (_ & H2 & _ & Ht & _). destruct (snd sp) as [|i l]; [cbn in H2; lia|]. specialize (Ht i (or_introl eq_refl)). lia.
Qed.

Section CoreFit.
  Variables (has : bool) (n p : nat) (X : list (list R)) (y beta : list R) (b : R).
  Variable ols : solver_ls (N := Rnum).
  Variables (supports : list (list bool)) (splits : list Model_Fit.split).
  Hypothesis HX : matrix n p X.
  Hypothesis HB : noiseless n p X y beta b.
  Hypothesis Hb : has = false -> b = 0.
  Hypothesis Hs : splits <> [].
  Hypothesis Hlen : forall mask, In mask supports -> length mask = p.
  Hypothesis Hinf : forall sp, In sp splits -> informative has n p X beta supports sp.
  Hypothesis Hls : forall sp mask, In sp splits -> In mask supports -> existsb (fun b => b) mask = true ->
    least_squares has (count (fun b => b) mask) (part X (fst sp) mask) (part_y y (fst sp)) (ols (part X (fst sp) mask) (part_y y (fst sp))).

  Lemma core_exact :
    (if constant_response (N := Rnum) y
     then Ok (repeat (nzero (N := Rnum)) p, linear_intercept (N := Rnum) has p X y (repeat (nzero (N := Rnum)) p))
     else estimation_module (N := Rnum) ols "r2"%string 1 p has X y supports splits) = Ok (beta, b).
  Proof.
    destruct splits as [|s0 l0] eqn:Es; [easy|]. rewrite <- Es in *. assert (H0 : In s0 splits) by (rewrite Es; now left).
    assert (Hn : (0 < n)%nat) by exact (informative_pos _ _ _ _ _ _ _ (Hinf s0 H0)).
    pose proof HB as (Lb & Ly & HY). assert (Ln : (0 < length y)%nat) by lia.
    destruct (constant_response (N := Rnum) y) eqn:Ec.
    - apply (proj1 (constant_spec y Ln)) in Ec as [a Ha].
      assert (Z : repeat 0 p = beta).
      { destruct (Hinf s0 H0) as (_ & _ & _ & Htest & Hid & mask & Hm & _).
        apply (list_eq_entries _ _ p (repeat_length 0 p) Lb). intros j Hj. rewrite entry_zeros. symmetry.
        apply (Hid mask Hm beta (b - a) Lb); [discriminate| | |exact Hj].
        - intros k _ NS. destruct (Req_EM_T (entry beta k) 0) as [E|E]; [exact E|]. elim NS. now right.
        - intros i Hi. pose proof (Htest i Hi) as Li. pose proof (HY i Li) as E1. rewrite (Ha i ltac:(lia)) in E1. unfold eta in *. lra. }
      exact (f_equal (@Ok (list R * R)) (f_equal2 pair Z (eq_trans (f_equal (linear_intercept (N := Rnum) has p X y) Z) (intercept_exact n p X y beta b has HX Hn HB Hb)))).
    - unfold estimation_module.
      assert (E : mapM (fun sp => let* out := mapM (estimate_support (N := Rnum) ols "r2"%string 1 p X y sp) supports in best_estimate out) splits
        = Ok (repeat beta (length splits))).
      { apply mapM_same. intros sp Hsp. destruct (Hinf sp Hsp) as (Hne & H2 & Htr & Hte & Hid & mask & Hm & Hcov & Hi).
        assert (Hcov' : forall j, nth j mask false = false -> entry beta j = 0).
        { intros j Hj. destruct (lt_dec j p) as [Lj|Lj].
          - destruct (Req_EM_T (entry beta j) 0) as [E|E]; [exact E|]. rewrite (Hcov j Lj E) in Hj. discriminate.
          - unfold entry. apply nth_overflow. lia. }
        apply (best_exact has n p X y beta b HX HB Hb ols sp Htr Hte H2 supports Hne Hlen).
        - intros m Hm'. exact (Hls sp m Hsp Hm').
        - exact Hid.
        - exists mask. repeat split; [exact Hm| |exact Hcov'|exact Hi].
          destruct (existsb (fun b : bool => b) mask) eqn:Em; [reflexivity|exfalso].
          assert (C : constant_response (N := Rnum) y = true); [|congruence]. apply (constant_spec y Ln). exists b.
          intros i Hi'. rewrite HY by lia. unfold eta. rewrite Sum_zero; [lra|]. intros j Hj.
          rewrite (Hcov' j (existsb_false_entries mask Em j)). ring. }
      rr. rewrite E. cbn [bind]. assert (Hl : (0 < length splits)%nat) by (rewrite Es; cbn; lia).
      rewrite (bagged_same p beta _ Hl Lb). f_equal. f_equal. exact (intercept_exact n p X y beta b has HX Hn HB Hb).
  Qed.
End CoreFit.

(** ** Standardization *)
Section Standardize.
  Variables (has : bool) (n p : nat) (X : list (list R)) (y : list R).
  Hypothesis HX : matrix n p X.
  Hypothesis Hn : (0 < n)%nat.
  Hypothesis Ly : length y = n.
  Let D := linear_pre (N := Rnum) true has p X y.
  Let sc j : R := column_scale (N := Rnum) (col n X j).
  Let ctr j : R := if has then average n (col n X j) else 0.
  Let sy : R := column_scale (N := Rnum) y.
  Let cy : R := if has then average n y else 0.

  Lemma sc_pos j : 0 < sc j.
  Proof. exact (scale_pos n (col n X j) Hn (length_col n X j)). Qed.
  Lemma sy_pos : 0 < sy.
  Proof. exact (scale_pos n y Hn Ly). Qed.

  Lemma pre_matrix : matrix n p (fst D).
  Proof.
    destruct HX as [L F]. unfold D, linear_pre. cbn [fst]. split; [now rewrite map_length|].
    rewrite Forall_map, Forall_forall in *. intros x Hx. rewrite (scaler_value n p X HX).
    apply length_transform; [apply length_means|apply length_scales|exact (F x Hx)].
  Qed.
  Lemma pre_length : length (snd D) = n.
  Proof. unfold D, linear_pre. cbn [snd]. rewrite map_length. exact Ly. Qed.
  Lemma pre_X i j : (i < n)%nat -> (j < p)%nat -> mat (fst D) i j = (mat X i j - ctr j) / sc j.
  Proof.
    intros Hi Hj. unfold D, linear_pre. cbn [fst]. rewrite (scaler_value n p X HX). unfold base_transform.
    set (f := transform (N := Rnum) _ _). unfold mat at 1. pose proof (row_length n p X i HX Hi) as Lr.
    rewrite (nth_indep _ [] (f [])) by (rewrite map_length; rewrite <- (proj1 HX) in Hi; exact Hi). rewrite (map_nth f).
    refine (eq_trans (transform_entry' p _ _ _ (length_means n p X) (scales_good n p X Hn) Lr has j Hj) _).
    rewrite entry_means, entry_scales by exact Hj. reflexivity.
  Qed.
  Lemma pre_y i : (i < n)%nat -> entry (snd D) i = (entry y i - cy) / sy.
  Proof.
    intro Hi. unfold D, linear_pre. cbn [snd].
    refine (eq_trans (entry_mapn (fun v : R => (if has then v - nmean (N := Rnum) y else v) / column_scale (N := Rnum) y) n y i Ly Hi) _).
    fold sy. unfold cy. f_equal. destruct has; [|ring]. f_equal. exact (mean_n n y Ly).
  Qed.

  (** A model of the standardized samples as a model of the raw ones. *)
  Definition raw_coef (c : list R) : list R := map (fun j => entry c j / sc j) (seq 0 p).
  Lemma length_raw c : length (raw_coef c) = p.
  Proof. unfold raw_coef. now rewrite map_length, seq_length. Qed.
  Lemma entry_raw c j : (j < p)%nat -> entry (raw_coef c) j = entry c j / sc j.
  Proof. exact (entry_mapseq (fun j => entry c j / sc j) p j). Qed.
  Lemma eta_raw c b i : (i < n)%nat ->
    eta p (fst D) c b i = eta p X (raw_coef c) (b - Sum p (fun j => ctr j * entry (raw_coef c) j)) i.
  Proof.
    intro Hi. unfold eta.
    rewrite (Sum_ext p (fun j => mat (fst D) i j * entry c j) (fun j => mat X i j * entry (raw_coef c) j - ctr j * entry (raw_coef c) j)).
    - rewrite Sum_minus. lra.
    - intros j Hj. rewrite (pre_X i j Hi Hj), (entry_raw c j Hj). unfold Rdiv. ring.
  Qed.
  Lemma no_center c : has = false -> Sum p (fun j => ctr j * entry (raw_coef c) j) = 0.
  Proof. intro E. apply Sum_zero. intros j Hj. unfold ctr. rewrite E. ring. Qed.

  Lemma identified_pre free S rows : (has = true -> free = true) -> (forall i, In i rows -> (i < n)%nat) ->
    identified p free S X rows -> identified p free S (fst D) rows.
  Proof.
    intros Hfree Hr HI c b Lc Hb HS HZ j Hj.
    assert (E : entry (raw_coef c) j = 0).
    { apply (HI (raw_coef c) (b - Sum p (fun j => ctr j * entry (raw_coef c) j)) (length_raw c)); [| | |exact Hj].
      - intro F. rewrite (Hb F). rewrite no_center; [ring|]. destruct has; [rewrite Hfree in F; [discriminate|reflexivity]|reflexivity].
      - intros k Hk NS. rewrite (entry_raw c k Hk), (HS k Hk NS). unfold Rdiv. ring.
      - intros i Hi. rewrite <- (eta_raw c b i (Hr i Hi)). exact (HZ i Hi). }
    rewrite (entry_raw c j Hj) in E. pose proof (sc_pos j) as P. unfold Rdiv in E. apply Rmult_integral in E as [E|E]; [exact E|].
    exfalso. apply (Rinv_neq_0_compat (sc j)); [lra|exact E].
  Qed.

  Variables (beta : list R) (b : R).
  Hypothesis HB : noiseless n p X y beta b.
  Hypothesis Hb : has = false -> b = 0.

  Definition std_beta : list R := map (fun j => sc j * entry beta j / sy) (seq 0 p).
  Definition std_b : R := (b + Sum p (fun j => ctr j * entry beta j) - cy) / sy.
  Lemma length_std : length std_beta = p.
  Proof. unfold std_beta. now rewrite map_length, seq_length. Qed.
  Lemma entry_std j : (j < p)%nat -> entry std_beta j = sc j * entry beta j / sy.
  Proof. exact (entry_mapseq (fun j => sc j * entry beta j / sy) p j). Qed.
  Lemma std_zero j : (j < p)%nat -> entry std_beta j <> 0 <-> entry beta j <> 0.
  Proof.
    intro Hj. rewrite (entry_std j Hj). pose proof (sc_pos j) as P1. pose proof sy_pos as P2. split; intros H E; apply H.
    - rewrite E. unfold Rdiv. ring.
    - assert (E2 : sc j * entry beta j / sy * sy / sc j = 0) by (rewrite E; unfold Rdiv; ring).
      rewrite <- E2. field. split; lra.
  Qed.
  Lemma noiseless_std : noiseless n p (fst D) (snd D) std_beta std_b.
  Proof.
    destruct HB as (Lb & _ & HY). split; [exact length_std|]. split; [exact pre_length|]. intros i Hi.
    pose proof sy_pos as P2. rewrite (pre_y i Hi), (HY i Hi). unfold eta, std_b.
    rewrite (Sum_ext p (fun j => mat (fst D) i j * entry std_beta j) (fun j => (mat X i j * entry beta j - ctr j * entry beta j) * / sy)).
    - rewrite Sum_scal_r, Sum_minus. field. lra.
    - intros j Hj. rewrite (pre_X i j Hi Hj), (entry_std j Hj). pose proof (sc_pos j). field. split; lra.
  Qed.
  Lemma std_b_zero : has = false -> std_b = 0.
  Proof.
    intro E. unfold std_b. rewrite (Hb E). unfold cy. rewrite E. rewrite Sum_zero; [unfold Rdiv; ring|].
    intros j Hj. unfold ctr. rewrite E. ring.
  Qed.

  Lemma informative_std supports sp : informative has n p X beta supports sp -> informative has n p (fst D) std_beta supports sp.
  Proof.
    intros (A1 & A2 & A3 & A4 & A5 & mask & M1 & M2 & M3). repeat split; try assumption.
    - intros m Hm. apply identified_pre; [reflexivity|exact A4|].
      intros c b0 Lc F HS. apply (A5 m Hm c b0 Lc F). intros j Hj NS. apply HS; [exact Hj|]. intros [H|H]; apply NS; [now left|right].
      exact (proj1 (std_zero j Hj) H).
    - exists mask. split; [exact M1|]. split; [intros j Hj NZ; apply (M2 j Hj), (proj1 (std_zero j Hj)), NZ|].
      apply identified_pre; [intro E; exact E|exact A3|exact M3].
  Qed.

  Lemma post_exact : linear_post (N := Rnum) true has (fit_scaler (columns p X)) (nmean y) (column_scale y) std_beta std_b = (beta, b).
  Proof.
    destruct HB as (Lb & _ & HY). rewrite (scaler_value n p X HX). fold sy.
    assert (Ec : map (fun v => v * sy) (map2 Rdiv std_beta (scales n p X)) = beta).
    { assert (L : length (map2 Rdiv std_beta (scales n p X)) = p) by (rewrite map2_length, length_std, length_scales; apply Nat.min_id).
      apply (list_eq_entries _ _ p); [rewrite map_length; exact L|exact Lb|]. intros j Hj.
      rewrite (entry_mapn (fun v => v * sy) p _ j L Hj), (entry_map2n Rdiv p _ _ j length_std (length_scales n p X) Hj).
      rewrite (entry_std j Hj), (entry_scales n p X j Hj). pose proof (sc_pos j) as P1. pose proof sy_pos as P2.
      change (column_scale (N := Rnum) (col n X j)) with (sc j). field. split; lra. }
    unfold linear_post, base_post. cbn [scale_ mean_].
    change (map (fun v : carrier Rnum => nmul v sy) (map2 ndiv std_beta (scales n p X))) with (map (fun v => v * sy) (map2 Rdiv std_beta (scales n p X))).
    rewrite Ec. f_equal. destruct (Bool.bool_dec has true) as [Eh|Eh];
      [|apply Bool.not_true_is_false in Eh; pose proof (std_b_zero Eh) as Z; rewrite Eh at 1; rewrite (Hb Eh); exact Z].
    rewrite Eh at 1.
    cbn [nadd nmul nsub Rnum]. rewrite (ndot_Sum (means n p X) beta) by (rewrite length_means; symmetry; exact Lb).
    rewrite length_means. rewrite (mean_n n y Ly : nmean (N := Rnum) y = _). fold (average n y). unfold std_b.
    assert (Ecy : cy = average n y) by (unfold cy; rewrite Eh; reflexivity). rewrite Ecy.
    rewrite (Sum_ext p (fun j => entry (means n p X) j * entry beta j) (fun j => ctr j * entry beta j)).
    - pose proof sy_pos as P2. rr. field. lra.
    - intros j Hj. rewrite (entry_means n p X j Hj). unfold ctr. rewrite Eh. reflexivity.
  Qed.
End Standardize.

(** fit on data without noise. *)
Lemma fit_exact standardize has n p X y beta b (ols : solver_ls (N := Rnum)) select splits :
  matrix n p X -> noiseless n p X y beta b -> (has = false -> b = 0) -> splits <> [] ->
  let D := linear_pre (N := Rnum) standardize has p X y in
  let supports := select (fst D) (snd D) in
  (forall mask, In mask supports -> length mask = p) ->
  (forall sp, In sp splits -> informative has n p X beta supports sp) ->
  (forall sp mask, In sp splits -> In mask supports -> existsb (fun b => b) mask = true ->
     least_squares has (count (fun b => b) mask) (part (fst D) (fst sp) mask) (part_y (snd D) (fst sp))
       (ols (part (fst D) (fst sp) mask) (part_y (snd D) (fst sp)))) ->
  regressor_fit (N := Rnum) standardize has "r2"%string 1 p ols select splits X y = Ok (beta, b).
Proof.
  intros HX HB Hb Hs D supports Hlen Hinf Hls. unfold regressor_fit. fold D.
  pose proof HB as (Lb & Ly & _). destruct standardize.
  - assert (Hn : (0 < n)%nat). { destruct splits as [|s0 l]; [easy|]. exact (informative_pos _ _ _ _ _ _ _ (Hinf s0 (or_introl eq_refl))). }
    pose proof (core_exact has n p (fst D) (snd D) (std_beta n p X y beta) (std_b has n p X y beta b) ols supports splits
      (pre_matrix has n p X y HX) (noiseless_std has n p X y HX Hn Ly beta b HB) (std_b_zero has n p X y beta b Hb) Hs Hlen
      (fun sp Hsp => informative_std has n p X y HX Hn Ly beta supports sp (Hinf sp Hsp)) Hls) as E.
    unfold supports in E. rr. rewrite E. cbn [bind fst snd]. f_equal.
    exact (post_exact has n p X y HX Hn Ly beta b HB Hb).
  - pose proof (core_exact has n p (fst D) (snd D) beta b ols supports splits) as E.
    assert (E1 : fst D = X) by (unfold D, linear_pre; cbn [fst]; unfold base_transform; apply map_id).
    assert (E2 : snd D = y) by reflexivity.
    rewrite E1, E2 in *. specialize (E HX HB Hb Hs Hlen Hinf Hls). unfold supports in E. rewrite E1, E2 in E. rr. rewrite E. reflexivity.
Qed.
