(** Classification data with a single feature, in binary64 (C96). *)
From Coq Require Import ZArith List Bool Arith Reals Lia Lra Floats.SpecFloat.
From Flocq Require Import Core.Core IEEE754.BinarySingleNaN.
From Verif Require Import F64 F64Facts Prelude Num Model_Logistic Model_Datasets Proofs_CurMain.
Import ListNotations.
Local Open Scope Z_scope.

Definition is_zero64 (x : f64) : bool := match x with S754_zero _ => true | _ => false end.

Lemma rval_small x : valid64 x = true -> (Rabs (rval x) < fmax64)%R.
Proof. intro H. destruct (valid64_B2SF x H) as [b <-]. rewrite rval_B2SF. apply abs_B2R_lt_emax. Qed.

Lemma fdiv_one x : valid64 x = true -> is_finite64 x = true ->
  rval (fdiv x fone) = rval x /\ is_finite64 (fdiv x fone) = true /\ valid64 (fdiv x fone) = true.
Proof.
  intros V F. assert (V1 : valid64 fone = true) by apply f64_of_Z_valid.
  destruct (f64_of_Z_correct 1) as (R1 & _); [cbn; lia|].
  assert (VD := fdiv_valid x fone V V1).
  destruct (valid64_B2SF x V) as [b Eb]. destruct (valid64_B2SF fone V1) as [o Eo].
  assert (Ro : B2R o = 1%R) by (rewrite <- rval_B2SF, Eo; exact R1).
  pose proof (rval_small x V) as S. pose proof (rnd64_rval x V) as RR.
  rewrite <- Eb, <- Eo in *. rewrite fdiv_B2SF in *. rewrite !rval_B2SF in *. rewrite !is_finite64_B2SF in *.
  assert (N : B2R o <> 0%R) by (rewrite Ro; lra).
  generalize (Bdiv_correct prec64 emax64 _ _ mode_NE b o N). simpl round_mode. rewrite Ro. unfold Rdiv at 1 2. rewrite Rinv_1, Rmult_1_r.
  change (round radix2 (SpecFloat.fexp prec64 emax64) ZnearestE (B2R b)) with (rnd64 (B2R b)). rewrite RR.
  rewrite Rlt_bool_true by exact S. intros (A & B & _). rewrite A, B. now split.
Qed.

Lemma finite_zero x : is_finite64 x = true -> rval x = 0%R -> is_zero64 x = true.
Proof.
  destruct x as [s|s| |s m e]; intros F E; try discriminate; [reflexivity|]. exfalso. revert E. unfold rval. cbn.
  unfold F2R. cbn. intro E. apply Rmult_integral in E. destruct E as [E|E].
  - apply eq_IZR in E. destruct s; discriminate.
  - pose proof (bpow_gt_0 radix2 e). lra.
Qed.

Lemma fsub_equal x y : valid64 x = true -> valid64 y = true -> is_finite64 x = true -> is_finite64 y = true ->
  rval x = rval y -> is_zero64 (fsub x y) = true.
Proof.
  intros V W F G E. 
  destruct (valid64_B2SF x V) as [b Eb]. destruct (valid64_B2SF y W) as [o Eo].
  rewrite <- Eb, <- Eo in *. rewrite fsub_B2SF. rewrite !rval_B2SF in E. rewrite !is_finite64_B2SF in *.
  generalize (Bminus_correct prec64 emax64 _ _ mode_NE b o F G). simpl round_mode. rewrite E, Rminus_diag_eq by reflexivity.
  rewrite round_0 by apply valid_rnd_N. rewrite Rabs_R0.
  rewrite Rlt_bool_true by apply bpow_gt_0. intros (A & B & _).
  apply finite_zero; [now rewrite is_finite64_B2SF|now rewrite rval_B2SF].
Qed.

Section Row.
  Variables exp64 ln64 : f64 -> f64.
  Local Notation FN := (Fnum exp64 ln64).

  Lemma mean_zero a : is_zero64 a = true -> is_zero64 (nmean (N := FN) [a]) = true.
  Proof. destruct a as [[]| | |]; try discriminate; intros _; vm_compute; reflexivity. Qed.
  Lemma sub_zero a b : is_zero64 a = true -> is_zero64 b = true -> is_zero64 (fsub a b) = true.
  Proof. destruct a as [[]| | |]; try discriminate; destruct b as [[]| | |]; try discriminate; reflexivity. Qed.
  Lemma square_zero a : is_zero64 a = true -> is_zero64 (fmul a a) = true.
  Proof. destruct a as [[]| | |]; try discriminate; reflexivity. Qed.
  Lemma var_zero a : is_zero64 a = true -> is_zero64 (nvar (N := FN) [a]) = true.
  Proof. intro H. unfold nvar. cbn [map]. apply mean_zero, square_zero, sub_zero; [exact H|now apply mean_zero]. Qed.
  Lemma quot_zero a b : is_zero64 a = true -> is_zero64 b = true -> fdiv a (fsqrt b) = fnan.
  Proof. destruct a as [[]| | |]; try discriminate; destruct b as [[]| | |]; try discriminate; reflexivity. Qed.

  (** The centred single entry is a zero or NaN. *)
  Lemma centred x : valid64 x = true ->
    let c := fsub x (nmean (N := FN) [x]) in is_zero64 c = true \/ c = fnan.
  Proof.
    intro V. cbv zeta. change (nmean (N := FN) [x]) with (fdiv (fadd x fzero) fone).
    destruct x as [s|s| |s m e].
    - left. destruct s; vm_compute; reflexivity.
    - right. destruct s; vm_compute; reflexivity.
    - right. reflexivity.
    - left. change (fadd (S754_finite s m e) fzero) with (S754_finite s m e).
      destruct (fdiv_one (S754_finite s m e) V eq_refl) as (A & B & C).
      apply fsub_equal; try assumption; [reflexivity|]. now symmetry.
  Qed.

  Lemma single_row x : valid64 x = true -> standardize_row (N := FN) [x] = [fnan].
  Proof.
    intro V. unfold standardize_row. cbn [map].
    change (nsub (n := FN) x (nmean (N := FN) [x])) with (fsub x (nmean (N := FN) [x])).
    destruct (centred x V) as [Z|E].
    - exact (f_equal (fun a => [a]) (quot_zero _ _ Z (var_zero _ Z))).
    - rewrite E. reflexivity.
  Qed.

  Definition single (l : list f64) : Prop := exists x, l = [x] /\ valid64 x = true.

  Lemma single_rows (X : list (list f64)) : Forall single X ->
    map (standardize_row (N := FN)) X = repeat [fnan] (length X).
  Proof.
    induction 1 as [|r X (x & -> & V) _ IH]; [reflexivity|]. cbn [map length repeat]. now rewrite IH, single_row.
  Qed.

  Hypothesis exp_nan : exp64 fnan = fnan.

  Lemma fadd_nl x : fadd fnan x = fnan. Proof. reflexivity. Qed.
  Lemma fadd_nr x : fadd x fnan = fnan. Proof. destruct x as [[]|[]| |[]]; reflexivity. Qed.

  Lemma sigmoid_nan : sigmoid (N := FN) fnan = fnan.
  Proof.
    unfold sigmoid, logaddexp. exact exp_nan.
  Qed.

  Lemma score_nan z shared w ic include (d : class_draws FN) :
    nth 0 (class_scores (N := FN) (class_coef (N := FN) 1 1 z shared w d) ic include [fnan]) (@nzero FN) = fnan.
  Proof. destruct include; reflexivity. Qed.

  Lemma mapM_head {A B} (f : A -> result B) x l e : f x = Raise e -> mapM f (x :: l) = Raise e.
  Proof. intro H. cbn [mapM]. now rewrite H. Qed.

  Lemma single_feature_raises k n_classes shared w include (d : class_draws FN) bern multi :
    (n_classes <= 2) -> (2 <= length (c_X d))%nat -> Forall single (c_X d) ->
    make_classification (N := FN) 1 k n_classes shared w include d bern multi = Raise ValueError.
  Proof.
    intros Hc Hn HX. unfold make_classification. rewrite (proj2 (Z.ltb_ge 2 n_classes)) by lia. cbv zeta.
    rewrite (single_rows (c_X d) HX), repeat_length.
    set (coef := class_coef (N := FN) 1 1 (Z.of_nat 1 - k) true w d).
    set (ic := (if include then c_int d else [@nzero FN]) : list FN).
    assert (G : forall m, (2 <= m)%nat ->
      (if Nat.eqb m 1 then Raise TypeError else
       let* y := mapM (fun i => binomial (N := FN) bern i
          (sigmoid (N := FN) (nth 0 (class_scores (N := FN) coef ic include (nth i (repeat [fnan] m) [])) (@nzero FN))))
          (seq 0 m) in Ok (mkClassification (N := FN) (repeat [fnan] m) y coef ic)) = Raise ValueError).
    { intros [|[|m]] Hm; [lia|lia|]. cbn [Nat.eqb seq]. erewrite mapM_head; [reflexivity|].
      refine (eq_trans (f_equal (fun q => binomial (N := FN) bern 0 (sigmoid (N := FN) q)) (score_nan _ _ _ _ _ _)) _).
      rewrite sigmoid_nan. reflexivity. }
    exact (G _ Hn).
  Qed.

  Lemma single_feature k n_classes shared w include (d : class_draws FN) bern multi :
    Forall single (c_X d) ->
    (forall r, make_classification (N := FN) 1 k n_classes shared w include d bern multi = Ok r ->
       k_X r = repeat [fnan] (length (c_X d))) /\
    (n_classes <= 2 -> (2 <= length (c_X d))%nat ->
       make_classification (N := FN) 1 k n_classes shared w include d bern multi = Raise ValueError).
  Proof.
    intro HX. split; [|intros Hc Hn; now apply single_feature_raises].
    intros r E. assert (Q : k_X r = map (standardize_row (N := FN)) (c_X d)).
    { revert E. unfold make_classification. cbv zeta. destruct (2 <? n_classes).
      - destruct (mapM _ _) as [y|e]; [|discriminate]. cbn [bind]. intro E.
        exact (eq_sym (f_equal (fun q => match q with Ok v => k_X v | _ => [] end) E)).
      - destruct (Nat.eqb _ _); [discriminate|].
        destruct (mapM _ _) as [y|e]; [|discriminate]. cbn [bind]. intro E.
        exact (eq_sym (f_equal (fun q => match q with Ok v => k_X v | _ => [] end) E)). }
    exact (eq_trans Q (single_rows (c_X d) HX)).
  Qed.
End Row.
