(** Concrete fits of MaskedCoefLogisticRegression for C100. *)
From Coq Require Import String ZArith List Bool Arith Reals Lra Lia.
From Verif Require Import Prelude F64 Num Model_Mpi Spec_Rescale Spec_Poisson Spec_Logistic Model_Poisson Model_Logistic Model_Lbfgs Spec_Lbfgs Model_LogisticFit Spec_LogisticFit
  Proofs_Rescale Proofs_LbfgsVec Proofs_LbfgsEx Proofs_LogisticAbandon Proofs_LogisticFitEx Model_Labels.
Import ListNotations.
Local Open Scope R_scope.

(** Two samples, labels "yes" and "no" (codes 1 and 0); a dictionary gives class 1 the weight 6. *)
Definition yn : list label := [LStr "yes"; LStr "no"].
Definition yn_X : list (list R) := [[1; 1]; [0; 0]].
Lemma yn_eval (st : nat) : exists v, binary_objective (N := Rnum) 2 yn_X (label_signs (N := Rnum) [1; 0]%nat) (Some [1; 0]) [6; 1] st [ln 2; 0] [0; 0]
  = (st, (([ln 2; 0], [-1; 0]), Value (N := Rnum) v)).
Proof.
  eexists. evx. rewrite arg_ln2, exp_mln2.
  match goal with |- (_, ((?a, ?b), _)) = _ => assert (Ea : a = [ln 2; 0]); [|assert (Eb : b = [-1; 0]); [|rewrite Ea, Eb; reflexivity]] end.
  - f_equal; [ring|f_equal; ring].
  - f_equal; [field|f_equal; field]; match goal with |- 1 + exp ?a <> 0 => pose proof (exp_pos a); lra end.
Qed.
Lemma yn_ok opt : masked_fit (N := Rnum) false false false 2 (Num (N := Rnum) 1) (Num (N := Rnum) (1 / 1000)) (Num (N := Rnum) 100) 100
  (CWDict [(LInt 1, 6)]) yn_X yn None (Some [[1; 0]]) (Some [[ln 2; 5]]) opt 9 9
  = Some (mkMasked (Some [LInt 0; LInt 1]) (Fitted (N := Rnum) [[ln 2; 0]] [0] None)).
Proof.
  unfold masked_fit.
  assert (R1 : rejected (N := Rnum) (Num (N := Rnum) 1) = false) by (unfold rejected; apply Rltb_f; change (@nzero Rnum) with 0; lra).
  assert (R2 : rejected (N := Rnum) (Num (N := Rnum) 100) = false) by (unfold rejected; apply Rltb_f; change (@nzero Rnum) with 0; lra).
  assert (R3 : rejected (N := Rnum) (Num (N := Rnum) (1 / 1000)) = false) by (unfold rejected; apply Rltb_f; change (@nzero Rnum) with 0; lra).
  rewrite R1, R2, R3. cbn [orb]. change (masked_classes yn) with [LInt 0; LInt 1]. change (codes yn) with [1; 0]%nat.
  cbv zeta. cbn [length Nat.ltb Nat.leb orb].
  assert (Ew : Model_Labels.weights (N := Rnum) false (CWDict [(LInt 1, 6)]) [1; 0]%nat None = Ok ([6; 1] : list Rnum)).
  { cbv -[Rplus Rminus Rmult Rdiv Ropp IZR]. f_equal. f_equal; [ring|f_equal; ring]. }
  rewrite Ew.
  assert (Ef : fit_binary (N := Rnum) false false 2 1 (1 / 1000) 100 yn_X [1; 0]%nat [6; 1] (Some [1; 0]) (Some [ln 2; 5]) opt 9 9 = Some (Fitted (N := Rnum) [[ln 2; 0]] [0] None)).
  { unfold fit_binary. cbv zeta.
    assert (Es : binary_start (N := Rnum) false 2 (Some [1; 0]) (Some [ln 2; 5]) = Ok ([ln 2; 0] : list Rnum)).
    { evx. f_equal. f_equal; [ring|f_equal; ring]. }
    rewrite Es.
    assert (Et : to_optimize (N := Rnum) (Some [1; 0]) = true) by (evx; reflexivity).
    rewrite Et. cbn [negb]. destruct (yn_eval 0) as [v Hv].
    match goal with |- context [l1_solve ?k ?s ?c ?t ?m ?f ?u ?l ?w] =>
      assert (El : l1_solve k s c t m f u l w = Some (Returned (N := Rnum) [ln 2; 0] None)) by exact (converge2 _ 1 _ _ _ _ v 9 9 Hv bin_pg); rewrite El end.
    reflexivity. }
  exact (f_equal (option_map (mkMasked (Some [LInt 0; LInt 1]))) Ef).
Qed.

(** The same two samples fitted as several classes, one feature, the coefficient of class 1 masked out. *)
Definition ab : list label := [LStr "a"; LStr "b"].
Definition ab_X : list (list R) := [[1]; [0]].
Lemma ab_eval (st : nat) : exists v, multi_objective (N := Rnum) 2 1 1 ab_X (one_hot (N := Rnum) 2 [0; 1]%nat) (Some [[1]; [0]]) [6; 1] st [ln 2; 0] [0; 0]
  = (st, (([ln 2; 0], [-1; 0]), Value (N := Rnum) v)).
Proof. pose proof ln2_pos.
  eexists. evx.
  match goal with |- (_, ((?a, ?b), _)) = _ => assert (Ea : a = [ln 2; 0]); [|assert (Eb : b = [-1; 0]); [|rewrite Ea, Eb; reflexivity]] end.
  - f_equal; [ring|f_equal; ring].
  - f_equal; [|f_equal; ring].
    match goal with |- context [0 * (1 * ?t) + 0] => replace (0 * (1 * t) + 0) with 0 by ring end.
    repeat match goal with |- context [exp ?a] =>
      match a with - ln 2 => fail 1 | 0 => fail 1 | ln 2 => fail 1 | context [exp _] => fail 1
      | _ => first [replace a with 0 by ring | replace a with (- ln 2) by ring] end end.
    rewrite exp_0, exp_mln2.
    replace (1 + (/ 2 + 0)) with (3 / 2) by field.
    match goal with |- context [exp ?a] => replace a with (ln 2 - (ln (3 / 2) + ln 2)) by ring end.
    rewrite soft_ln2. field.
Qed.
Lemma ab_ok opt : masked_fit (N := Rnum) false false true 1 (Num (N := Rnum) 1) (Num (N := Rnum) (1 / 1000)) (Num (N := Rnum) 100) 100
  (CWDict [(LInt 0, 6)]) ab_X ab None (Some [[1]; [0]]) (Some [[ln 2]; [7]]) opt 9 9
  = Some (mkMasked (Some [LInt 0; LInt 1]) (Fitted (N := Rnum) [[ln 2]; [0]] [0; 0] None)).
Proof.
  unfold masked_fit.
  assert (R1 : rejected (N := Rnum) (Num (N := Rnum) 1) = false) by (unfold rejected; apply Rltb_f; change (@nzero Rnum) with 0; lra).
  assert (R2 : rejected (N := Rnum) (Num (N := Rnum) 100) = false) by (unfold rejected; apply Rltb_f; change (@nzero Rnum) with 0; lra).
  assert (R3 : rejected (N := Rnum) (Num (N := Rnum) (1 / 1000)) = false) by (unfold rejected; apply Rltb_f; change (@nzero Rnum) with 0; lra).
  rewrite R1, R2, R3. cbn [orb]. change (masked_classes ab) with [LInt 0; LInt 1]. change (codes ab) with [0; 1]%nat.
  cbv zeta. cbn [length Nat.ltb Nat.leb orb].
  assert (Ew : Model_Labels.weights (N := Rnum) true (CWDict [(LInt 0, 6)]) [0; 1]%nat None = Ok ([6; 1] : list Rnum)).
  { cbv -[Rplus Rminus Rmult Rdiv Ropp IZR]. f_equal. f_equal; [ring|f_equal; ring]. }
  rewrite Ew.
  assert (Ef : fit_multi (N := Rnum) false false 2 1 1 (1 / 1000) 100 ab_X [0; 1]%nat [6; 1] (Some [[1]; [0]]) (Some [[ln 2]; [7]]) opt 9 9 = Some (Fitted (N := Rnum) [[ln 2]; [0]] [0; 0] None)).
  { unfold fit_multi. cbv zeta.
    assert (Et : to_optimize (N := Rnum) (option_map (@concat R) (Some [[1]; [0]])) = true) by (evx; reflexivity).
    match goal with |- context [to_optimize ?m] => assert (Et' : to_optimize m = true) by exact Et; rewrite Et' end.
    match goal with |- context [transposed 2 _ (concat ?r)] => assert (Es : transposed (N := Rnum) 2 1 (concat r) = ([ln 2; 0] : list R)) end.
    { evx. f_equal; [ring|f_equal; ring]. }
    destruct (ab_eval 0) as [v Hv].
    match goal with |- context [l1_solve ?k ?s ?c ?t ?m ?f ?u ?l ?w] =>
      assert (El : l1_solve k s c t m f u l w = Some (Returned (N := Rnum) [ln 2; 0] None)) end.
    { etransitivity; [exact (f_equal (l1_solve _ _ _ _ _ _ _ _) Es)|]. exact (converge2 _ 2 _ _ _ _ v 9 9 Hv bin_pg). }
    rewrite El. reflexivity. }
  exact (f_equal (option_map (mkMasked (Some [LInt 0; LInt 1]))) Ef).
Qed.
