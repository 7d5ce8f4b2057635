(** Concrete fits for the theorems about the logistic solver path. *)
From Coq Require Import String ZArith List Bool Arith Reals Lra Lia.
From Verif Require Import Prelude F64 Num Model_Mpi Spec_Rescale Spec_Poisson Spec_Logistic Model_Poisson Model_Logistic Model_Lbfgs Spec_Lbfgs Model_LogisticFit Spec_LogisticFit
  Proofs_Rescale Proofs_LbfgsVec Proofs_LbfgsEx Proofs_LogisticAbandon.
Import ListNotations.

(** ** Runs in floating point *)

(** exp and ln as (1 + x/1024)^1024 and 1024 (y^(1/1024) - 1), rounded at every step. *)
Definition sq10 (x : f64) : f64 := Nat.iter 10 (fun v => fmul v v) x.
Definition rt10 (x : f64) : f64 := Nat.iter 10 fsqrt x.
Definition e64 (x : f64) : f64 := sq10 (fadd (f64_of_Z 1) (fdiv x (f64_of_Z 1024))).
Definition l64 (y : f64) : f64 := fmul (f64_of_Z 1024) (fsub (rt10 y) (f64_of_Z 1)).
Definition EN : NumOps := Fnum e64 l64.
Definition z64 (v : Z) : f64 := f64_of_Z v.
Definition tol64 : f64 := fdiv (z64 1) (z64 10000).

Lemma run_ok (r : option (unit * list (report EN) * outcome EN)) (P : list (report EN) -> outcome EN -> bool) :
  match r with Some (_, log, out) => P log out | None => false end = true -> exists log out, r = Some (tt, log, out) /\ P log out = true.
Proof. destruct r as [[[[] log] out]|]; [|discriminate]. intros H. now exists log, out. Qed.

(** One feature without intercept: the optimizer reaches 0.69 after four iterations. *)
Definition one_X : list (list f64) := [[z64 1]; [z64 2]; [z64 1]; [z64 (-1)]].
Definition one_y : list nat := [1; 1; 0; 0]%nat.
Definition ones4 : list f64 := repeat (z64 1) 4.
Definition big_coef (x : list f64) : bool := match x with [v] => fltb (fdiv (z64 69) (z64 100)) v | _ => false end.
Lemma one_ok : exists log out,
  recorded (N := EN) (l1_options (N := EN) (z64 10) tol64 100 1)
  (binary_objective (N := EN) 1 one_X (label_signs (N := EN) one_y) None ones4) None 100 40 tt [fzero] = Some (tt, log, out) /\
  (Nat.leb 2 (length log) && match out with Returned x None => big_coef x | _ => false end)%bool = true.
Proof. apply run_ok. vm_compute. reflexivity. Qed.

(** Two features without intercept: only the last one is needed. *)
Definition two_X : list (list f64) := [[z64 0; z64 1]; [z64 1; z64 2]; [z64 (-1); z64 1]; [z64 1; z64 (-1)]].
Definition last_coef (x : list f64) : bool :=
  match x with [u; v] => feqb u fzero && fltb (fdiv (z64 29) (z64 100)) v | _ => false end.
Lemma two_ok : exists log out,
  recorded (N := EN) (l1_options (N := EN) (z64 4) tol64 100 2)
  (binary_objective (N := EN) 2 two_X (label_signs (N := EN) one_y) None ones4) None 100 40 tt [fzero; fzero] = Some (tt, log, out) /\
  (ever (N := EN) 1 log && match out with Returned x None => last_coef x | _ => false end)%bool = true.
Proof. apply run_ok. vm_compute. reflexivity. Qed.
(** A smaller penalty needs both. *)
Definition both_coef (x : list f64) : bool :=
  match x with [u; v] => fltb (fdiv (z64 22) (z64 100)) u && fltb (fdiv (z64 72) (z64 100)) v | _ => false end.
Lemma two_more_ok : exists log out,
  recorded (N := EN) (l1_options (N := EN) (z64 10) tol64 100 2)
  (binary_objective (N := EN) 2 two_X (label_signs (N := EN) one_y) None ones4) None 100 40 tt [fzero; fzero] = Some (tt, log, out) /\
  (negb (ever (N := EN) 1 log) && match out with Returned x None => both_coef x | _ => false end)%bool = true.
Proof. apply run_ok. vm_compute. reflexivity. Qed.

(** Three classes, one feature, with intercepts. *)
Definition three_X : list (list f64) := [[z64 1]; [z64 2]; [z64 1]; [z64 (-1)]; [z64 0]].
Definition three_y : list nat := [1; 1; 2; 0; 2]%nat.
Definition low_intercept (x : list f64) : bool := fltb (nth 3 x fzero) (fdiv (z64 (-68)) (z64 100)).
Lemma three_ok : exists log out,
  recorded (N := EN) (l1_options (N := EN) (z64 1) tol64 100 3)
  (multi_objective (N := EN) 3 1 2 three_X (one_hot (N := EN) 3 three_y) None (repeat (z64 1) 5)) None 100 40 tt
  (repeat fzero 3 ++ multi_intercept (N := EN) 3 three_y) = Some (tt, log, out) /\
  (ever (N := EN) 3 log && match out with Returned x _ => low_intercept x | _ => false end)%bool = true.
Proof. apply run_ok. vm_compute. reflexivity. Qed.
Definition some_coef (x : list f64) : bool := fltb (nth 0 x fzero) (z64 (-1)).
Lemma three_more_ok : exists log out,
  recorded (N := EN) (l1_options (N := EN) (z64 10) tol64 100 3)
  (multi_objective (N := EN) 3 1 2 three_X (one_hot (N := EN) 3 three_y) None (repeat (z64 1) 5)) None 100 40 tt
  (repeat fzero 3 ++ multi_intercept (N := EN) 3 three_y) = Some (tt, log, out) /\
  (negb (ever (N := EN) 3 log) && match out with Returned x _ => some_coef x | _ => false end)%bool = true.
Proof. apply run_ok. vm_compute. reflexivity. Qed.

(** ** Runs in real numbers *)
Local Open Scope R_scope.

Ltac evx := cbv -[Rplus Rminus Rmult Rdiv Ropp Rabs IZR Rleb Rltb Reqb sqrt exp ln]; repeat decide_one; cbv beta iota zeta.

(** An optimizer started at a stationary point. *)
Lemma converge2 (f : objective Rnum nat) k (a b g0 g1 v : R) fuel lsfuel :
  f 0%nat [a; b] [0; 0] = (0%nat, (([a; b], [g0; g1]), Value (N := Rnum) v)) ->
  owlqn_pseudo_gradient (N := Rnum) [a; b] [g0; g1] 1 0 2 = [0; 0] ->
  l1_solve (N := Rnum) k 2 1 (1 / 1000) 100 f fuel lsfuel [a; b] = Some (Returned (N := Rnum) [a; b] None).
Proof.
  intros Hf Hg. unfold l1_solve, fmin_lbfgs.
  set (O := l1_options (N := Rnum) 1 (1 / 1000) 100 2).
  assert (Oc : o_c O = 1) by (unfold O; cbn; field).
  assert (E1 : nleb (@nzero Rnum) (o_c O) = true) by (apply Rleb_t; rewrite Oc; change (@nzero Rnum) with 0; lra).
  rewrite E1. cbn [negb].
  assert (E2 : choose_line_search O = ("wolfe"%string, false)).
  { unfold choose_line_search. assert (E : nltb (@nzero Rnum) (o_c O) = true) by (apply Rltb_t; rewrite Oc; change (@nzero Rnum) with 0; lra).
    rewrite E. reflexivity. }
  rewrite E2. cbn [fst]. replace (line_search_algo "wolfe") with (Some Wolfe) by reflexivity.
  set (P := to_params O Wolfe).
  assert (Eo : owl P = true) by (unfold owl; apply negb_true_iff, Reqb_f; change (p_c P) with (o_c O); rewrite Oc; change (@nzero Rnum) with 0; lra).
  unfold minimize, lbfgs.
  assert (E3 : check_params P (Z.of_nat (@length R [a; b])) = @inr Z (nat * nat) (0%nat, 2%nat)).
  { unfold check_params. cbv zeta. unfold P, O. ev. reflexivity. }
  match goal with |- context [check_params P ?n] => assert (E3' : check_params P n = @inr Z (nat * nat) (0%nat, 2%nat)) by exact E3; rewrite E3' end.
  change (p_m P <? 0)%Z with false. cbv zeta.
  set (s := init_state P f 0 2 0%nat ([a; b] : list Rnum)).
  assert (Ec : call_eval (N := Rnum) f 0%nat [a; b] [0; 0] = mkPoint (N := Rnum) 0%nat [a; b] [g0; g1] v)
    by (unfold call_eval; rewrite Hf; reflexivity).
  assert (Ex : pt_x (l_pt s) = [a; b]) by (exact (f_equal pt_x Ec)).
  assert (Est : pt_st (l_pt s) = 0%nat) by (exact (f_equal pt_st Ec)).
  assert (Eg : l_pg s = [0; 0]).
  { unfold s, init_state. cbn [l_pg]. rewrite Eo. rewrite <- Hg.
    transitivity (owlqn_pseudo_gradient (N := Rnum) [a; b] [g0; g1] (o_c O) 0 2); [|now rewrite Oc].
    exact (f_equal (fun pt : point Rnum nat => owlqn_pseudo_gradient (pt_x pt) (pt_g pt) (o_c O) 0 2) Ec). }
  rewrite Eo, Eg, Ex, Est.
  assert (En : vec2norm (N := Rnum) [0; 0] = 0) by (ev; reflexivity).
  match goal with |- context [converged P ?u ?w] => assert (Ev : converged P u w = true) end.
  { unfold converged. match goal with |- nleb (ndiv ?w _) _ = true => assert (En' : w = 0) by exact En; rewrite En' end.
    apply Rleb_t. unfold P, O. cbn. unfold Rdiv. rewrite Rmult_0_l. lra. }
  rewrite Ev. reflexivity.
Qed.

Lemma exp_ln2 : exp (ln 2) = 2.
Proof. apply exp_ln. lra. Qed.
Lemma exp_mln2 : exp (- ln 2) = / 2.
Proof. now rewrite exp_Ropp, exp_ln2. Qed.
Lemma ln2_pos : 0 < ln 2.
Proof. rewrite <- ln_1. apply ln_increasing; lra. Qed.

(** Two features, the second masked out; one sample of weight 3. *)
Definition bin_fit opt := fit_binary (N := Rnum) false false 2 1 (1 / 1000) 100 [[1; 1]] [1%nat] [3] (Some [1; 0]) (Some [ln 2; 5]) opt 9 9.
Lemma arg_ln2 : 1 * (1 * (ln 2 * 1) + (1 * (0 * 0) + 0) + 0) = ln 2.
Proof. ring. Qed.
Lemma bin_eval (st : nat) : exists v, binary_objective (N := Rnum) 2 [[1; 1]] (label_signs (N := Rnum) [1%nat]) (Some [1; 0]) [3] st [ln 2; 0] [0; 0]
  = (st, (([ln 2; 0], [-1; 0]), Value (N := Rnum) v)).
Proof.
  eexists. evx. rewrite arg_ln2, exp_mln2. 
  match goal with |- (_, ((?a, ?b), _)) = _ => assert (Ea : a = [ln 2; 0]); [|assert (Eb : b = [-1; 0]); [|rewrite Ea, Eb; reflexivity]] end.
  - f_equal; [ring|f_equal; ring].
  - f_equal; [field|f_equal; field].
Qed.
Lemma bin_pg : owlqn_pseudo_gradient (N := Rnum) [ln 2; 0] [-1; 0] 1 0 2 = [0; 0].
Proof. pose proof ln2_pos. evx. f_equal. ring. Qed.
Lemma bin_ok opt : bin_fit opt = Some (Fitted (N := Rnum) [[ln 2; 0]] [0] None).
Proof.
  unfold bin_fit, fit_binary. cbv zeta.
  assert (Es : binary_start (N := Rnum) false 2 (Some [1; 0]) (Some [ln 2; 5]) = Ok ([ln 2; 0] : list Rnum)).
  { evx. f_equal. f_equal; [ring|f_equal; ring]. }
  rewrite Es.
  assert (Et : to_optimize (N := Rnum) (Some [1; 0]) = true) by (evx; reflexivity).
  rewrite Et. cbn [negb]. destruct (bin_eval 0) as [v Hv].
  match goal with |- context [l1_solve ?k ?s ?c ?t ?m ?f ?u ?l ?w] =>
    assert (El : l1_solve k s c t m f u l w = Some (Returned (N := Rnum) [ln 2; 0] None)) by exact (converge2 _ 1 _ _ _ _ v 9 9 Hv bin_pg); rewrite El end.
  reflexivity.
Qed.

(** Two classes fitted as several; the coefficient of class 1 is masked out. *)
Definition mul_fit opt := fit_multi (N := Rnum) false false 2 1 1 (1 / 1000) 100 [[1]] [0%nat] [3] (Some [[1]; [0]]) (Some [[ln 2]; [7]]) opt 9 9.
Lemma soft_ln2 : exp (ln 2 - (ln (3 / 2) + ln 2)) = 2 / 3.
Proof.
  replace (ln 2 - (ln (3 / 2) + ln 2)) with (- ln (3 / 2)) by ring.
  rewrite exp_Ropp, exp_ln by lra. field.
Qed.
Lemma mul_eval (st : nat) : exists v, multi_objective (N := Rnum) 2 1 1 [[1]] (one_hot (N := Rnum) 2 [0%nat]) (Some [[1]; [0]]) [3] st [ln 2; 0] [0; 0]
  = (st, (([ln 2; 0], [-1; 0]), Value (N := Rnum) v)).
Proof. pose proof ln2_pos.
  eexists. evx.
  match goal with |- (_, ((?a, ?b), _)) = _ => assert (Ea : a = [ln 2; 0]); [|assert (Eb : b = [-1; 0]); [|rewrite Ea, Eb; reflexivity]] end.
  - f_equal; [ring|f_equal; ring].
  - f_equal; [|f_equal; ring].
    repeat match goal with |- context [exp ?a] =>
      match a with - ln 2 => fail 1 | 0 => fail 1 | ln 2 => fail 1 | context [exp _] => fail 1
      | _ => first [replace a with 0 by ring | replace a with (- ln 2) by ring] end end.
    rewrite exp_0, exp_mln2.
    replace (1 + (/ 2 + 0)) with (3 / 2) by field.
    match goal with |- context [exp ?a] => replace a with (ln 2 - (ln (3 / 2) + ln 2)) by ring end.
    rewrite soft_ln2. field.
Qed.
Lemma mul_ok opt : mul_fit opt = Some (Fitted (N := Rnum) [[ln 2]; [0]] [0; 0] None).
Proof.
  unfold mul_fit, fit_multi. cbv zeta.
  assert (Et : to_optimize (N := Rnum) (option_map (@concat R) (Some [[1]; [0]])) = true) by (evx; reflexivity).
  match goal with |- context [to_optimize ?m] => assert (Et' : to_optimize m = true) by exact Et; rewrite Et' end.
  match goal with |- context [transposed 2 _ (concat ?r)] => assert (Es : transposed (N := Rnum) 2 1 (concat r) = ([ln 2; 0] : list R)) end.
  { evx. f_equal; [ring|f_equal; ring]. }
  destruct (mul_eval 0) as [v Hv].
  match goal with |- context [l1_solve ?k ?s ?c ?t ?m ?f ?u ?l ?w] =>
    assert (El : l1_solve k s c t m f u l w = Some (Returned (N := Rnum) [ln 2; 0] None)) end.
  { etransitivity; [exact (f_equal (l1_solve _ _ _ _ _ _ _ _) Es)|]. exact (converge2 _ 2 _ _ _ _ v 9 9 Hv bin_pg). }
  rewrite El. reflexivity.
Qed.
