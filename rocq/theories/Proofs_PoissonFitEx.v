(** Concrete fits for Props_PoissonFit.v. *)
From Coq Require Import String ZArith List Bool Arith Reals Lra Lia.
From Verif Require Import Prelude F64 Num Spec_Rescale Spec_Poisson Model_Refit Model_Poisson Model_Lbfgs Spec_Lbfgs Model_PoissonFit
  Proofs_Rescale Proofs_LbfgsVec Proofs_LbfgsEx Proofs_LogisticFitEx.
Import ListNotations.
Local Open Scope R_scope.

(** One feature and an intercept; the object is already at the solution. *)
Definition warm_cfg : config Rnum := mkConfig (N := Rnum) (1 / 2) 1 true false 100 (1 / 1000) true.
Definition warm_X : list (list R) := [[1]; [0]].
Definition warm_y : list R := [3; 0].
Definition warm_obj : poisson Rnum := mkPoisson (N := Rnum) (Some [ln 2]) (Some 0).

Lemma warm_eval : exists v, poisson_loss_and_grad (N := Rnum) 1 warm_X warm_y ((1 / 2) * (1 - 1)) None [ln 2; 0] = (v, [- (1 / 2); 0]).
Proof.
  eexists. unfold warm_X, warm_y. evx.
  repeat match goal with |- context [exp ?a] =>
    match a with ln 2 => fail 1 | 0 => fail 1 | _ => first [replace a with 0 by ring | replace a with (ln 2) by ring] end end.
  rewrite exp_0, exp_ln2.
  match goal with |- (_, ?b) = _ => assert (Eb : b = [- (1 / 2); 0]); [|rewrite Eb; reflexivity] end.
  f_equal; [field|f_equal; field].
Qed.
Lemma warm_pg : owlqn_pseudo_gradient (N := Rnum) [ln 2; 0] [- (1 / 2); 0] (1 / 2) 0 1 = [0; 0].
Proof. pose proof ln2_pos. evx. f_equal. field. Qed.

Lemma poisson_converge (f : list R -> R * list R) (a b g0 g1 v : R) l1 fuel lsfuel : l1 = 1 / 2 ->
  f [a; b] = (v, [g0; g1]) ->
  owlqn_pseudo_gradient (N := Rnum) [a; b] [g0; g1] (1 / 2) 0 1 = [0; 0] ->
  lbfgs_opt (N := Rnum) true (1 / 1000) 100 fuel lsfuel f [a; b] l1 1%nat = Ok [a; b].
Proof.
  intros -> Hf Hg. unfold lbfgs_opt, fmin_lbfgs.
  set (O := poisson_options (N := Rnum) (1 / 1000) 100 (1 / 2) 1).
  assert (Oc : o_c O = 1 / 2) by reflexivity.
  assert (E1 : nleb (@nzero Rnum) (o_c O) = true) by (apply Rleb_t; rewrite Oc; change (@nzero Rnum) with 0; lra).
  rewrite E1. cbn [negb].
  assert (E2 : choose_line_search O = ("wolfe"%string, false)).
  { unfold choose_line_search. assert (E : nltb (@nzero Rnum) (o_c O) = true) by (apply Rltb_t; rewrite Oc; change (@nzero Rnum) with 0; lra).
    rewrite E. reflexivity. }
  rewrite E2. cbn [fst]. replace (line_search_algo "wolfe") with (Some Wolfe) by reflexivity.
  set (P := to_params O Wolfe). set (fo := poisson_objective (N := Rnum) (St := unit) f).
  assert (Eo : owl P = true) by (unfold owl; apply negb_true_iff, Reqb_f; change (p_c P) with (o_c O); rewrite Oc; change (@nzero Rnum) with 0; lra).
  unfold minimize, lbfgs.
  assert (E3 : check_params P (Z.of_nat (@length R [a; b])) = @inr Z (nat * nat) (0%nat, 1%nat)).
  { unfold check_params. cbv zeta. unfold P, O. ev. reflexivity. }
  match goal with |- context [check_params P ?n] => assert (E3' : check_params P n = @inr Z (nat * nat) (0%nat, 1%nat)) by exact E3; rewrite E3' end.
  change (p_m P <? 0)%Z with false. cbv zeta.
  set (s := init_state P fo 0 1 tt ([a; b] : list Rnum)).
  assert (Ec : call_eval (N := Rnum) fo tt [a; b] [0; 0] = mkPoint (N := Rnum) tt [a; b] [g0; g1] v).
  { unfold call_eval, fo, poisson_objective. rewrite Hf. reflexivity. }
  assert (Ex : pt_x (l_pt s) = [a; b]) by (exact (f_equal pt_x Ec)).
  assert (Est : pt_st (l_pt s) = tt) by (exact (f_equal pt_st Ec)).
  assert (Eg : l_pg s = [0; 0]).
  { unfold s, init_state. cbn [l_pg]. rewrite Eo. rewrite <- Hg.
    exact (f_equal (fun pt : point Rnum unit => owlqn_pseudo_gradient (pt_x pt) (pt_g pt) (o_c O) 0 1) Ec). }
  rewrite Eo, Eg, Ex.
  assert (En : vec2norm (N := Rnum) [0; 0] = 0) by (ev; reflexivity).
  match goal with |- context [converged P ?u ?w] => assert (Ev : converged P u w = true) end.
  { unfold converged. match goal with |- nleb (ndiv ?w _) _ = true => assert (En' : w = 0) by exact En; rewrite En' end.
    apply Rleb_t. unfold P, O. cbn. unfold Rdiv. rewrite Rmult_0_l. lra. }
  rewrite Ev. reflexivity.
Qed.

Lemma warm_constant : constant_response (N := Rnum) warm_y = false.
Proof. unfold warm_y. ev. reflexivity. Qed.

Lemma warm_ok : poisson_fit (N := Rnum) warm_cfg Lbfgs (lbfgs_opt (N := Rnum) true (tol warm_cfg) (max_iter warm_cfg) 9 9) 1 warm_X warm_y None warm_obj
  = (warm_obj, Ok tt).
Proof.
  destruct warm_eval as [v Hv]. unfold poisson_fit. cbv zeta.
  match goal with |- context [constant_response (N := ?N0) ?l] => assert (Ec : constant_response (N := N0) l = false) by exact warm_constant; rewrite Ec end.
  change (fit_intercept warm_cfg) with true. cbv iota.
  match goal with |- context [lbfgs_opt (N := ?N0) ?w ?a ?b ?d ?e ?f ?g ?h ?i] => assert (Eo : lbfgs_opt (N := N0) w a b d e f g h i = Ok [ln 2; 0]) end.
  { apply (poisson_converge _ (ln 2) 0 (- (1 / 2)) 0 v); [cbn; rn; field|exact Hv|exact warm_pg]. }
  rewrite Eo. reflexivity.
Qed.

(** ** Fits in floating point *)
Definition dirty_cfg : config EN := mkConfig (N := EN) (fdiv (z64 1) (z64 8)) (z64 1) true false 100 tol64 true.
Definition dirty_fit : call (N := EN) := CallFit dirty_cfg [[z64 2]; [z64 0]; [z64 1]] [z64 8; z64 1; z64 2] None.
Definition dirty_opt : optimizer (N := EN) := lbfgs_opt (N := EN) false tol64 100 60 40.
Definition selects (o : poisson EN) : bool :=
  match coef_ o, intercept_ o with Some [v], Some b => fltb (fdiv (z64 1) (z64 2)) v | _, _ => false end.
