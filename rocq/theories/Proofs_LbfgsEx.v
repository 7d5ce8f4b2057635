(** Concrete runs of the optimizer over the reals, for the examples of Props_Lbfgs.v. *)
From Coq Require Import String ZArith List Bool Arith Reals Lra Lia.
From Verif Require Import Prelude Num Spec_Rescale Proofs_Rescale Model_Lbfgs Spec_Lbfgs Proofs_Lbfgs Proofs_LbfgsVec Proofs_LbfgsReal.
Import ListNotations.
Local Open Scope R_scope.

(** F(x) = x^2/2 in one variable. *)
Definition sq_F (x : list R) : R := entry x 0 * entry x 0 / 2.
Definition sq_f : objective Rnum unit := fun st x g => (st, (x, x, Value (N := Rnum) (sq_F x))).
Definition sq_options (c : R) (past : Z) (delta : R) (search : string) : options Rnum :=
  mkOptions (N := Rnum) c 0 (-1) 2 (1 / 100) past delta 0 search 20 (1 / 1000) 1000 (1 / 10) (9 / 10) (9 / 10) (1 / 1000).

Lemma sq_computes : computes 1 nowhere sq_f sq_F (fun x => x).
Proof. intros st x g Hx _. split; [reflexivity|]. split; [exact Hx|]. intros i C. discriminate. Qed.

Lemma sqrt_is a b : 0 <= b -> a = b * b -> sqrt a = b.
Proof. intros Hb ->. now apply sqrt_square. Qed.

Ltac decide_one :=
  match goal with
  | |- context [Rleb ?a ?b] => first [replace (Rleb a b) with true by (symmetry; apply Rleb_t; lra)
                                     |replace (Rleb a b) with false by (symmetry; apply Rleb_f; lra)]
  | |- context [Rltb ?a ?b] => first [replace (Rltb a b) with true by (symmetry; apply Rltb_t; lra)
                                     |replace (Rltb a b) with false by (symmetry; apply Rltb_f; lra)]
  | |- context [Reqb ?a ?b] => first [replace (Reqb a b) with true by (symmetry; apply Reqb_t; lra)
                                     |replace (Reqb a b) with false by (symmetry; apply Reqb_f; lra)]
  | |- context [sqrt ?a] => first [rewrite (sqrt_is a 0) by lra|rewrite (sqrt_is a 1) by lra|rewrite (sqrt_is a 2) by lra
                                  |rewrite (sqrt_is a 3) by lra|rewrite (sqrt_is a 4) by lra]
  | |- context [Rabs ?a] => first [rewrite (Rabs_right a) by lra|rewrite (Rabs_left a) by lra]
  end.
Ltac ev := cbv -[Rplus Rminus Rmult Rdiv Ropp Rabs IZR Rleb Rltb Reqb sqrt]; repeat decide_one; cbv beta iota zeta.
Ltac close := repeat (lra || f_equal).

Definition owl_O : options Rnum := sq_options 1 0 (1 / 100) "wolfe".
Definition owl_P : params Rnum := to_params owl_O Wolfe.
Notation logged := (unit * list (report Rnum))%type.
Definition owl_s1 : state Rnum logged :=
  mkState (N := Rnum) (St := logged) (mkPoint (N := Rnum) (tt, []) [2] [2] 4) [3] [-3] (1/3) 1 0 (repeat (blank 1) 2) [].


Definition owl_q1 : report Rnum := mkReport (N := Rnum) [1] [1] (3 / 2) 1 2 (1 / 3) 1 1.
Definition owl_q2 : report Rnum := mkReport (N := Rnum) [0] [0] 0 0 0 1 2 1.
Definition owl_s2 : state Rnum logged :=
  mkState (N := Rnum) (St := logged) (mkPoint (N := Rnum) (tt, [owl_q1]) [1] [1] (3 / 2)) [2] [-2] 1 2 1
    [mkCorr (N := Rnum) 2 [-1] [-1] 1; blank 1] [].

Lemma owl_init : init_state owl_P (keep_log sq_f) 0 1 (tt, []) [2] = owl_s1.
Proof. ev. close. Qed.

Lemma owl_is : owl owl_P = true.
Proof. ev. reflexivity. Qed.

Lemma owl_search1 : run_line_search owl_P (keep_log sq_f) 1 0 1 owl_s1 =
  Some (mkSearch (N := Rnum) (mkPoint (N := Rnum) (tt, []) [1] [1] (3 / 2)) (1 / 3) 1).
Proof.
  unfold run_line_search. rewrite owl_is. unfold line_search_owlqn, owl_s1. cbn [l_step l_pt l_d l_pg pt_x pt_f pt_st pt_g].
  match goal with |- context [nleb ?a ?b] => replace (nleb a b) with false by (symmetry; apply Rleb_f; ev; lra) end.
  cbv zeta. cbn [owlqn_loop].
  match goal with |- context [owlqn_project ?a ?b ?c ?d] => replace (owlqn_project a b c d) with ([1] : list Rnum) by (ev; close) end.
  cbv zeta. cbn [call_eval keep_log sq_f fst snd pt_x pt_f pt_st pt_g].
  match goal with |- context [nadd ?a ?b] => replace (nadd a b) with (3 / 2 : Rnum) by (ev; lra) end.
  match goal with |- context [nleb ?a ?b] => replace (nleb a b) with true by (symmetry; apply Rleb_t; ev; lra) end.
  reflexivity.
Qed.

Ltac ev_pg v := match goal with |- context [owlqn_pseudo_gradient ?a ?b ?c ?d ?e] =>
  replace (owlqn_pseudo_gradient a b c d e) with ([v] : list Rnum) by (ev; close) end.
Ltac ev_norm v w := 
  repeat match goal with |- context [vec2norm ?x] => first
    [replace (vec2norm x) with (v : Rnum) by (ev; close)|replace (vec2norm x) with (w : Rnum) by (ev; close)] end.

Lemma owl_after1 : after_step owl_P (Some (write_log None)) 0 1 owl_s1
    (mkSearch (N := Rnum) (mkPoint (N := Rnum) (tt, []) [1] [1] (3 / 2)) (1 / 3) 1) = Next owl_s2.
Proof.
  unfold after_step. rewrite owl_is. cbn [s_pt s_step s_ret pt_x pt_f pt_st pt_g].
  ev_pg 2. cbv zeta. ev_norm 1 2. cbn [call_progress write_log fst snd l_k owl_s1 Z.eqb negb app].
  match goal with |- context [converged ?a ?b ?c] => replace (converged a b c) with false by (symmetry; unfold converged; apply Rleb_f; ev; lra) end.
  cbn [p_past p_max_iterations p_m owl_P owl_O to_params sq_options o_past o_m o_max_iterations Z.to_nat Nat.ltb Nat.leb andb Z.eqb negb Pos.to_nat Pos.iter_op Nat.add Nat.eqb].
  f_equal. unfold next_state. cbv zeta. rewrite owl_is.
  match goal with |- context [constrain 0 1 ?d ?e] => replace (constrain 0 1 d e) with ([-2] : list Rnum) by (ev; close) end.
  ev. close.
Qed.

Lemma owl_search2 : run_line_search owl_P (keep_log sq_f) 1 0 1 owl_s2 =
  Some (mkSearch (N := Rnum) (mkPoint (N := Rnum) (tt, [owl_q1]) [0] [0] 0) 1 1).
Proof.
  unfold run_line_search. rewrite owl_is. unfold line_search_owlqn, owl_s2. cbn [l_step l_pt l_d l_pg pt_x pt_f pt_st pt_g].
  match goal with |- context [nleb ?a ?b] => replace (nleb a b) with false by (symmetry; apply Rleb_f; ev; lra) end.
  cbv zeta. cbn [owlqn_loop].
  match goal with |- context [owlqn_project ?a ?b ?c ?d] => replace (owlqn_project a b c d) with ([0] : list Rnum) by (ev; close) end.
  cbv zeta. cbn [call_eval keep_log sq_f fst snd pt_x pt_f pt_st pt_g].
  match goal with |- context [nadd ?a ?b] => replace (nadd a b) with (0 : Rnum) by (ev; lra) end.
  match goal with |- context [nleb ?a ?b] => replace (nleb a b) with true by (symmetry; apply Rleb_t; ev; lra) end.
  reflexivity.
Qed.

Lemma owl_after2 : after_step owl_P (Some (write_log None)) 0 1 owl_s2
    (mkSearch (N := Rnum) (mkPoint (N := Rnum) (tt, [owl_q1]) [0] [0] 0) 1 1) = Exit (Done (tt, [owl_q1; owl_q2]) [0] LBFGS_SUCCESS).
Proof.
  unfold after_step. rewrite owl_is. cbn [s_pt s_step s_ret pt_x pt_f pt_st pt_g].
  ev_pg 0. cbv zeta. ev_norm 0 0. cbn [call_progress write_log fst snd l_k owl_s2 Z.eqb negb app].
  match goal with |- context [converged ?a ?b ?c] => replace (converged a b c) with true by (symmetry; unfold converged; apply Rleb_t; ev; lra) end.
  reflexivity.
Qed.

Lemma owl_run : recorded owl_O sq_f None 2 1 tt [2] = Some (tt, [owl_q1; owl_q2], Returned [0] None).
Proof.
  unfold recorded, fmin_lbfgs.
  match goal with |- context [nleb ?a ?b] => replace (nleb a b) with true by (symmetry; apply Rleb_t; ev; lra) end.
  match goal with |- context [choose_line_search ?a] => replace (choose_line_search a) with ("wolfe"%string, false)
    by (unfold choose_line_search; cbn [owl_O sq_options o_line_search String.eqb]; ev; reflexivity) end.
  cbn [negb fst]. replace (line_search_algo "wolfe") with (Some Wolfe) by reflexivity. change (to_params owl_O Wolfe) with owl_P.
  unfold minimize, lbfgs.
  match goal with |- context [check_params ?a ?b] => replace (check_params a b) with (@inr Z (nat * nat) (0%nat, 1%nat)) end.
  2:{ unfold check_params. cbv zeta. ev. reflexivity. }
  change (p_m owl_P <? 0)%Z with false. cbv zeta. rewrite owl_init, owl_is.
  match goal with |- context [converged ?a ?b ?c] => replace (converged a b c) with false by (symmetry; unfold converged; apply Rleb_f; ev; lra) end.
  cbn [main_loop]. unfold iterate. rewrite owl_search1. cbn [s_ret]. change (1 <? 0)%Z with false. rewrite owl_after1.
  cbn [main_loop]. unfold iterate. rewrite owl_search2. cbn [s_ret]. change (1 <? 0)%Z with false. rewrite owl_after2. reflexivity.
Qed.

(** Without a penalty: x0 = 1, one step to the minimum. *)
Definition pl_O : options Rnum := sq_options 0 0 (1 / 100) "wolfe".
Definition pl_P : params Rnum := to_params pl_O Wolfe.
Definition pl_q : report Rnum := mkReport (N := Rnum) [0] [0] 0 0 0 1 1 1.
Definition pl_s : state Rnum logged :=
  mkState (N := Rnum) (St := logged) (mkPoint (N := Rnum) (tt, []) [1] [1] (1 / 2)) [] [-1] 1 1 0 (repeat (blank 1) 2) [].
Lemma pl_is : owl pl_P = false.
Proof. ev. reflexivity. Qed.
Lemma pl_init : init_state pl_P (keep_log sq_f) 0 1 (tt, []) [1] = pl_s.
Proof. ev. close. Qed.
Lemma pl_search : run_line_search pl_P (keep_log sq_f) 1 0 1 pl_s =
  Some (mkSearch (N := Rnum) (mkPoint (N := Rnum) (tt, []) [0] [0] 0) 1 1).
Proof.
  unfold run_line_search. rewrite pl_is. cbn [p_linesearch pl_P to_params]. unfold line_search_backtracking, pl_s. cbn [l_step l_pt l_d l_pg pt_x pt_f pt_st pt_g].
  match goal with |- context [nleb ?a ?b] => replace (nleb a b) with false by (symmetry; apply Rleb_f; ev; lra) end.
  cbv zeta.
  match goal with |- context [nltb ?a ?b] => replace (nltb a b) with false by (symmetry; apply Rltb_f; ev; lra) end.
  cbn [backtracking_loop].
  match goal with |- context [vecadd ?a ?b ?c] => replace (vecadd a b c) with ([0] : list Rnum) by (ev; close) end.
  cbv zeta. cbn [call_eval keep_log sq_f fst snd pt_x pt_f pt_st pt_g].
  ev. close.
Qed.
Lemma pl_after : after_step pl_P (Some (write_log None)) 0 1 pl_s
    (mkSearch (N := Rnum) (mkPoint (N := Rnum) (tt, []) [0] [0] 0) 1 1) = Exit (Done (tt, [pl_q]) [0] LBFGS_SUCCESS).
Proof.
  unfold after_step. rewrite pl_is. cbn [s_pt s_step s_ret pt_x pt_f pt_st pt_g].
  cbv zeta. ev_norm 0 0. cbn [call_progress write_log fst snd l_k pl_s Z.eqb negb app].
  match goal with |- context [converged ?a ?b ?c] => replace (converged a b c) with true by (symmetry; unfold converged; apply Rleb_t; ev; lra) end.
  reflexivity.
Qed.
Lemma pl_run : recorded pl_O sq_f None 1 1 tt [1] = Some (tt, [pl_q], Returned [0] None).
Proof.
  unfold recorded, fmin_lbfgs.
  match goal with |- context [nleb ?a ?b] => replace (nleb a b) with true by (symmetry; apply Rleb_t; ev; lra) end.
  match goal with |- context [choose_line_search ?a] => replace (choose_line_search a) with ("wolfe"%string, false)
    by (unfold choose_line_search; cbn [pl_O sq_options o_line_search String.eqb]; ev; reflexivity) end.
  cbn [negb fst]. replace (line_search_algo "wolfe") with (Some Wolfe) by reflexivity. change (to_params pl_O Wolfe) with pl_P.
  unfold minimize, lbfgs.
  match goal with |- context [check_params ?a ?b] => replace (check_params a b) with (@inr Z (nat * nat) (0%nat, 1%nat)) end.
  2:{ unfold check_params. cbv zeta. ev. reflexivity. }
  change (p_m pl_P <? 0)%Z with false. cbv zeta. rewrite pl_init, pl_is.
  match goal with |- context [converged ?a ?b ?c] => replace (converged a b c) with false by (symmetry; unfold converged; apply Rleb_f; ev; lra) end.
  cbn [main_loop]. unfold iterate. rewrite pl_search. cbn [s_ret]. change (1 <? 0)%Z with false. rewrite pl_after. reflexivity.
Qed.

(** The same objective from x0 = 4 with past = 1, delta = 10. *)
Definition de_O : options Rnum := sq_options 0 1 10 "wolfe".
Definition de_P : params Rnum := to_params de_O Wolfe.
Definition de_q : report Rnum := mkReport (N := Rnum) [3] [3] (9 / 2) 3 3 (1 / 4) 1 1.
Definition de_s : state Rnum logged :=
  mkState (N := Rnum) (St := logged) (mkPoint (N := Rnum) (tt, []) [4] [4] 8) [] [-4] (1 / 4) 1 0 (repeat (blank 1) 2) [8].
Lemma de_is : owl de_P = false.
Proof. ev. reflexivity. Qed.
Lemma de_init : init_state de_P (keep_log sq_f) 0 1 (tt, []) [4] = de_s.
Proof. ev. close. Qed.
Lemma de_search : run_line_search de_P (keep_log sq_f) 1 0 1 de_s =
  Some (mkSearch (N := Rnum) (mkPoint (N := Rnum) (tt, []) [3] [3] (9 / 2)) (1 / 4) 1).
Proof.
  unfold run_line_search. rewrite de_is. cbn [p_linesearch de_P to_params]. unfold line_search_backtracking, de_s. cbn [l_step l_pt l_d l_pg pt_x pt_f pt_st pt_g].
  match goal with |- context [nleb ?a ?b] => replace (nleb a b) with false by (symmetry; apply Rleb_f; ev; lra) end.
  cbv zeta.
  match goal with |- context [nltb ?a ?b] => replace (nltb a b) with false by (symmetry; apply Rltb_f; ev; lra) end.
  cbn [backtracking_loop].
  match goal with |- context [vecadd ?a ?b ?c] => replace (vecadd a b c) with ([3] : list Rnum) by (ev; close) end.
  cbv zeta. cbn [call_eval keep_log sq_f fst snd pt_x pt_f pt_st pt_g].
  ev. close.
Qed.
Lemma de_after : after_step de_P (Some (write_log None)) 0 1 de_s
    (mkSearch (N := Rnum) (mkPoint (N := Rnum) (tt, []) [3] [3] (9 / 2)) (1 / 4) 1) = Exit (Done (tt, [de_q]) [3] LBFGS_STOP).
Proof.
  unfold after_step. rewrite de_is. cbn [s_pt s_step s_ret pt_x pt_f pt_st pt_g].
  cbv zeta. ev_norm 3 3. cbn [call_progress write_log fst snd l_k de_s Z.eqb negb app].
  match goal with |- context [converged ?a ?b ?c] => replace (converged a b c) with false by (symmetry; unfold converged; apply Rleb_f; ev; lra) end.
  match goal with |- context [nltb ?a ?b] => replace (nltb a b) with true by (symmetry; apply Rltb_t; ev; lra) end.
  reflexivity.
Qed.
Lemma de_run : recorded de_O sq_f None 1 1 tt [4] = Some (tt, [de_q], Raises KeyError).
Proof.
  unfold recorded, fmin_lbfgs.
  match goal with |- context [nleb ?a ?b] => replace (nleb a b) with true by (symmetry; apply Rleb_t; ev; lra) end.
  match goal with |- context [choose_line_search ?a] => replace (choose_line_search a) with ("wolfe"%string, false)
    by (unfold choose_line_search; cbn [de_O sq_options o_line_search String.eqb]; ev; reflexivity) end.
  cbn [negb fst]. replace (line_search_algo "wolfe") with (Some Wolfe) by reflexivity. change (to_params de_O Wolfe) with de_P.
  unfold minimize, lbfgs.
  match goal with |- context [check_params ?a ?b] => replace (check_params a b) with (@inr Z (nat * nat) (0%nat, 1%nat)) end.
  2:{ unfold check_params. cbv zeta. ev. reflexivity. }
  change (p_m de_P <? 0)%Z with false. cbv zeta. rewrite de_init, de_is.
  match goal with |- context [converged ?a ?b ?c] => replace (converged a b c) with false by (symmetry; unfold converged; apply Rleb_f; ev; lra) end.
  cbn [main_loop]. unfold iterate. rewrite de_search. cbn [s_ret]. change (1 <? 0)%Z with false. rewrite de_after. reflexivity.
Qed.
