(** Scores of UoI_L1Logistic in floating point if no class is called like a code (C98). *)
From Coq Require Import String ZArith List Bool Arith Lia Floats.SpecFloat.
From Verif Require Import Prelude F64 F64Order Num Model_Intersection Model_Mpi Spec_Mpi Model_Fit Spec_Fit Proofs_FitFind
  Proofs_FitProps Proofs_FitDist Model_Scores Spec_Scores Proofs_FitMpi Proofs_FitRuns Proofs_FitSerial Proofs_Fit
  Model_Labels Proofs_Labels.
Import ListNotations.

(** ** Floats: classes that are not called like codes give the score 0 (or NaN) *)
Section FloatTies.
  Variables (exp64 ln64 : f64 -> f64).
  Let FN := Fnum exp64 ln64.
  Definition zn (x : f64) : Prop := match x with S754_zero _ | S754_nan => True | _ => False end.
  Lemma zn_mul_l x y : zn x -> zn (fmul x y).
  Proof. destruct x; intros []; destruct y; exact Logic.I. Qed.
  Lemma zn_add x y : zn x -> zn y -> zn (fadd x y).
  Proof. destruct x as [[]| | |]; intros []; destruct y as [[]| | |]; intros []; exact Logic.I. Qed.
  Lemma zn_opp x : zn x -> zn (fopp x).
  Proof. destruct x; intros []; exact Logic.I. Qed.
  Lemma zn_div x y : zn x -> zn (fdiv x y).
  Proof. destruct x; intros []; destruct y; exact Logic.I. Qed.
  Lemma zn_sum (l : list FN) : Forall zn l -> zn (nsum (N := FN) l).
  Proof. induction 1 as [|x l H _ IH]; [exact Logic.I|]. exact (zn_add _ _ H IH). Qed.
  Lemma map2_Forall {A B C} (f : A -> B -> C) (Q : C -> Prop) (U : A -> Prop) a b :
    Forall U a -> (forall x y, U x -> Q (f x y)) -> Forall Q (map2 f a b).
  Proof. intros H F. revert b. induction H as [|x a Hx _ IH]; intros [|y b]; cbn; constructor; auto. Qed.
  Lemma zn_loss (eps : FN) classes P y v : 3 <= length classes ->
    (forall c, c < length classes -> ~ In (LInt (Z.of_nat c)) classes) ->
    (forall c, In c y -> c < length classes) -> log_loss (N := FN) eps classes P y = Ok v -> zn v.
  Proof.
    intros Hk H Hy. unfold log_loss. destruct (negb _); [discriminate|]. destruct (Nat.eqb _ 1); [discriminate|].
    destruct (negb _); [discriminate|]. intro E. injection E as <-. unfold nmean. apply zn_div. apply zn_sum.
    apply map2_Forall with (U := fun r : list FN => Forall zn r).
    - apply Forall_forall. intros r Hr. apply in_map_iff in Hr as (c & <- & Hc). unfold binarized.
      rewrite (proj2 (Nat.eqb_neq (length classes) 2)) by lia. apply Forall_forall. intros x Hx.
      apply in_map_iff in Hx as (l & <- & Hl).
      assert (F : label_eqb l (of_code c) = false) by (apply label_eqb_neq; intros ->; exact (H c (Hy c Hc) Hl)).
      rewrite F. exact Logic.I.
    - intros r q Hr. apply zn_opp. apply zn_sum. apply map2_Forall with (U := zn); [exact Hr|].
      intros a b Ha. now apply zn_mul_l.
  Qed.
  Lemma zn_score (eps : FN) y pred prob target support sp v : 3 <= length (uoi_classes y) ->
    (forall c, c < length (uoi_classes y) -> ~ In (LInt (Z.of_nat c)) (uoi_classes y)) ->
    (forall i, In i (target_rows target sp) -> i < length y) ->
    logistic_score (N := FN) eps y pred prob "log" target support sp = Ok v -> zn v.
  Proof.
    intros Hk H Hr. unfold logistic_score, glm_score. change (("log" =? "acc")%string) with false.
    change (("log" =? "log")%string) with true. cbv iota.
    destruct (log_loss _ _ _ _) as [l|] eqn:E; cbn [bind]; [|discriminate]. intro X. injection X as <-.
    apply zn_opp. refine (zn_loss eps _ _ _ l Hk H _ E).
    intros c Hc. apply in_map_iff in Hc as (i & <- & Hi). apply codes_lt. apply nth_In. rewrite length_codes. auto.
  Qed.

  Context {S E Rng : Type}.
  Variables (env : np_env) (d : dims) (sol : nat -> solver S E) (draw : bool -> Rng -> result (split * Rng))
    (post : nd -> nd -> result (nd * nd)) (eps : FN) (y : list label) (target : nat)
    (pred : E -> list bool -> list nat -> list nat) (prob : E -> list bool -> list nat -> proba FN)
    (npred : E -> list nat -> list nat) (nprob : E -> list nat -> proba FN).
  Hypothesis (Hscore : forall i e mask sp, score (sol i) e mask sp
      = logistic_score (N := FN) eps y (pred e mask) (prob e mask) "log" target mask sp)
    (Hnull : forall i e sp, null_score (sol i) e sp
      = logistic_score (N := FN) eps y (npred e) (nprob e) "log" target (repeat false (n_feat d)) sp)
    (Hk : 3 <= length (uoi_classes y))
    (Hnames : forall c, c < length (uoi_classes y) -> ~ In (LInt (Z.of_nat c)) (uoi_classes y))
    (Hrows : forall b r sp r', draw b r = Ok (sp, r') -> forall i, In i (target_rows target sp) -> i < length y).

  Lemma drawn_rows b r sps r' : drawn draw b r sps r' -> forall sp, In sp sps ->
    forall i, In i (target_rows target sp) -> i < length y.
  Proof.
    induction 1 as [|r a r1 sps r2 HD _ IH]; intros sp Hsp; [destruct Hsp|].
    destruct Hsp as [<-|Hsp]; [exact (Hrows _ _ _ _ HD)|now apply IH].
  Qed.
  Lemma ties_first n R s0 F :
    1 <= n_boots_sel d -> (forall i, shapes_ok d (sol i)) ->
    2 <= List.length (thresholds d) * n_reg d -> 2 <= n_coef d ->
    returned env d sol draw post n false R s0 F ->
    exists sel p rows, f_sel F = Some sel /\ s_supports sel = Arr2 p rows /\
      forall b, b < n_boots_est d ->
      (forall j, j < List.length rows -> is_nan64 (at2 (s_scores sel) b j) = false) ->
      index_at (s_rp_max_idx sel) b = 0 /\
      forall j, j < List.length rows -> nonzero64 (at2 (s_scores sel) b j) = false.
  Proof.
    intros H1 H2 H3 H4 HR.
    destruct (estimates_provenance env d sol draw post H1 H2 n R s0 F H3 H4 HR)
      as (sel & p & rows & sps & r1 & sps2 & r2 & Es & Ep & D1 & L1 & D2 & Hest).
    destruct (best_support env d sol draw post H1 H2 n R s0 F HR)
      as (sel' & ns & coef & ic & Es' & Sh & She & _ & Hmax & _).
    rewrite Es in Es'. injection Es' as <-.
    assert (Ens : ns = List.length rows).
    { destruct (returned_step env d sol draw post H1 H2 _ _ _ _ HR)
        as (sel' & ns' & ? & ? & Es' & She' & _ & _ & _ & _ & _ & _ & _ & ? & ? & ? & ? & ? & _ & _ & _ & _ & _ & Hn & _).
      rewrite Es in Es'. injection Es' as <-. rewrite Ep in Hn. cbn in Hn. injection Hn as Hn.
      rewrite She in She'. congruence. }
    subst ns. exists sel, p, rows. do 2 (split; [assumption|]).
    intros b Hb Hnan. specialize (Hmax b Hb Hnan).
    assert (Hz : forall j, j < List.length rows -> exists s, at2 (s_scores sel) b j = S754_zero s).
    { intros j Hj.
      assert (Z : zn (at2 (s_scores sel) b j)).
      { assert (Hr : forall i, In i (target_rows target (nth b sps2 ([], []))) -> i < length y).
        { destruct (Nat.lt_ge_cases b (length sps2)) as [L|L].
          - apply (drawn_rows _ _ _ _ D2). now apply nth_In.
          - rewrite nth_overflow by exact L. unfold target_rows. destruct target; intros i []. }
        destruct (Hest b j Hb Hj) as (i & Hi & [(_ & e & _ & E2 & _)|(_ & e & _ & E2 & _)]).
        - rewrite Hscore in E2. exact (zn_score _ _ _ _ _ _ _ _ Hk Hnames Hr E2).
        - rewrite Hnull in E2. exact (zn_score _ _ _ _ _ _ _ _ Hk Hnames Hr E2). }
      specialize (Hnan j Hj). destruct (at2 (s_scores sel) b j); try destruct Z; [eauto|discriminate]. }
    split.
    - destruct Hmax as [Hlt Hmax]. rewrite map_length, seq_length in Hlt. rewrite map_length, seq_length in Hmax.
      destruct (Nat.eq_dec (index_at (s_rp_max_idx sel) b) 0) as [|N0]; [assumption|exfalso].
      assert (L0 : 0 < List.length rows) by lia. destruct (Hmax 0 L0) as [_ K]. specialize (K ltac:(lia)).
      rewrite !(nth_indep _ fnan (at2 (s_scores sel) b 0)) in K by (rewrite map_length, seq_length; lia).
      rewrite !map_nth, !seq_nth in K by assumption. cbn [Nat.add] in K.
      destruct (Hz 0 L0) as (s & Ez). destruct (Hz _ Hlt) as (s' & Ez').
      change (0 + index_at (s_rp_max_idx sel) b) with (index_at (s_rp_max_idx sel) b) in K.
      rewrite Ez, Ez' in K. discriminate K.
    - intros j Hj. destruct (Hz j Hj) as (s & ->). reflexivity.
  Qed.
End FloatTies.

(** ** A concrete fit with classes called a, b and c *)
Definition lab_num : NumOps := Fnum (fun x => x) (fun x => x).
Definition lab_dims : dims := mkDims 2 3 1 2 2 [1%Z] true true.
Definition lab_y : list label := [LStr "a"; LStr "b"; LStr "c"; LStr "a"].
Definition lab_draw (sel : bool) (r : nat) : result (split * nat) := Ok (([0; 1; 2; 3], [0; 1; 2; 3]), Datatypes.S r).
Definition lab_row (r : nat) : list f64 := if Nat.eqb r 0 then repeat fone 6 else [fzero; fone; fzero; fone; fzero; fone].
Definition half : f64 := fdiv fone ftwo.
Definition quarter : f64 := fdiv half ftwo.
(** With both features the model predicts the right classes; with one feature it is wrong
    for every sample. *)
Definition lab_prob (e : list f64) (mask : list bool) (rows : list nat) : proba lab_num :=
  if Nat.eqb (count (fun b => b) mask) 2
  then Proba2 (N := lab_num) 3 [[half; quarter; quarter]; [quarter; half; quarter]; [quarter; quarter; half]; [half; quarter; quarter]]
  else Proba2 (N := lab_num) 3 [[quarter; quarter; half]; [half; quarter; quarter]; [half; quarter; quarter]; [quarter; quarter; half]].
Definition lab_score (e : list f64) (mask : list bool) (sp : split) : result f64 :=
  logistic_score (N := lab_num) fzero lab_y (fun _ => []) (lab_prob e mask) "log" 1 mask sp.
Definition lab_solver : solver unit (list f64) :=
  mkSolver _ _ (fun s => s) (fun s regs train => Ok (s, map lab_row regs))
    (fun mask train => Ok (repeat fone (3 * count (fun b => b) mask))) (fun e => e) (fun train => Ok [])
    (fun e mask sp => lab_score e mask sp) (fun e sp => lab_score e (repeat false 2) sp)
    (fun c => Ok (nd_of_floats [3] [fone; fone; fone])).
Lemma lab_shapes : shapes_ok lab_dims lab_solver.
Proof.
  split.
  - intros s regs train s' rows H. cbn in H. injection H as <- <-. rewrite map_length. split; [reflexivity|].
    apply Forall_forall. intros x Hx. apply in_map_iff in Hx as (r & <- & _). unfold lab_row. now destruct (Nat.eqb r 0).
  - cbn. intros c a H. injection H as <-. repeat split. discriminate.
Qed.
Definition lab_fitted : fitted := ok_fit (fit ex_np lab_dims lab_solver lab_draw ex_post 1 0 false 0 tt).
Lemma lab_serial : fit ex_np lab_dims lab_solver lab_draw ex_post 1 0 false 0 tt = Done (Ok lab_fitted).
Proof. vm_compute. reflexivity. Qed.
