(** L1 and L2 logistic fits with the modified solver path: C38, C55, C91. *)
From Coq Require Import String ZArith List Bool Arith Reals Lra Lia.
From Verif Require Import Prelude F64 Num Spec_Rescale Spec_Poisson Spec_Logistic Model_Poisson Model_Logistic Model_Lbfgs Spec_Lbfgs
  Model_LogisticFit Spec_LogisticFit Proofs_LogisticAbandon Proofs_LogisticFit Proofs_LogisticOpt Proofs_LogisticMulti
  Proofs_LogisticLost Proofs_LbfgsEx Proofs_LogisticFitEx.
Import ListNotations.
Local Open Scope R_scope.

(** C38: L2 penalty, in any arithmetic and whatever scipy's optimizer returns. *)
Theorem C38_l2_binary : forall (N : NumOps) (has : bool) p (C tol : N) mi X y sw m coef opt fuel lsfuel cf b w,
  length m = p -> nnonzero (nsum m) = true ->
  fit_binary (N := N) true has p C tol mi X y sw (Some m) coef opt fuel lsfuel = Some (Fitted cf b w) ->
  length cf = 1%nat /\
  forall j, (j < p)%nat -> nnonzero (nth j m nzero) = false -> nth j (nth 0 cf []) nzero = nzero.
Proof. intros. eapply l2_binary_masked; eassumption. Qed.
Print Assumptions C38_l2_binary.

Theorem C38_l2_multi : forall (N : NumOps) (has : bool) k p (C tol : N) mi X y sw m coef opt fuel lsfuel cf b w,
  grid k p m -> nnonzero (nsum (concat m)) = true -> (0 < p)%nat -> warm_rows k p (p + if has then 1 else 0) coef ->
  fit_multi (N := N) true has k p C tol mi X y sw (Some m) coef opt fuel lsfuel = Some (Fitted cf b w) ->
  length cf = k /\
  forall c j, (c < k)%nat -> (j < p)%nat -> nnonzero (nth j (nth c m []) nzero) = false -> nth j (nth c cf []) nzero = nzero.
Proof. intros. eapply l2_multi_masked; eassumption. Qed.
Print Assumptions C38_l2_multi.

(** An instance in floating point: the "optimizer" returns its start plus one everywhere. *)
Example C38_l2_ex :
  fit_binary (N := EN) true true 2 (z64 1) tol64 100 two_X one_y ones4 (Some [z64 1; fzero]) (Some [z64 3; z64 4])
    (fun _ w => map (fun v => fadd v (z64 1)) w) 0 0 = Some (Fitted (N := EN) [[z64 4; fzero]] [z64 1] None) /\
  fit_multi (N := EN) true false 2 2 (z64 1) tol64 100 two_X one_y ones4 (Some [[z64 1; fzero]; [fzero; z64 1]]) None
    (fun _ w => map (fun _ => z64 5) w) 0 0 = Some (Fitted (N := EN) [[z64 5; fzero]; [fzero; z64 5]] [fzero; fzero] None).
Proof.
  split.
  - vm_cast_no_check (eq_refl (Some (Fitted (N := EN) [[z64 4; fzero]] [z64 1] None))).
  - vm_cast_no_check (eq_refl (Some (Fitted (N := EN) [[z64 5; fzero]; [fzero; z64 5]] [fzero; fzero] None))).
Qed.

(** Both penalties over the reals, with pyuoi's optimizer for L1. *)
Theorem C38_binary : forall p (l2 has : bool) (C tol : R) mi X y sw (m : list R) coef opt fuel lsfuel cf b wn,
  length m = p ->
  fit_binary (N := Rnum) l2 has p C tol mi X y sw (Some m) coef opt fuel lsfuel = Some (Fitted cf b wn) ->
  length cf = 1%nat /\ forall j, (j < p)%nat -> entry m j = 0 -> mat cf 0 j = 0.
Proof. intros. eapply binary_masked_fit; eassumption. Qed.
Print Assumptions C38_binary.

Theorem C38_multi : forall n k p (l2 has : bool) (C tol : R) mi X y sw m coef opt fuel lsfuel cf b wn,
  matrix n p X -> (0 < n)%nat -> length y = n -> length sw = n -> (0 < p)%nat ->
  mask_rows k p (Some m) -> warm_rows k p (p + if has then 1 else 0) coef ->
  fit_multi (N := Rnum) l2 has k p C tol mi X y sw (Some m) coef opt fuel lsfuel = Some (Fitted cf b wn) ->
  forall c j, (c < k)%nat -> (j < p)%nat -> mat m c j = 0 -> mat cf c j = 0.
Proof. intros. eapply multi_masked_fit; eassumption. Qed.
Print Assumptions C38_multi.

Example C38_ex : forall opt,
  fit_binary (N := Rnum) false false 2 1 (1 / 1000) 100 [[1; 1]] [1%nat] [3] (Some [1; 0]) (Some [ln 2; 5]) opt 9 9
    = Some (Fitted (N := Rnum) [[ln 2; 0]] [0] None) /\
  mask_rows 2 1 (Some [[1]; [0]]) /\
  fit_multi (N := Rnum) false false 2 1 1 (1 / 1000) 100 [[1]] [0%nat] [3] (Some [[1]; [0]]) (Some [[ln 2]; [7]]) opt 9 9
    = Some (Fitted (N := Rnum) [[ln 2]; [0]] [0; 0] None).
Proof.
  intros opt. split; [exact (bin_ok opt)|]. split; [|exact (mul_ok opt)].
  split; [split; [reflexivity|repeat constructor]|].
  intros [|[|c]] [|j] Hc Hj; try lia; unfold mat; cbn; auto.
Qed.

(** In floating point, two classes: a masked coefficient is a zero or (after an overflow)
    a NaN, never another number. *)
Theorem C38_floats : forall (exp64 ln64 : f64 -> f64) (l2 has : bool) p (C tol : f64) mi X y sw m coef opt fuel lsfuel cf b w,
  length m = p ->
  fit_binary (N := Fnum exp64 ln64) l2 has p C tol mi X y sw (Some m) coef opt fuel lsfuel = Some (Fitted cf b w) ->
  length cf = 1%nat /\ forall j, (j < p)%nat -> feqb (nth j m fzero) fzero = true ->
    feqb (nth j (nth 0 cf []) fzero) fzero = true \/ nth j (nth 0 cf []) fzero = fnan.
Proof. exact masked_floats. Qed.
Print Assumptions C38_floats.

Example C38_floats_ex : forall opt,
  match fit_binary (N := EN) false true 2 (z64 10) tol64 100 two_X one_y ones4 (Some [fzero; z64 1]) None opt 100 40 with
  | Some (Fitted [[u; v]] [b] None) => feqb u fzero && fltb fzero v && negb (feqb b fzero)
  | _ => false
  end%bool = true.
Proof. intros opt. vm_cast_no_check (eq_refl true). Qed.

(** C55: [recorded] gives the points reported by the same optimizer run without the
    callback.  If two consecutive ones have at most the last entry non-zero, the fit is all
    zero; otherwise it is what the optimizer returns.  The last entry is the intercept or,
    without an intercept, the last feature. *)
Theorem C55_binary : forall (N : NumOps) (has : bool) p (C tol : N) mi X y sw opt fuel lsfuel log out,
  @nmul N nzero nzero = nzero ->
  recorded (l1_options C tol mi p) (binary_objective (N := N) p X (label_signs y) None sw) None fuel lsfuel tt
    (repeat nzero (p + if has then 1 else 0)) = Some (tt, log, out) ->
  (twice_only_last 1 log ->
   fit_binary false has p C tol mi X y sw None None opt fuel lsfuel = Some (Fitted [repeat nzero p] [nzero] None)) /\
  (~ twice_only_last 1 log -> forall w c, out = Returned w c -> length w = (p + if has then 1 else 0)%nat ->
   fit_binary false has p C tol mi X y sw None None opt fuel lsfuel
     = Some (Fitted [firstn p w] [if has then nth p w nzero else nzero] c)).
Proof. intros. eapply binary_lost; eassumption. Qed.
Print Assumptions C55_binary.

(** Two features without intercept.  For C = 4 the optimizer returns (0, 0.29...), the fit
    (0, 0); for C = 10 both return (0.22..., 0.72...). *)
Example C55_ex :
  (exists log u v,
    recorded (N := EN) (l1_options (N := EN) (z64 4) tol64 100 2) (binary_objective (N := EN) 2 two_X (label_signs (N := EN) one_y) None ones4)
      None 100 40 tt [fzero; fzero] = Some (tt, log, Returned [u; v] None) /\
    twice_only_last (N := EN) 1 log /\ fltb (fdiv (z64 29) (z64 100)) v = true) /\
  (exists log u v,
    recorded (N := EN) (l1_options (N := EN) (z64 10) tol64 100 2) (binary_objective (N := EN) 2 two_X (label_signs (N := EN) one_y) None ones4)
      None 100 40 tt [fzero; fzero] = Some (tt, log, Returned [u; v] None) /\
    ~ twice_only_last (N := EN) 1 log /\ fltb (fdiv (z64 72) (z64 100)) v = true).
Proof.
  split.
  - destruct two_ok as (log & out & E & H). apply andb_prop in H. destruct H as [H1 H2].
    destruct out as [x [c|]| |]; try discriminate H2. destruct x as [|u [|v [|]]]; try discriminate H2.
    apply andb_prop in H2. exists log, u, v. split; [exact E|]. split; [apply ever_spec; exact H1|apply H2].
  - destruct two_more_ok as (log & out & E & H). apply andb_prop in H. destruct H as [H1 H2].
    destruct out as [x [c|]| |]; try discriminate H2. destruct x as [|u [|v [|]]]; try discriminate H2.
    apply andb_prop in H2. exists log, u, v. split; [exact E|]. split; [|apply H2].
    clear E. intros C. apply ever_spec in C. apply negb_true_iff in H1. congruence.
Qed.

(** A single feature without intercept: any fit of two or more iterations is zero. *)
Theorem C55_single : forall (N : NumOps) (C tol : N) mi X y sw opt fuel lsfuel log out,
  @nmul N nzero nzero = nzero ->
  recorded (l1_options C tol mi 1) (binary_objective (N := N) 1 X (label_signs y) None sw) None fuel lsfuel tt [nzero] = Some (tt, log, out) ->
  (2 <= length log)%nat ->
  fit_binary false false 1 C tol mi X y sw None None opt fuel lsfuel = Some (Fitted [[nzero]] [nzero] None).
Proof. intros. eapply single_lost; eassumption. Qed.
Print Assumptions C55_single.

(** The optimizer alone returns 0.69... *)
Example C55_single_ex : exists log v,
  recorded (N := EN) (l1_options (N := EN) (z64 10) tol64 100 1) (binary_objective (N := EN) 1 one_X (label_signs (N := EN) one_y) None ones4)
    None 100 40 tt [fzero] = Some (tt, log, Returned [v] None) /\
  (2 <= length log)%nat /\ fltb (fdiv (z64 69) (z64 100)) v = true.
Proof.
  destruct one_ok as (log & out & E & H). apply andb_prop in H. destruct H as [H1 H2].
  destruct out as [x [c|]| |]; try discriminate H2. destruct x as [|v [|]]; try discriminate H2.
  exists log, v. split; [exact E|]. split; [apply Nat.leb_le; exact H1|exact H2].
Qed.

(** Several classes: the last k entries; the optimizer starts from the intercepts of the
    null model, stored with the last feature if there is no intercept. *)
Theorem C55_multi : forall (N : NumOps) (has : bool) k p (C tol : N) mi X y sw opt fuel lsfuel log out,
  (0 < p)%nat ->
  let q := (p + if has then 1 else 0)%nat in
  let w0 := repeat nzero ((q - 1) * k) ++ multi_intercept k y in
  recorded (l1_options C tol mi (k * p)) (multi_objective (N := N) k p q X (one_hot k y) None sw) None fuel lsfuel tt w0 = Some (tt, log, out) ->
  (twice_only_last k log -> exists cf b,
   fit_multi false has k p C tol mi X y sw None None opt fuel lsfuel = Some (Fitted cf b None) /\
   laid_out has k p (map (fun v => nmul v nzero) w0) cf b) /\
  (~ twice_only_last k log -> forall w c, out = Returned w c -> exists cf b,
   fit_multi false has k p C tol mi X y sw None None opt fuel lsfuel = Some (Fitted cf b c) /\ laid_out has k p w cf b).
Proof. intros. eapply multi_lost; eassumption. Qed.
Print Assumptions C55_multi.

(** All of it zero unless the intercepts of the null model overflow. *)
Theorem C55_multi_zero : forall (N : NumOps) (has : bool) k p (C tol : N) mi X y sw opt fuel lsfuel log out,
  (0 < p)%nat -> @neqb N (nmul nzero nzero) nzero = true -> @neqb N nzero nzero = true ->
  Forall (fun v : N => neqb (nmul v nzero) nzero = true) (multi_intercept k y) ->
  let q := (p + if has then 1 else 0)%nat in
  recorded (l1_options C tol mi (k * p)) (multi_objective (N := N) k p q X (one_hot k y) None sw) None fuel lsfuel tt
    (repeat nzero ((q - 1) * k) ++ multi_intercept k y) = Some (tt, log, out) ->
  twice_only_last k log -> exists cf b,
  fit_multi false has k p C tol mi X y sw None None opt fuel lsfuel = Some (Fitted cf b None) /\
  grid k p cf /\ length b = k /\
  Forall (Forall (fun v : N => neqb v nzero = true)) cf /\ Forall (fun v : N => neqb v nzero = true) b.
Proof. intros. eapply multi_zero; eassumption. Qed.
Print Assumptions C55_multi_zero.

(** Three classes with intercepts.  For C = 1 the optimizer's first intercept is below
    -0.68, the fit's is zero; for C = 10 the fit is not abandoned. *)
Example C55_multi_ex :
  Forall (fun v : EN => neqb (nmul v nzero) nzero = true) (multi_intercept (N := EN) 3 three_y) /\
  (exists log w c,
    recorded (N := EN) (l1_options (N := EN) (z64 1) tol64 100 3) (multi_objective (N := EN) 3 1 2 three_X (one_hot (N := EN) 3 three_y) None (repeat (z64 1) 5))
      None 100 40 tt (repeat fzero 3 ++ multi_intercept (N := EN) 3 three_y) = Some (tt, log, Returned w c) /\
    twice_only_last (N := EN) 3 log /\ fltb (nth 3 w fzero) (fdiv (z64 (-68)) (z64 100)) = true) /\
  (exists log w c,
    recorded (N := EN) (l1_options (N := EN) (z64 10) tol64 100 3) (multi_objective (N := EN) 3 1 2 three_X (one_hot (N := EN) 3 three_y) None (repeat (z64 1) 5))
      None 100 40 tt (repeat fzero 3 ++ multi_intercept (N := EN) 3 three_y) = Some (tt, log, Returned w c) /\
    ~ twice_only_last (N := EN) 3 log /\ fltb (nth 0 w fzero) (z64 (-1)) = true).
Proof.
  split; [|split].
  - apply Forall_forall, (proj1 (forallb_forall (fun v : EN => neqb (nmul v nzero) nzero) _)). vm_cast_no_check (eq_refl true).
  - destruct three_ok as (log & out & E & H). apply andb_prop in H. destruct H as [H1 H2].
    destruct out as [x c| |]; try discriminate H2.
    exists log, x, c. split; [exact E|]. split; [apply ever_spec; exact H1|exact H2].
  - destruct three_more_ok as (log & out & E & H). apply andb_prop in H. destruct H as [H1 H2].
    destruct out as [x c| |]; try discriminate H2.
    exists log, x, c. split; [exact E|]. split; [|exact H2].
    clear E. intros C. apply ever_spec in C. apply negb_true_iff in H1. congruence.
Qed.

(** C91: an L1 fit that returns without a warning and is not all zero is optimal up to the
    tolerance, among all models with the same mask. *)
Theorem C91_binary : forall n p (has : bool) (C tol : R) mi X y sw (mask : option (list R)) coef opt fuel lsfuel c b,
  matrix n p X -> (0 < n)%nat -> length y = n -> length sw = n -> (forall i, (i < n)%nat -> 0 <= entry sw i) ->
  match mask with Some m => zero_one p m | None => True end ->
  fit_binary (N := Rnum) false has p C tol mi X y sw mask coef opt fuel lsfuel = Some (Fitted [c] [b] None) ->
  (exists j, (j < p)%nat /\ entry c j <> 0) ->
  forall c' b', length c' = p -> obeys p mask c' -> (has = false -> b' = 0) ->
  l1_loss n p X (signs y) sw (1 / C) c b - l1_loss n p X (signs y) sw (1 / C) c' b'
  <= tol * Rmax 1 (norm (S p) (c ++ [b])) * distance (S p) (c ++ [b]) (c' ++ [b']).
Proof. exact binary_gap. Qed.
Print Assumptions C91_binary.

Theorem C91_multi : forall n k p (has : bool) (C tol : R) mi X y sw (mask : option (list (list R))) coef opt fuel lsfuel cf b,
  matrix n p X -> (0 < n)%nat -> length y = n -> Forall (fun v => (v < k)%nat) y -> length sw = n ->
  (forall i, (i < n)%nat -> 0 <= entry sw i) -> (0 < p)%nat ->
  mask_rows k p mask -> warm_rows k p (p + if has then 1 else 0) coef ->
  fit_multi (N := Rnum) false has k p C tol mi X y sw mask coef opt fuel lsfuel = Some (Fitted cf b None) ->
  (exists c j, (c < k)%nat /\ (j < p)%nat /\ mat cf c j <> 0) ->
  forall cf' b', grid k p cf' -> length b' = k -> rows_obey k p mask cf' -> (has = false -> forall c, entry b' c = 0) ->
  l1_multi_loss n p k X (indicators k y) sw (1 / C) cf b - l1_multi_loss n p k X (indicators k y) sw (1 / C) cf' b'
  <= tol * Rmax 1 (norm (k * S p) (packed cf b)) * distance (k * S p) (packed cf b) (packed cf' b').
Proof. exact multi_gap. Qed.
Print Assumptions C91_multi.

(** The fits of [C38_ex], compared with the zero model. *)
Example C91_ex :
  l1_loss 1 2 [[1; 1]] (signs [1%nat]) [3] (1 / 1) [ln 2; 0] 0 - l1_loss 1 2 [[1; 1]] (signs [1%nat]) [3] (1 / 1) [0; 0] 0
  <= 1 / 1000 * Rmax 1 (norm 3 [ln 2; 0; 0]) * distance 3 [ln 2; 0; 0] [0; 0; 0] /\
  l1_multi_loss 1 1 2 [[1]] (indicators 2 [0%nat]) [3] (1 / 1) [[ln 2]; [0]] [0; 0]
    - l1_multi_loss 1 1 2 [[1]] (indicators 2 [0%nat]) [3] (1 / 1) [[0]; [0]] [0; 0]
  <= 1 / 1000 * Rmax 1 (norm 4 [ln 2; 0; 0; 0]) * distance 4 [ln 2; 0; 0; 0] [0; 0; 0; 0].
Proof.
  pose proof ln2_pos. set (opt := fun (_ : list R -> R * list R) (w : list R) => w).
  split.
  - refine (C91_binary 1 2 false 1 (1 / 1000) 100 [[1; 1]] [1%nat] [3] (Some [1; 0]) (Some [ln 2; 5]) opt 9 9 [ln 2; 0] 0
      _ _ eq_refl eq_refl _ _ (bin_ok opt) _ [0; 0] 0 eq_refl _ _).
    + split; [reflexivity|repeat constructor].
    + lia.
    + intros [|i] Hi; [|lia]. unfold entry. cbn. lra.
    + split; [reflexivity|]. intros [|[|j]] Hj; try lia; unfold entry; cbn; auto.
    + exists 0%nat. split; [lia|]. unfold entry. cbn. lra.
    + intros m _ [|[|j]] Hj _; try lia; reflexivity.
    + reflexivity.
  - refine (C91_multi 1 2 1 false 1 (1 / 1000) 100 [[1]] [0%nat] [3] (Some [[1]; [0]]) (Some [[ln 2]; [7]]) opt 9 9 [[ln 2]; [0]] [0; 0]
      _ _ eq_refl _ eq_refl _ _ (proj1 (proj2 (C38_ex opt))) _ (mul_ok opt) _ [[0]; [0]] [0; 0] _ eq_refl _ _).
    + split; [reflexivity|repeat constructor].
    + lia.
    + constructor; [lia|constructor].
    + intros [|i] Hi; [|lia]. unfold entry. cbn. lra.
    + lia.
    + left. split; [reflexivity|repeat constructor].
    + exists 0%nat, 0%nat. split; [lia|]. split; [lia|]. unfold mat, entry. cbn. lra.
    + split; [reflexivity|repeat constructor].
    + intros m _ [|[|c]] [|j] Hc Hj _; try lia; reflexivity.
    + intros _ [|[|[|c]]]; reflexivity.
Qed.
