(** C128: swapping the two classes of UoI_L1Logistic. *)
From Coq Require Import ZArith String List Bool Arith Lia Reals Lra.
From Verif Require Import Prelude Num Model_Intersection Model_Fit Model_Refit Model_Rescale Model_Poisson Model_Linear Model_Estimation Model_Selection Model_ClassFit
  Spec_Rescale Spec_Poisson Spec_Linear Spec_Estimation Spec_Choice Spec_Units Spec_ClassFit
  Proofs_ClassFit Proofs_ClassFit2 Proofs_ClassFit3 Proofs_ClassFit4 Proofs_ClassFit5 Proofs_ClassFit6.
From Verif Require Proofs_LogisticGrid Proofs_Logistic Model_Logistic Model_Labels Spec_Logistic.
Import ListNotations.
Local Open Scope R_scope.

(** When both codings of the classes get the same penalties, fitting the swapped classes
    selects the same supports and returns the opposite coefficients and intercept. *)
Theorem C128_swap : forall standardize n p X (y y2 : list Model_Labels.label) eps num (Cs : list R) ts clip target
    (sel_lm : solver_C (N := Rnum)) (est_lm : solver_ml (N := Rnum)) (refit : refitter (N := Rnum)) sel est,
  let z := Model_Labels.codes y in
  matrix n p X -> length z = n -> Forall (fun v => (v < 2)%nat) z -> In 0%nat z -> In 1%nat z ->
  Model_Labels.codes y2 = map other z -> ts <> [] -> Cs <> [] -> est <> [] ->
  let Xs := map (base_transform (N := Rnum) standardize true (fit_scaler (columns p X))) X in
  class_Cs (N := Rnum) true p eps num Xs z = Ok Cs -> class_Cs (N := Rnum) true p eps num Xs (map other z) = Ok Cs ->
  (forall sp (C : R), In sp sel -> In C Cs ->
     let Xr := samples Xs (fst sp) in let yr := part_y (map INR z) (fst sp) in let k := length (fst sp) in
     (forall i, In i (fst sp) -> (i < n)%nat) /\ clear_classes k p Xr yr (/ C) /\
     class_minimizer k p Xr yr (/ C) (sel_lm Xr yr C) /\
     class_minimizer k p Xr (swapped yr) (/ C) (sel_lm Xr (swapped yr) C)) ->
  let supports := class_select (N := Rnum) p sel_lm ts Cs sel Xs z in
  (forall sp, In sp est -> decisive n Xs z est_lm target supports sp) ->
  (forall c (w : list nat), length c = p -> w = z \/ w = map other z -> matching_intercept n p Xs (map INR w) c (refit Xs c w)) ->
  class_select (N := Rnum) p sel_lm ts Cs sel Xs (map other z) = supports /\
  exists c b,
    class_fit (N := Rnum) standardize true eps num ts clip "acc" target p sel_lm est_lm refit sel est X y = Ok (c, b) /\
    class_fit (N := Rnum) standardize true eps num ts clip "acc" target p sel_lm est_lm refit sel est X y2 = Ok (opposite c, - b).
Proof. exact class_swapped. Qed.
Print Assumptions C128_swap.

(** Twelve samples, two features of which one is informative: the hypotheses hold and the
    fit keeps the informative feature. *)
Example C128_swap_ex : exists b,
  class_fit (N := Rnum) false true (1 / 2) 1 [1%Z; 2%Z] (1 / 100) "acc" 1 2 group_sel group_est (exact_refit 2) [ten_split; ten_four] [ten_split] ten_X (map label ten_z) = Ok ([ln 6 / 2; 0], b) /\
  class_fit (N := Rnum) false true (1 / 2) 1 [1%Z; 2%Z] (1 / 100) "acc" 1 2 group_sel group_est (exact_refit 2) [ten_split; ten_four] [ten_split] ten_X (map label (map other ten_z)) = Ok ([- (ln 6 / 2); -0], - b).
Proof. exact (ten_fit (1 / 100)). Qed.

(** The intercept the last step is to find exists for any coefficients, and is only one. *)
Theorem C128_intercept : forall n p X (y c : list R), (0 < n)%nat -> 1 <= Sum n (entry y) <= INR n - 1 ->
  exists b, matching_intercept n p X y c b /\ forall b', matching_intercept n p X y c b' -> b' = b.
Proof.
  intros n p X y c Hn Hy. destruct (intercept_exists n p X y c Hn Hy) as [b Hb].
  exists b. split; [exact Hb|]. intros b' Hb'. exact (intercept_unique n p X y c b' b Hn Hb' Hb).
Qed.
Print Assumptions C128_intercept.

Example C128_intercept_ex : 1 <= Sum 2 (entry [0; 1]) <= INR 2 - 1.
Proof. unfold Sum, entry. cbn [seq map fold_right nth INR]. lra. Qed.

(** With centered features the largest penalty of one coding is that of the other times the
    odds of the classes, so the lists of penalties agree exactly for balanced classes or
    features without any relation to them. *)
Theorem C128_penalties : forall n p X (y : list nat), matrix n p X -> (0 < n)%nat -> (0 < p)%nat -> length y = n -> Forall (fun v => (v < 2)%nat) y ->
  Spec_Logistic.tiny <= Spec_Logistic.share y <= 1 - Spec_Logistic.tiny ->
  (forall j, (j < p)%nat -> Sum n (fun i => mat X i j) = 0) ->
  exists A B, Model_Logistic.alpha_max (N := Rnum) 1 p true X y = Ok A /\ Model_Logistic.alpha_max (N := Rnum) 1 p true X (map other y) = Ok B /\
    (1 - Spec_Logistic.share y) * B = Spec_Logistic.share y * A /\
    (A = B <-> Spec_Logistic.share y = 1 / 2 \/ A = 0).
Proof.
  intros n p X y HX Hn Hp Ly Hb Hs Hc. pose proof Proofs_Logistic.tiny_pos as T.
  destruct (penalties_swapped n p X y HX Hn Hp Ly Hb Hs Hc) as (A & B & EA & EB & E).
  exists A, B. split; [exact EA|]. split; [exact EB|]. split; [exact E|]. split.
  - intros <-. destruct (Req_dec A 0) as [Z|Z]; [now right|left]. apply Rmult_eq_reg_r in E; [lra|exact Z].
  - intros [H|H]; [rewrite H in E; lra|]. rewrite H, Rmult_0_r in E. apply Rmult_integral in E. destruct E as [E|E]; lra.
Qed.
Print Assumptions C128_penalties.

(** One sample of three in the second class: the largest penalty of one coding is twice that
    of the other. *)
Example C128_penalties_ex : exists A B,
  Model_Logistic.alpha_max (N := Rnum) 1 1 true [[-1]; [-1]; [2]] [0; 0; 1]%nat = Ok A /\
  Model_Logistic.alpha_max (N := Rnum) 1 1 true [[-1]; [-1]; [2]] [1; 1; 0]%nat = Ok B /\ A = 2 * B.
Proof.
  assert (S1 : Spec_Logistic.share [0; 0; 1]%nat = 1 / 3) by (unfold Spec_Logistic.share; change (Spec_Logistic.count 1 [0; 0; 1]%nat) with 1%nat; cbn [length INR]; field).
  destruct (C128_penalties 3 1 [[-1]; [-1]; [2]] [0; 0; 1]%nat) as (A & B & EA & EB & E & _).
  - split; [reflexivity|repeat constructor].
  - lia.
  - lia.
  - reflexivity.
  - repeat constructor.
  - rewrite S1. unfold Spec_Logistic.tiny. lra.
  - intros [|j] Hj; [|lia]. unfold Sum, mat, entry. cbn [seq map fold_right nth]. ring.
  - exists A, B. split; [exact EA|]. split; [exact EB|]. rewrite S1 in E. lra.
Qed.

(** Where one half of the training samples of a bootstrap are ones, the empty model predicts
    the second class whichever way the classes are coded, and the two codings of the same data
    may keep different features. *)
Theorem C128_ties : exists n X y y2 (sel_lm : solver_C (N := Rnum)) (est_lm : solver_ml (N := Rnum)) (refit : refitter (N := Rnum)) four sp C b b',
  let z := Model_Labels.codes y in
  Model_Labels.codes y2 = map other z /\ Spec_Logistic.share (map (fun i => nth i z 0%nat) (fst sp)) = 1 / 2 /\
  class_Cs (N := Rnum) true 2 (1 / 2) 1 X z = Ok [C] /\ class_Cs (N := Rnum) true 2 (1 / 2) 1 X (map other z) = Ok [C] /\
  (forall s, In s [sp; four] -> let Xr := samples X (fst s) in let yr := part_y (map INR z) (fst s) in let k := length (fst s) in
     clear_classes k 2 Xr yr (/ C) /\ class_minimizer k 2 Xr yr (/ C) (sel_lm Xr yr C) /\ class_minimizer k 2 Xr (swapped yr) (/ C) (sel_lm Xr (swapped yr) C)) /\
  (let Xr := part X (fst sp) [true; false] in let yr := part_y (map INR z) (fst sp) in
     only_class_minimizer (length (fst sp)) 1 Xr yr 0 (est_lm Xr yr) /\ class_minimizer (length (fst sp)) 1 Xr (swapped yr) 0 (est_lm Xr (swapped yr))) /\
  (forall c w, length c = 2%nat -> w = z \/ w = map other z -> matching_intercept n 2 X (map INR w) c (refit X c w)) /\
  forall clip,
  class_fit (N := Rnum) false true (1 / 2) 1 [1%Z; 2%Z] clip "acc" 1 2 sel_lm est_lm refit [sp; four] [sp] X y = Ok ([0; 0], b) /\
  class_fit (N := Rnum) false true (1 / 2) 1 [1%Z; 2%Z] clip "acc" 1 2 sel_lm est_lm refit [sp; four] [sp] X y2 = Ok ([- ln 2; 0], b').
Proof. exact ties_found. Qed.
Print Assumptions C128_ties.

(** The witness: ten samples, one coding of which gets the zero model. *)
Example C128_ties_ex :
  class_fit (N := Rnum) false true (1 / 2) 1 [1%Z; 2%Z] (1 / 100) "acc" 1 2 group_sel group_est (exact_refit 2) [six_split; six_four] [six_split] six_X (map label six_z)
  = Ok ([0; 0], exact_refit 2 six_X [0; 0] six_z).
Proof. exact (six_fit (1 / 100)). Qed.
