(** C108: probabilities in binary64. *)
From Coq Require Import ZArith Bool List Lia.
From Flocq Require Import IEEE754.BinarySingleNaN.
From Verif Require Import F64 F64Facts Num Num64 Proofs_Num64 Model_Poisson Model_Logistic Model_Labels Spec_Softmax64 Proofs_Softmax64.
Import ListNotations.

(** For finite log-probabilities, however large, softmax gives numbers between 0 and 1; the one
    with the largest log-probability gets at least 1/k; if exp is increasing, the order is kept. *)
Theorem C108_softmax : forall (e l : bf -> bf) (y : list bf),
  fair_exp e -> y <> [] -> (Z.of_nat (length y) <= 2 ^ 53)%Z -> Forall (fun v => is_finite v = true) y ->
  let s : list bf := softmax (N := Bnum e l) y in
  length s = length y /\ Forall probability s /\
  (forall i, (i < length y)%nat -> (forall j, (j < length y)%nat -> Bleb (nth j y zero64) (nth i y zero64) = true) ->
     Bleb (Bdiv mode_NE one64 (of_Z (Z.of_nat (length y)))) (nth i s zero64) = true) /\
  (increasing e -> forall i j, (i < length y)%nat -> (j < length y)%nat -> Bleb (nth i y zero64) (nth j y zero64) = true ->
     Bleb (nth i s zero64) (nth j s zero64) = true).
Proof. intros e l y H1 H2 H3 H4. exact (softmax_probabilities e l H1 y H2 H3 H4). Qed.
Print Assumptions C108_softmax.

(** Whatever the order in which numpy adds. *)
Theorem C108_any_order : forall (e l : bf -> bf) (y : list bf) (t : bf),
  fair_exp e -> y <> [] -> (Z.of_nat (length y) <= 2 ^ 53)%Z -> Forall (fun v => is_finite v = true) y ->
  let m : bf := nmaxl (N := Bnum e l) y in
  let s := map (fun v => e (Bminus mode_NE v m)) y in
  summed s t -> Forall (fun p => probability (Bdiv mode_NE p t)) s.
Proof.
  intros e l y t H1 H2 H3 H4 m s H. apply Forall_forall. intros x Hx. exact (row_probability e l H1 y H2 H3 H4 t H x Hx).
Qed.
Print Assumptions C108_any_order.

(** One infinite log-probability makes all probabilities NaN. *)
Theorem C108_infinite : forall (e l : bf -> bf) (y : list bf),
  (forall x, is_nan x = true -> is_nan (e x) = true) -> In (B754_infinity false) y -> (forall v, In v y -> is_nan v = false) ->
  let s : list bf := softmax (N := Bnum e l) y in length s = length y /\ Forall (fun p => is_nan p = true) s.
Proof. intros e l y H1 H2 H3. exact (softmax_nan e l H1 y H2 H3). Qed.
Print Assumptions C108_infinite.

(** sigmoid gives a number between 0 and 1 for everything but NaN, also for infinities. *)
Theorem C108_sigmoid : forall (e l : bf -> bf) (x : bf),
  fair_exp e -> fair_ln l -> is_nan x = false -> probability (sigmoid (N := Bnum e l) x).
Proof. intros e l x H1 H2 H3. exact (sigmoid_probability e l H1 H2 x H3). Qed.
Print Assumptions C108_sigmoid.

(** predict_proba of the logistic models, two classes and several. *)
Theorem C108_predict_proba : forall (e l : bf -> bf) multinomial k (coef : list (list bf)) (b x : list bf),
  fair_exp e -> large_exp e -> (Z.of_nat (length coef) <= 2 ^ 53)%Z ->
  (multinomial = true \/ (3 <= k)%nat -> (2 <= length coef)%nat) -> (multinomial = false -> (k <= 2)%nat -> length coef = 1%nat) ->
  length b = length coef ->
  Forall (fun v => is_finite v = true) (map2 (fun c v => nadd (n := Bnum e l) (ndot (N := Bnum e l) x c) v) coef b : list bf) ->
  Forall probability (predict_proba (N := Bnum e l) multinomial k (decision_function (N := Bnum e l) coef b x) : list bf).
Proof.
  intros e l multinomial k coef b x H1 H2 H3 H4 H5 H6 H7. unfold decision_function. cbv zeta.
  set (row := map2 (fun c v => nadd (n := Bnum e l) (ndot (N := Bnum e l) x c) v) coef b) in *.
  assert (Lr : length row = length coef).
  { unfold row. clear -H6. revert b H6. induction coef as [|c coef IH]; intros [|v b] H; try discriminate H; [reflexivity|].
    cbn [map2 length]. f_equal. apply IH. now injection H. }
  clearbody row. destruct multinomial, (Nat.le_gt_cases k 2) as [K|K].
  1, 2, 4: assert (C : (2 <= length row)%nat) by (rewrite Lr; apply H4; auto with arith);
    destruct row as [|v [|w row]]; cbn [length] in C; try lia; apply (proba_several e l H1); auto with arith; try discriminate; apply (f_equal Z.of_nat) in Lr; exact (eq_ind_r (fun z => (z <= 2 ^ 53)%Z) H3 Lr).
  specialize (H5 eq_refl K). rewrite <- Lr in H5. destruct row as [|v [|w row]]; try discriminate H5.
  inversion_clear H7 as [|? ? F _]. apply (proba_one e l H1 H2 v k K). destruct v; try discriminate F; reflexivity.
Qed.
Print Assumptions C108_predict_proba.

(** A correctly rounded exponential function satisfies the assumption. *)
Example C108_ex_rounded : forall e, rounded_exp e -> fair_exp e.
Proof. exact rounded_fair. Qed.

(** So does a very rough one, with which the model can be run: the difference of two
    huge numbers of opposite sign overflows, harmlessly. *)
Definition rough (x : bf) : bf :=
  if Beqb x zero64 then one64 else if Bltb x zero64 then zero64 else if Bltb zero64 x then B754_infinity false else B754_nan.
Definition huge : bf := of_Z (2 ^ 1023).

Example C108_ex_rough : fair_exp rough /\ increasing rough /\ large_exp rough.
Proof.
  assert (Z : probability zero64 /\ probability one64) by (split; split; vm_compute; reflexivity).
  split; [split|split].
  - intros x H. unfold rough. destruct (Beqb x zero64) eqn:E0; [apply Z|]. destruct (Bltb x zero64) eqn:E; [apply Z|].
    exfalso. destruct x as [[]|[]| |[] ? ? ?]; try discriminate H; try discriminate E0; discriminate E.
  - intros x H. unfold rough. now rewrite H.
  - intros x y H. unfold rough. destruct x as [[]|[]| |[] ? ? ?], y as [[]|[]| |[] ? ? ?]; try discriminate H; vm_compute; reflexivity.
  - intros x H. unfold rough. destruct x as [[]|[]| |[] ? ? ?]; try discriminate H; vm_compute; reflexivity.
Qed.

Example C108_ex_run :
  map B2SF (softmax (N := Bnum rough rough) [huge; Bopp huge; huge] : list bf) =
  map B2SF [Bdiv mode_NE one64 (of_Z 2); zero64; Bdiv mode_NE one64 (of_Z 2)] /\
  B2SF (Bminus mode_NE (Bopp huge) huge) = B2SF (B754_infinity true : bf) /\ is_finite huge = true.
Proof. repeat split; vm_compute; reflexivity. Qed.
