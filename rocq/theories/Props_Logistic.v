(** Logistic models: C35, C36, C37 (binary and multinomial losses), C44, C85. *)
From Coq Require Import ZArith List Bool Arith Reals Lra Lia.
From Verif Require Import Prelude Num Spec_Rescale Model_Poisson Spec_Poisson Model_Logistic Spec_Logistic
  Proofs_Poisson Proofs_Logistic Proofs_LogisticGrad Proofs_LogisticGrid Proofs_Multinomial Proofs_MultiGrid
  Proofs_LogisticIntercept Proofs_LogisticMain Proofs_LogisticEx.
Import ListNotations.
Local Open Scope R_scope.

(** C35: intercept-only classifiers. *)
Theorem C35_binary : forall y, y <> [] -> Forall (fun v => (v < 2)%nat) y ->
  let f := INR (count 1 y) / INR (length y) in
  let b := binary_intercept (N := Rnum) y in
  binary_proba (N := Rnum) b = Rmin (Rmax f tiny) (1 - tiny) /\ 0 < binary_proba (N := Rnum) b < 1 /\
  (binary_predict (N := Rnum) b = 1%nat <-> (count 0 y <= count 1 y)%nat) /\
  (binary_predict (N := Rnum) b = 0%nat <-> (count 1 y < count 0 y)%nat).
Proof. exact binary_only. Qed.
Print Assumptions C35_binary.

Theorem C35_multi : forall k y, y <> [] -> Forall (fun v => (v < k)%nat) y -> 2 * (tiny * INR k) < 1 ->
  let b := multi_intercept (N := Rnum) k y in
  let P := multi_proba (N := Rnum) b in
  length P = k /\
  (forall c, (c < k)%nat -> 0 < entry P c <= 1) /\ Sum k (entry P) = 1 /\
  (forall c, (c < k)%nat -> count c y = 0%nat -> entry P c = tiny) /\
  (forall c, (c < k)%nat -> count c y <> 0%nat ->
     entry P c = INR (count c y) / INR (length y) * (1 - tiny * INR (absent k y))) /\
  (let m := multi_predict (N := Rnum) b in
   (m < k)%nat /\ (forall c, (c < k)%nat -> (count c y <= count m y)%nat) /\
   (forall c, (c < m)%nat -> (count c y < count m y)%nat)).
Proof. exact multi_only. Qed.
Print Assumptions C35_multi.

(** Labels 2, 0, 2 of four classes: classes 1 and 3 have no label, 2 is predicted. *)
Example C35_ex : [2; 0; 2]%nat <> [] /\ Forall (fun v => (v < 4)%nat) [2; 0; 2]%nat /\ 2 * (tiny * INR 4) < 1 /\
  absent 4 [2; 0; 2]%nat = 2%nat /\ multi_predict (N := Rnum) (multi_intercept (N := Rnum) 4 [2; 0; 2]%nat) = 2%nat.
Proof. exact multi_only_ex. Qed.

(** C36: softmax and sigmoid. *)
Theorem C36_softmax : forall y : list R, y <> [] ->
  let s := softmax (N := Rnum) y in
  length s = length y /\
  (forall i, (i < length y)%nat -> entry s i = exp (entry y i) / Sum (length y) (fun j => exp (entry y j))) /\
  (forall i, (i < length y)%nat -> 0 < entry s i <= 1) /\
  Sum (length y) (fun i => entry s i) = 1 /\
  (forall i j, (i < length y)%nat -> (j < length y)%nat -> (entry s i < entry s j <-> entry y i < entry y j)) /\
  (forall t, softmax (N := Rnum) (map (fun v => v + t) y) = s).
Proof. exact softmax_facts. Qed.
Print Assumptions C36_softmax.

Theorem C36_sigmoid : forall x y : R,
  sigmoid (N := Rnum) x = / (1 + exp (- x)) /\ 0 < sigmoid (N := Rnum) x < 1 /\
  sigmoid (N := Rnum) (- x) = 1 - sigmoid (N := Rnum) x /\
  (sigmoid (N := Rnum) x < sigmoid (N := Rnum) y <-> x < y).
Proof. exact sigmoid_facts. Qed.
Print Assumptions C36_sigmoid.

Example C36_ex : sigmoid (N := Rnum) 0 = / 2.
Proof. exact sigmoid_zero. Qed.

(** C37, binary: the loss is the documented one of the masked coefficients, each entry
    of the gradient is its derivative, the array is masked in place and masked
    coordinates have derivative zero. *)
Theorem C37_logistic_loss : forall n p X (y : list R) (l2 : R) (mask sw : option (list R)) (c : list R) (b : R),
  matrix n p X -> (0 < n)%nat -> length y = n -> match mask with Some m => length m = p | None => True end ->
  match sw with Some s => length s = n | None => True end -> length c = p ->
  fst (snd (logistic_loss_and_grad (N := Rnum) p X y l2 mask sw c))
    = logistic_loss n p X y (sample_weights n sw) l2 (match mask with Some m => map2 Rmult c m | None => c end) 0 /\
  fst (snd (logistic_loss_and_grad (N := Rnum) p X y l2 mask sw (c ++ [b])))
    = logistic_loss n p X y (sample_weights n sw) l2 (match mask with Some m => map2 Rmult c m | None => c end) b.
Proof. exact logistic_loss_parts. Qed.
Print Assumptions C37_logistic_loss.

Theorem C37_logistic_gradient : forall n p X (y : list R) (l2 : R) (mask sw : option (list R)),
  matrix n p X -> (0 < n)%nat -> length y = n -> match mask with Some m => length m = p | None => True end ->
  match sw with Some s => length s = n | None => True end ->
  forall (w : list R) j, length w = p \/ length w = S p -> (j < length w)%nat ->
  derivable_pt_lim (fun t => fst (snd (logistic_loss_and_grad (N := Rnum) p X y l2 mask sw (upd w j t)))) (entry w j)
    (entry (snd (snd (logistic_loss_and_grad (N := Rnum) p X y l2 mask sw w))) j).
Proof. exact logistic_gradient. Qed.
Print Assumptions C37_logistic_gradient.

Theorem C37_logistic_masked : forall n p X (y : list R) (l2 : R) (m : list R) (sw : option (list R)) (w : list R),
  matrix n p X -> (0 < n)%nat -> length y = n -> length m = p -> match sw with Some s => length s = n | None => True end ->
  length w = p \/ length w = S p ->
  let r := logistic_loss_and_grad (N := Rnum) p X y l2 (Some m) sw w in
  length (fst r) = length w /\ length (snd (snd r)) = length w /\
  (forall j, (j < p)%nat -> entry (fst r) j = entry m j * entry w j) /\ (entry (fst r) p = entry w p) /\
  (forall j, (j < p)%nat -> entry m j = 0 -> entry (snd (snd r)) j = 0).
Proof. exact logistic_masked. Qed.
Print Assumptions C37_logistic_masked.

(** Two samples of two features, the second masked, last entry of [w] the intercept. *)
Example C37_logistic_ex : matrix 2 2 [[1; 2]; [3; -1]] /\
  fst (logistic_loss_and_grad (N := Rnum) 2 [[1; 2]; [3; -1]] [1; -1] 1 (Some [1; 0]) (Some [1; 2]) [5; 7; 9]) = [5; 0; 9].
Proof. exact logistic_ex. Qed.

(** C37, several classes: [q] is [p], or [p + 1] with intercepts. *)
Theorem C37_multinomial_loss : forall n p q k X Y (sw : list R) (l2 : R) (mask : option (list (list R))) (w : list R),
  matrix n p X -> matrix n k Y -> (0 < n)%nat -> (0 < k)%nat -> length sw = n ->
  match mask with Some m => matrix k p m | None => True end -> q = p \/ q = S p -> length w = (k * q)%nat ->
  forall v, match mask with Some m => masks p q k m w v | None => v = w end ->
  fst (multinomial_loss_grad (N := Rnum) k p X Y l2 mask sw w) = multi_loss n p q k X Y sw l2 v.
Proof. exact multi_loss_value. Qed.
Print Assumptions C37_multinomial_loss.

Theorem C37_multinomial_gradient : forall n p k X Y (l2 : R) (mask : option (list (list R))) (sw : list R),
  matrix n p X -> matrix n k Y -> (0 < n)%nat -> (0 < k)%nat ->
  match mask with Some m => matrix k p m | None => True end -> length sw = n ->
  (forall i, (i < n)%nat -> Sum k (mat Y i) = 1) ->
  forall (w : list R) j, length w = (k * p)%nat \/ length w = (k * S p)%nat -> (j < length w)%nat ->
  derivable_pt_lim (fun t => fst (multinomial_loss_grad (N := Rnum) k p X Y l2 mask sw (upd w j t))) (entry w j)
    (entry (snd (multinomial_loss_grad (N := Rnum) k p X Y l2 mask sw w)) j).
Proof. exact multi_gradient. Qed.
Print Assumptions C37_multinomial_gradient.

Theorem C37_multinomial_masked : forall n p q k X Y (sw : list R) (l2 : R) (m : list (list R)) (w : list R),
  matrix n p X -> matrix n k Y -> (0 < n)%nat -> (0 < k)%nat -> length sw = n ->
  matrix k p m -> q = p \/ q = S p -> length w = (k * q)%nat ->
  length (snd (multinomial_loss_grad (N := Rnum) k p X Y l2 (Some m) sw w)) = length w /\
  forall c j, (c < k)%nat -> (j < p)%nat -> mat m c j = 0 ->
  coefs q (snd (multinomial_loss_grad (N := Rnum) k p X Y l2 (Some m) sw w)) c j = 0.
Proof. exact multi_masked. Qed.
Print Assumptions C37_multinomial_masked.

(** Two samples, two features, three classes, the second feature of class 1 masked. *)
Example C37_multi_ex : matrix 2 2 [[1; 2]; [3; -1]] /\ matrix 2 3 [[1; 0; 0]; [0; 0; 1]] /\
  matrix 3 2 [[1; 1]; [1; 0]; [1; 1]] /\ (forall i, (i < 2)%nat -> Sum 3 (mat [[1; 0; 0]; [0; 0; 1]] i) = 1) /\
  masks 2 3 3 [[1; 1]; [1; 0]; [1; 1]] [1; 2; 3; 4; 5; 6; 7; 8; 9] [1; 2; 3; 4; 0; 6; 7; 8; 9].
Proof. exact multi_ex. Qed.

(** C44: the value alpha_max behind the grid of UoI_L1Logistic. *)

(** Zero coefficients with the best intercept are optimal exactly for penalties at least
    the largest absolute [null_score]. *)
Theorem C44_null_model : forall n p X y, matrix n p X -> (0 < n)%nat -> length y = n -> Forall (fun v => (v < 2)%nat) y ->
  0 < share y < 1 -> forall lam, 0 <= lam ->
  ((forall c b, length c = p -> l1_logistic n p X (signs y) lam (repeat 0 p) (ln (share y / (1 - share y)))
                                <= l1_logistic n p X (signs y) lam c b) <->
   (forall j, (j < p)%nat -> Rabs (null_score n X y j) <= lam)).
Proof. exact null_iff. Qed.
Print Assumptions C44_null_model.

(** Binary, with intercept: the code uses another value. *)
Theorem C44_alpha_max : forall n p X y, matrix n p X -> (0 < n)%nat -> length y = n -> Forall (fun v => (v < 2)%nat) y ->
  (0 < p)%nat -> exists A, alpha_max (N := Rnum) 1 p true X y = Ok A /\
    is_max p (fun j => (1 - Rmin (Rmax (share y) tiny) (1 - tiny)) * Rabs (/ INR n * Sum n (fun i => INR (nth i y 0%nat) * mat X i j))) A.
Proof. exact alpha_max_binary. Qed.
Print Assumptions C44_alpha_max.

Theorem C44_grid : forall A eps num i, 0 < A -> 0 < eps -> (i < num)%nat ->
  entry (C_grid (N := Rnum) A eps num) i = / A * Rpower (/ eps) (INR i / INR (num - 1)).
Proof. exact C_grid_value. Qed.
Print Assumptions C44_grid.

(** With centred features the first penalty A = 1 / C of the grid never gives the
    intercept-only model. *)
Theorem C44_first_C : forall n p X y A, matrix n p X -> (0 < n)%nat -> length y = n -> Forall (fun v => (v < 2)%nat) y ->
  (0 < p)%nat -> (forall j, (j < p)%nat -> Sum n (fun i => mat X i j) = 0) ->
  tiny <= share y <= 1 - tiny -> alpha_max (N := Rnum) 1 p true X y = Ok A -> 0 < A ->
  exists c, length c = p /\ forall b,
    l1_logistic n p X (signs y) A c (ln (share y / (1 - share y))) < l1_logistic n p X (signs y) A (repeat 0 p) b.
Proof. exact first_C_not_null. Qed.
Print Assumptions C44_first_C.

(** Without intercept the last feature is not used, and one feature raises. *)
Theorem C44_no_intercept : forall n p X y, matrix n p X -> (0 < n)%nat -> length y = n -> Forall (fun v => (v < 2)%nat) y ->
  alpha_max (N := Rnum) 1 p false X y = Raise ValueError /\ (p <= 1)%nat \/
  (1 < p)%nat /\ exists A, alpha_max (N := Rnum) 1 p false X y = Ok A /\
    is_max (p - 1) (fun j => / 2 * Rabs (/ INR n * Sum n (fun i => INR (nth i y 0%nat) * mat X i j))) A.
Proof. exact alpha_max_no_intercept. Qed.
Print Assumptions C44_no_intercept.

(** Several classes, all present, with intercept: the largest gradient of the
    intercept-only model. *)
Theorem C44_multi : forall n p k X y, matrix n p X -> (0 < n)%nat -> (0 < p)%nat -> (1 < k)%nat -> length y = n ->
  Forall (fun v => (v < k)%nat) y -> (forall c, (c < k)%nat -> count c y <> 0%nat) ->
  let g c j := Rabs (/ INR n * Sum n (fun i => (INR (count c y) / INR n - ind (nth i y 0%nat) c) * mat X i j)) in
  exists A, alpha_max (N := Rnum) k p true X y = Ok A /\
    (forall c j, (c < k)%nat -> (j < p)%nat -> g c j <= A) /\ exists c j, (c < k)%nat /\ (j < p)%nat /\ A = g c j.
Proof. exact alpha_max_multi. Qed.
Print Assumptions C44_multi.

(** One centred feature, two samples per class: A = 1/8 while 1/4 is needed. *)
Example C44_ex : matrix 4 1 [[1]; [-1]; [0]; [0]] /\ share [1; 0; 1; 0]%nat = / 2 /\
  alpha_max (N := Rnum) 1 1 true [[1]; [-1]; [0]; [0]] [1; 0; 1; 0]%nat = Ok (/ 8) /\
  null_score 4 [[1]; [-1]; [0]; [0]] [1; 0; 1; 0]%nat 0 = / 4.
Proof. exact alpha_max_ex. Qed.

(** C85: intercepts refitted for fixed coefficients. *)
Theorem C85_binary : forall n (u : list R) y, (0 < n)%nat -> length u = n -> length y = n -> Forall (fun v => (v < 2)%nat) y ->
  forall b : R,
  derivable_pt_lim (fun t => fst (fixed_binary (N := Rnum) u y t)) b (snd (fixed_binary (N := Rnum) u y b)) /\
  (snd (fixed_binary (N := Rnum) u y b) = 0 ->
     Sum n (fun i => sigmoid (N := Rnum) (entry u i + b)) = INR (count 1 y) /\
     forall b' : R, fst (fixed_binary (N := Rnum) u y b) <= fst (fixed_binary (N := Rnum) u y b')).
Proof. exact binary_refit. Qed.
Print Assumptions C85_binary.

Theorem C85_multi_gradient : forall n k U y, (0 < n)%nat -> (0 < k)%nat -> matrix n k U -> length y = n ->
  Forall (fun v => (v < k)%nat) y -> forall (s : list R) j, length s = (k - 1)%nat -> (j < k - 1)%nat ->
  derivable_pt_lim (fun t => fst (fixed_multi (N := Rnum) k U y (upd s j t))) (entry s j) (entry (snd (fixed_multi (N := Rnum) k U y s)) j).
Proof. exact multi_refit_derivative. Qed.
Print Assumptions C85_multi_gradient.

Theorem C85_multi_stationary : forall n k U y, (0 < n)%nat -> (0 < k)%nat -> matrix n k U -> length y = n ->
  Forall (fun v => (v < k)%nat) y -> forall s : list R, length s = (k - 1)%nat ->
  (forall j, (j < k - 1)%nat -> entry (snd (fixed_multi (N := Rnum) k U y s)) j = 0) ->
  (forall c, (c < k)%nat ->
     Sum n (fun i => entry (softmax (N := Rnum) (map2 Rplus (nth i U []) (fixed_multi_result (N := Rnum) s))) c) = INR (count c y)) /\
  (forall s' : list R, length s' = (k - 1)%nat -> fst (fixed_multi (N := Rnum) k U y s) <= fst (fixed_multi (N := Rnum) k U y s')).
Proof. exact multi_refit_stationary. Qed.
Print Assumptions C85_multi_stationary.

(** Scores 0, labels 0 and 1: intercept 0 is stationary. *)
Example C85_ex : snd (fixed_binary (N := Rnum) [0; 0] [0; 1]%nat 0) = 0.
Proof. exact refit_ex. Qed.
