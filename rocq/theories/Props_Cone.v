(** Property theorems C112 (UoI_NMF: the reconstruction is the closest point that the components can produce). *)
From Coq Require Import ZArith List Bool Arith Reals Lia Lra.
From Verif Require Import Prelude F64 Num Spec_Rescale Spec_Poisson Model_Nmf Spec_Nmf Spec_Cone
  Proofs_Nmf Proofs_NmfTrans Proofs_NmfEx Proofs_Cone.
Import ListNotations.
Local Open Scope R_scope.

(** C112.  What was built from the components with non-negative weights is reproduced exactly, and
    the reported error is 0; so the reconstruction of a reconstruction is itself. *)
Theorem C112_fixed : forall k p C nnreg trunc o n V X o' W, (0 < k)%nat -> matrix k p C -> components_ (N := Rnum) o = Some C ->
  least_squares k p nnreg -> matrix n k V -> nonnegative V ->
  inverse_transform (N := Rnum) o V k = Ok X -> nmf_transform (N := Rnum) nnreg trunc o X p false true = (o', Ok W) ->
  inverse_transform (N := Rnum) o W k = Ok X /\ reconstruction_err_ o' = Some 0.
Proof. intros k p C nnreg trunc o n V X o' W Hk MC. exact (projection_fixed k p C Hk MC nnreg trunc o n V X o' W). Qed.
Print Assumptions C112_fixed.
Example C112_fixed_ex : exists X o' W, inverse_transform (N := Rnum) ex_cone [[1; 2]; [0; 5]] 2 = Ok X /\
  nmf_transform (N := Rnum) ex_nnls (fun x => x) ex_cone X 3 false true = (o', Ok W) /\ inverse_transform (N := Rnum) ex_cone W 2 = Ok X.
Proof.
  assert (MV : matrix 2 2 [[1; 2]; [0; 5]]) by (split; [reflexivity|repeat constructor]).
  destruct (inverse_R ex_cone ex_C 2 3 2 [[1; 2]; [0; 5]] eq_refl ltac:(lia) ex_C_matrix MV) as (X & EX & MX & _).
  destruct (ex_transform X 2 true MX) as (o' & W & E). exists X, o', W. split; [exact EX|]. split; [exact E|].
  refine (proj1 (C112_fixed 2 3 ex_C ex_nnls (fun x => x) ex_cone 2 [[1; 2]; [0; 5]] X o' W ltac:(lia) ex_C_matrix eq_refl ex_nnls_best MV _ EX E)). apply nonneg_of. repeat constructor; lra.
Qed.

(** With independent components the weights are recovered as well. *)
Theorem C112_recovers : forall k p C nnreg trunc o n V X err o' W, (0 < k)%nat -> matrix k p C -> independent k p C -> components_ (N := Rnum) o = Some C ->
  least_squares k p nnreg -> matrix n k V -> nonnegative V ->
  inverse_transform (N := Rnum) o V k = Ok X -> nmf_transform (N := Rnum) nnreg trunc o X p false err = (o', Ok W) -> W = V.
Proof. intros k p C nnreg trunc o n V X err o' W Hk MC. exact (projection_recovers k p C Hk MC nnreg trunc o n V X err o' W). Qed.
Print Assumptions C112_recovers.
Example C112_recovers_ex : independent 2 3 ex_C.
Proof.
  intros a H. pose proof (H 0%nat ltac:(lia)) as H0. pose proof (H 1%nat ltac:(lia)) as H1. unfold Sum in H0, H1. cbn in H0, H1.
  intros [|[|c]] Hc; [lra|lra|lia].
Qed.

(** The squares of the data are those of the reconstruction plus the square of the reported error. *)
Theorem C112_pythagoras : forall k p C nnreg trunc o n X o' W Y, (0 < k)%nat -> matrix k p C -> components_ (N := Rnum) o = Some C ->
  least_squares k p nnreg -> matrix n p X ->
  nmf_transform (N := Rnum) nnreg trunc o X p false true = (o', Ok W) -> inverse_transform (N := Rnum) o W k = Ok Y ->
  exists e, reconstruction_err_ o' = Some e /\ 0 <= e /\ e * e = distance2 n p X Y /\ total2 n p X = total2 n p Y + e * e.
Proof. intros k p C nnreg trunc o n X o' W Y Hk MC. exact (projection_pythagoras k p C Hk MC nnreg trunc o n X o' W Y). Qed.
Print Assumptions C112_pythagoras.
Example C112_pythagoras_ex : exists o' W e, nmf_transform (N := Rnum) ex_nnls (fun x => x) ex_cone [[3; 1; 2]] 3 false true = (o', Ok W) /\
  reconstruction_err_ o' = Some e /\ 0 <= e <= sqrt 14.
Proof.
  assert (MX : matrix 1 3 [[3; 1; 2]]) by (split; [reflexivity|repeat constructor]). destruct (ex_transform [[3; 1; 2]] 1 true MX) as (o' & W & E).
  destruct (transform_near 2 3 ex_C ltac:(lia) ex_C_matrix ex_nnls (fun x => x) ex_cone 1 _ true o' W eq_refl MX ex_nnls_best E) as (MW & _).
  destruct (inverse_R ex_cone ex_C 2 3 1 W eq_refl ltac:(lia) ex_C_matrix MW) as (Y & EY & _).
  destruct (C112_pythagoras 2 3 ex_C ex_nnls (fun x => x) ex_cone 1 [[3; 1; 2]] o' W Y ltac:(lia) ex_C_matrix eq_refl ex_nnls_best MX E EY) as (e & Ee & Pe & _ & T).
  exists o', W, e. split; [exact E|]. split; [exact Ee|]. split; [exact Pe|]. rewrite <- (sqrt_square e Pe). apply sqrt_le_1_alt.
  assert (T0 : total2 1 3 [[3; 1; 2]] = 14) by (unfold total2, Sum; cbn; lra).
  assert (TY : 0 <= total2 1 3 Y) by (apply Proofs_Poisson.Sum_nonneg; intros; apply Proofs_Poisson.Sum_nonneg; intros; apply Rle_0_sqr). lra.
Qed.

(** Reconstructions are at most as far from each other as the data, whatever optimal solver is used ... *)
Theorem C112_nonexpansive : forall k p C nnreg1 nnreg2 trunc o1 o2 n X1 X2 err1 err2 o1' o2' W1 W2 Y1 Y2, (0 < k)%nat -> matrix k p C ->
  components_ (N := Rnum) o1 = Some C -> components_ (N := Rnum) o2 = Some C ->
  least_squares k p nnreg1 -> least_squares k p nnreg2 -> matrix n p X1 -> matrix n p X2 ->
  nmf_transform (N := Rnum) nnreg1 trunc o1 X1 p false err1 = (o1', Ok W1) -> nmf_transform (N := Rnum) nnreg2 trunc o2 X2 p false err2 = (o2', Ok W2) ->
  inverse_transform (N := Rnum) o1 W1 k = Ok Y1 -> inverse_transform (N := Rnum) o2 W2 k = Ok Y2 -> distance2 n p Y1 Y2 <= distance2 n p X1 X2.
Proof. intros k p C nnreg1 nnreg2 trunc o1 o2 n X1 X2 err1 err2 o1' o2' W1 W2 Y1 Y2 Hk MC. exact (projection_nonexpansive k p C Hk MC nnreg1 nnreg2 trunc o1 o2 n X1 X2 err1 err2 o1' o2' W1 W2 Y1 Y2). Qed.
Print Assumptions C112_nonexpansive. (* Example: C112_unique_ex below. *)

(** ... so the reconstruction does not depend on the solver, even where the weights do, ... *)
Theorem C112_unique : forall k p C nnreg1 nnreg2 trunc o1 o2 n X err1 err2 o1' o2' W1 W2, (0 < k)%nat -> matrix k p C ->
  components_ (N := Rnum) o1 = Some C -> components_ (N := Rnum) o2 = Some C ->
  least_squares k p nnreg1 -> least_squares k p nnreg2 -> matrix n p X ->
  nmf_transform (N := Rnum) nnreg1 trunc o1 X p false err1 = (o1', Ok W1) -> nmf_transform (N := Rnum) nnreg2 trunc o2 X p false err2 = (o2', Ok W2) ->
  inverse_transform (N := Rnum) o1 W1 k = inverse_transform (N := Rnum) o2 W2 k.
Proof. intros k p C nnreg1 nnreg2 trunc o1 o2 n X err1 err2 o1' o2' W1 W2 Hk MC. exact (projection_unique k p C Hk MC nnreg1 nnreg2 trunc o1 o2 n X err1 err2 o1' o2' W1 W2). Qed.
Print Assumptions C112_unique.
(** Twice the same component: two optimal solvers with different weights. *)
Definition ex_twice : nmf_state Rnum := mkNmf (N := Rnum) 2 (Some [2%nat]) false (Some [[1]; [1]]) None None None None None.
Definition ex_solver (first : bool) (A : list (list R)) (b : list R) : result (list R) :=
  if list_eq_dec (list_eq_dec Req_EM_T) A [[1; 1]] then Ok (if first then [Rmax 0 (entry b 0); 0] else [0; Rmax 0 (entry b 0)]) else Raise ValueError.
Example C112_unique_ex : (forall first, least_squares 2 1 (ex_solver first)) /\
  (forall first, snd (nmf_transform (N := Rnum) (ex_solver first) (fun x => x) ex_twice [[3]] 1 false false) = Ok [if first then [3; 0] else [0; 3]]).
Proof.
  split.
  - intros first A b w. unfold ex_solver. destruct (list_eq_dec _ _ _) as [->|]; [|discriminate]. intro E. injection E as <-.
    split; [destruct first; reflexivity|]. split; [destruct first; intros [|[|[|c]]]; cbn; try apply Rmax_l; lra|].
    intros v _ Pv. pose proof (Pv 0%nat) as P0. pose proof (Pv 1%nat) as P1. unfold residual, Sum. set (u := entry b 0).
    assert (Q : forall z, 0 <= z -> (u - Rmax 0 u) * (u - Rmax 0 u) <= (u - z) * (u - z)).
    { intros z Hz. unfold Rmax. destruct (Rle_dec 0 u) as [G|G]; [replace (u - u) with 0 by ring; rewrite Rmult_0_l; apply Rle_0_sqr|].
      apply Rnot_le_lt in G. assert (0 <= z * (z - 2 * u)) by (apply Rmult_le_pos; lra). lra. }
    specialize (Q (entry v 0 + entry v 1) ltac:(lra)). destruct first; cbn; fold u; lra.
  - intro first. unfold nmf_transform. cbn [components_ ex_twice hd length Nat.eqb negb mapM]. unfold ex_solver.
    destruct (list_eq_dec _ _ _) as [|Ne]; [|now destruct Ne]. cbn. replace (Rmax 0 3) with 3 by (symmetry; apply Rmax_right; lra). now destruct first.
Qed.

(** ... and scales with the data. *)
Theorem C112_scaled : forall k p C nnreg trunc o n X X' s err err' o1 o2 W W' Y Y', (0 < k)%nat -> matrix k p C ->
  components_ (N := Rnum) o = Some C -> least_squares k p nnreg -> matrix n p X -> matrix n p X' ->
  0 <= s -> (forall i j, (i < n)%nat -> (j < p)%nat -> mat X' i j = s * mat X i j) ->
  nmf_transform (N := Rnum) nnreg trunc o X p false err = (o1, Ok W) -> nmf_transform (N := Rnum) nnreg trunc o X' p false err' = (o2, Ok W') ->
  inverse_transform (N := Rnum) o W k = Ok Y -> inverse_transform (N := Rnum) o W' k = Ok Y' ->
  forall i j, (i < n)%nat -> (j < p)%nat -> mat Y' i j = s * mat Y i j.
Proof. intros k p C nnreg trunc o n X X' s err err' o1 o2 W W' Y Y' Hk MC. exact (projection_scaled k p C Hk MC nnreg trunc o n X X' s err err' o1 o2 W W' Y Y'). Qed.
Print Assumptions C112_scaled.
Example C112_scaled_ex : exists o1 o2 W W', nmf_transform (N := Rnum) ex_nnls (fun x => x) ex_cone [[3; 1; 2]] 3 false true = (o1, Ok W) /\
  nmf_transform (N := Rnum) ex_nnls (fun x => x) ex_cone [[6; 2; 4]] 3 false true = (o2, Ok W') /\
  forall i j, (i < 1)%nat -> (j < 3)%nat -> mat [[6; 2; 4]] i j = 2 * mat [[3; 1; 2]] i j.
Proof.
  destruct (ex_transform [[3; 1; 2]] 1 true) as (o1 & W & E); [split; [reflexivity|repeat constructor]|]. destruct (ex_transform [[6; 2; 4]] 1 true) as (o2 & W' & E'); [split; [reflexivity|repeat constructor]|].
  exists o1, o2, W, W'. split; [exact E|]. split; [exact E'|]. intros [|i] [|[|[|j]]] Hi Hj; try lia; cbn; lra.
Qed.

(** Rows do not influence each other: the weights of rows transformed together are those of the
    rows transformed on their own. *)
Theorem C112_rows : forall (N : NumOps) nnreg trunc (o : nmf_state N) X1 X2 p integer W,
  snd (nmf_transform nnreg trunc o (X1 ++ X2) p integer false) = Ok W <->
  exists W1 W2, snd (nmf_transform nnreg trunc o X1 p integer false) = Ok W1 /\ snd (nmf_transform nnreg trunc o X2 p integer false) = Ok W2 /\ W = W1 ++ W2.
Proof. exact transform_app. Qed.
Print Assumptions C112_rows.
Example C112_rows_ex : exists W1 W2, snd (nmf_transform (N := Rnum) ex_nnls (fun x => x) ex_cone [[3; 1; 2]] 3 false false) = Ok W1 /\
  snd (nmf_transform (N := Rnum) ex_nnls (fun x => x) ex_cone [[0; 7; 1]; [1; 1; 1]] 3 false false) = Ok W2 /\
  snd (nmf_transform (N := Rnum) ex_nnls (fun x => x) ex_cone [[3; 1; 2]; [0; 7; 1]; [1; 1; 1]] 3 false false) = Ok (W1 ++ W2).
Proof.
  destruct (ex_transform [[3; 1; 2]] 1 false) as (o1 & W & E); [split; [reflexivity|repeat constructor]|]. destruct (ex_transform [[0; 7; 1]; [1; 1; 1]] 2 false) as (o2 & W' & E'); [split; [reflexivity|repeat constructor]|].
  exists W, W'. rewrite E, E'. split; [reflexivity|]. split; [reflexivity|].
  apply (proj2 (C112_rows Rnum ex_nnls (fun x => x) ex_cone [[3; 1; 2]] [[0; 7; 1]; [1; 1; 1]] 3 false (W ++ W'))). exists W, W'. rewrite E, E'. auto.
Qed.
