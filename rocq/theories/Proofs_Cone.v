(** Proofs about the reconstruction of data from the components of UoI_NMF (C112). *)
From Coq Require Import ZArith List Bool Arith Reals Lia Lra.
From Verif Require Import Prelude F64 Num Spec_Rescale Spec_Poisson Model_Nmf Spec_Nmf Spec_Cone
  Proofs_Rescale Proofs_Poisson Proofs_Nmf Proofs_NmfTrans.
Import ListNotations.
Local Open Scope R_scope.

(** ** Projection onto a cone, one row at a time *)
Section Cone.
  Variables (k p : nat) (C : nat -> nat -> R).
  Definition comb (w : nat -> R) (j : nat) : R := Sum k (fun c => w c * C c j).
  Definition inner (a b : nat -> R) : R := Sum p (fun j => a j * b j).
  Definition nearest (x w : nat -> R) : Prop :=
    (forall c, (c < k)%nat -> 0 <= w c) /\
    forall v, (forall c, (c < k)%nat -> 0 <= v c) ->
      inner (fun j => x j - comb w j) (fun j => x j - comb w j) <= inner (fun j => x j - comb v j) (fun j => x j - comb v j).

  Lemma comb_lin a b u v j : comb (fun c => a * u c + b * v c) j = a * comb u j + b * comb v j.
  Proof. unfold comb. rewrite <- !Sum_scal, <- Sum_plus. apply Sum_ext. intros. ring. Qed.
  Lemma inner_sq a : 0 <= inner a a.
  Proof. apply Sum_nonneg. intros. apply Rle_0_sqr. Qed.
  Lemma inner_ext a b a' b' : (forall j, (j < p)%nat -> a j * b j = a' j * b' j) -> inner a b = inner a' b'.
  Proof. apply Sum_ext. Qed.
  Lemma inner_lin s t a b c : inner (fun j => s * a j + t * b j) c = s * inner a c + t * inner b c.
  Proof. unfold inner. rewrite <- !Sum_scal, <- Sum_plus. apply Sum_ext. intros. ring. Qed.
  Lemma inner_sym a b : inner a b = inner b a.
  Proof. apply Sum_ext. intros. ring. Qed.
  Lemma inner_zero a : inner a a = 0 -> forall j, (j < p)%nat -> a j = 0.
  Proof.
    intros E j Hj. pose proof (Sum_zero_inv p (fun j => a j * a j) (fun j _ => Rle_0_sqr (a j)) E j Hj) as Z. cbv beta in Z.
    destruct (Rmult_integral _ _ Z); assumption.
  Qed.
  Lemma expand s a b : inner (fun j => a j - s * b j) (fun j => a j - s * b j) = inner a a - 2 * s * inner a b + s * s * inner b b.
  Proof. unfold inner. rewrite <- !Sum_scal, <- Sum_minus, <- Sum_plus. apply Sum_ext. intros. ring. Qed.

  Lemma variational x w v : nearest x w -> (forall c, (c < k)%nat -> 0 <= v c) ->
    inner (fun j => x j - comb w j) (fun j => comb v j - comb w j) <= 0.
  Proof.
    intros [P M] Pv. set (a := inner _ _). destruct (Rle_lt_dec a 0) as [L|L]; [exact L|exfalso].
    set (d := fun j => comb v j - comb w j). set (b := inner d d). assert (Hb : 0 <= b) by apply inner_sq.
    assert (Key : forall t, 0 < t <= 1 -> 2 * a <= t * b).
    { intros t [T0 T1]. assert (Pt : forall c, (c < k)%nat -> 0 <= (1 - t) * w c + t * v c).
      { intros c Hc. pose proof (P c Hc). pose proof (Pv c Hc). apply Rplus_le_le_0_compat; apply Rmult_le_pos; lra. }
      pose proof (M _ Pt) as Q. rewrite (inner_ext (fun j => x j - comb (fun c => (1 - t) * w c + t * v c) j) (fun j => x j - comb (fun c => (1 - t) * w c + t * v c) j)
        (fun j => (x j - comb w j) - t * d j) (fun j => (x j - comb w j) - t * d j)) in Q.
      - rewrite (expand t (fun j => x j - comb w j) d) in Q. fold d in a. fold a b in Q.
        apply Rmult_le_reg_l with t; [exact T0|]. lra.
      - intros j Hj. rewrite comb_lin. unfold d. ring. }
    pose proof (Key 1 ltac:(lra)) as K1. assert (B0 : 0 < b) by lra.
    assert (H2 : a / b <= 1). { apply Rmult_le_reg_r with b; [exact B0|]. unfold Rdiv. rewrite Rmult_assoc, Rinv_l by lra. lra. }
    assert (H1 : 0 < a / b) by (apply Rdiv_lt_0_compat; assumption).
    pose proof (Key (a / b) (conj H1 H2)) as K2. unfold Rdiv in K2. rewrite Rmult_assoc, Rinv_l in K2 by lra. lra.
  Qed.
  Lemma comb_zero j : comb (fun _ => 0) j = 0.
  Proof. apply Sum_zero. intros. ring. Qed.
  Lemma orthogonal x w : nearest x w -> inner (fun j => x j - comb w j) (comb w) = 0.
  Proof.
    intro N. pose proof (variational x w (fun _ => 0) N (fun c _ => Rle_refl 0)) as V0.
    assert (P2 : forall c, (c < k)%nat -> 0 <= 2 * w c + 0 * w c) by (intros c Hc; pose proof (proj1 N c Hc); lra).
    pose proof (variational x w _ N P2) as V2.
    assert (E0 : inner (fun j => x j - comb w j) (fun j => comb (fun _ => 0) j - comb w j) = - inner (fun j => x j - comb w j) (comb w)).
    { unfold inner. replace (- _) with ((-1) * Sum p (fun j => (x j - comb w j) * comb w j)) by ring. rewrite <- Sum_scal. apply Sum_ext. intros. rewrite comb_zero. ring. }
    assert (E2 : inner (fun j => x j - comb w j) (fun j => comb (fun c => 2 * w c + 0 * w c) j - comb w j) = inner (fun j => x j - comb w j) (comb w)).
    { apply Sum_ext. intros. rewrite comb_lin. ring. }
    lra.
  Qed.
  Lemma pythagoras x w : nearest x w -> inner x x = inner (comb w) (comb w) + inner (fun j => x j - comb w j) (fun j => x j - comb w j).
  Proof.
    intro N. pose proof (orthogonal x w N) as O.
    assert (E : inner x x = inner (comb w) (comb w) + inner (fun j => x j - comb w j) (fun j => x j - comb w j) + 2 * inner (fun j => x j - comb w j) (comb w)).
    { unfold inner. rewrite <- !Sum_scal, <- !Sum_plus. apply Sum_ext. intros. ring. }
    rewrite E, O. ring.
  Qed.
  Lemma nonexpansive x1 w1 x2 w2 : nearest x1 w1 -> nearest x2 w2 ->
    inner (fun j => comb w1 j - comb w2 j) (fun j => comb w1 j - comb w2 j) <= inner (fun j => x1 j - x2 j) (fun j => x1 j - x2 j).
  Proof.
    intros N1 N2. pose proof (variational x1 w1 w2 N1 (proj1 N2)) as V1. pose proof (variational x2 w2 w1 N2 (proj1 N1)) as V2.
    set (dy := fun j => comb w1 j - comb w2 j). set (dx := fun j => x1 j - x2 j).
    assert (E : inner (fun j => x1 j - comb w1 j) (fun j => comb w2 j - comb w1 j) + inner (fun j => x2 j - comb w2 j) (fun j => comb w1 j - comb w2 j) = inner dy dy - inner dx dy).
    { unfold inner. rewrite <- Sum_plus, <- Sum_minus. apply Sum_ext. intros. unfold dx, dy. ring. }
    pose proof (inner_sq (fun j => dx j - 1 * dy j)) as S. rewrite expand in S. change (inner dy dy <= inner dx dx). lra.
  Qed.
  Lemma nearest_scaled s x w : 0 <= s -> nearest x w -> nearest (fun j => s * x j) (fun c => s * w c).
  Proof.
    intros Hs [P M]. split; [intros c Hc; apply Rmult_le_pos; auto|]. intros v Pv.
    assert (F : forall a b, inner (fun j => s * a j) (fun j => s * b j) = s * s * inner a b) by (intros; unfold inner; rewrite <- Sum_scal; apply Sum_ext; intros; ring).
    assert (L : forall u j, s * x j - comb (fun c => s * u c) j = s * (x j - comb u j)).
    { intros u j. replace (comb (fun c => s * u c) j) with (s * comb u j); [ring|]. unfold comb. rewrite <- Sum_scal. apply Sum_ext. intros. ring. }
    rewrite (inner_ext _ _ (fun j => s * (x j - comb w j)) (fun j => s * (x j - comb w j))) by (intros; rewrite !L; reflexivity).
    rewrite F. destruct Hs as [Hs|<-].
    - assert (Pq : forall c, (c < k)%nat -> 0 <= v c / s) by (intros c Hc; apply Rmult_le_pos; [auto|left; now apply Rinv_0_lt_compat]).
      pose proof (M _ Pq) as Q. rewrite (inner_ext (fun j => s * x j - comb v j) (fun j => s * x j - comb v j) (fun j => s * (x j - comb (fun c => v c / s) j)) (fun j => s * (x j - comb (fun c => v c / s) j))).
      + rewrite F. apply Rmult_le_compat_l; [apply Rle_0_sqr|exact Q].
      + intros j Hj. rewrite <- !L. replace (comb (fun c => s * (v c / s)) j) with (comb v j); [reflexivity|]. apply Sum_ext. intros. field. lra.
    - rewrite !Rmult_0_l. apply inner_sq.
  Qed.
  Lemma inside x w v : nearest x w -> (forall c, (c < k)%nat -> 0 <= v c) -> (forall j, (j < p)%nat -> x j = comb v j) ->
    forall j, (j < p)%nat -> comb w j = x j.
  Proof.
    intros [P M] Pv E. pose proof (M v Pv) as Q.
    assert (Z : inner (fun j => x j - comb v j) (fun j => x j - comb v j) = 0) by (apply Sum_zero; intros j Hj; rewrite (E j Hj); ring).
    assert (Z' : inner (fun j => x j - comb w j) (fun j => x j - comb w j) = 0) by (apply Rle_antisym; [lra|apply inner_sq]).
    intros j Hj. pose proof (inner_zero _ Z' j Hj) as G. cbv beta in G. lra.
  Qed.
End Cone.

(** ** Rows of matrices *)
Lemma matrix_same n p (X Y : list (list R)) : matrix n p X -> matrix n p Y ->
  (forall i j, (i < n)%nat -> (j < p)%nat -> mat X i j = mat Y i j) -> X = Y.
Proof.
  intros [LX FX] [LY FY] E. apply (nth_ext _ _ [] []); [congruence|]. intros i Hi.
  assert (Rx : length (nth i X []) = p) by (rewrite Forall_forall in FX; apply FX, nth_In; exact Hi).
  assert (Ry : length (nth i Y []) = p) by (rewrite Forall_forall in FY; apply FY, nth_In; lia).
  apply (nth_ext _ _ 0 0); [congruence|]. intros j Hj. apply E; lia.
Qed.

Section Rows.
  Variables (k p : nat) (C : list (list R)).
  Hypotheses (Hk : (0 < k)%nat) (MC : matrix k p C).
  Notation near := (nearest k p (mat C)).

  Lemma transform_near nnreg trunc o n X err o' W : components_ (N := Rnum) o = Some C -> matrix n p X -> least_squares k p nnreg ->
    nmf_transform (N := Rnum) nnreg trunc o X p false err = (o', Ok W) ->
    matrix n k W /\ nonnegative W /\ (forall i, (i < n)%nat -> near (mat X i) (mat W i)) /\
    (err = true -> reconstruction_err_ o' = Some (sqrt (Sum n (fun i => Sum p (fun j => (mat X i j - comb k (mat C) (mat W i) j) * (mat X i j - comb k (mat C) (mat W i) j)))))).
  Proof.
    intros Ec MX Cn E.
    destruct (transform_R nnreg trunc o C k p n X false err Ec Hk MC MX (fun A b w Q => proj1 (Cn A b w Q)) o' W E) as (A & W0 & MA & EA & MW0 & MW & Rw & EW & Eo).
    assert (P : forall i c, (i < n)%nat -> (c < k)%nat -> 0 <= mat W i c).
    { intros i c Hi Hc. apply (eq_ind_r (fun x => 0 <= x) (proj1 (proj2 (Cn A (row X i) (row W0 i) (Rw i Hi))) c) (EW i c Hi Hc)). }
    split; [exact MW|]. split; [exact (nonneg_matrix n k W MW P)|]. split.
    - intros i Hi. split; [intros c Hc; exact (P i c Hi Hc)|]. intros v Pv.
      destruct (Cn A (row X i) (row W0 i) (Rw i Hi)) as (_ & _ & Op).
      specialize (Op (map v (seq 0 k))). rewrite map_length, seq_length in Op.
      assert (Ev : forall c, entry (map v (seq 0 k)) c = if lt_dec c k then v c else 0).
      { intro c. unfold entry. destruct (lt_dec c k) as [Hc|Hc].
        - rewrite (nth_indep _ 0 (v 0%nat)) by (rewrite map_length, seq_length; exact Hc). rewrite map_nth, seq_nth by exact Hc. reflexivity.
        - apply nth_overflow. rewrite map_length, seq_length. lia. }
      specialize (Op eq_refl). assert (Q : forall c, 0 <= entry (map v (seq 0 k)) c) by (intro c; rewrite Ev; destruct (lt_dec c k); [auto|lra]). specialize (Op Q).
      assert (T : forall u v', (forall c, (c < k)%nat -> entry u c = v' c) -> residual k p A (row X i) u = inner p (fun j => mat X i j - comb k (mat C) v' j) (fun j => mat X i j - comb k (mat C) v' j)).
      { intros u v' H. unfold residual, inner. apply Sum_ext. intros j Hj. unfold comb.
        rewrite (Sum_ext k (fun c => mat A j c * entry u c) (fun c => v' c * mat C c j)); [reflexivity|]. intros c Hc. rewrite (EA j c Hj Hc), (H c Hc). ring. }
      rewrite (T (row W0 i) (mat W i)) in Op by (intros c Hc; exact (eq_sym (EW i c Hi Hc))).
      rewrite (T (map v (seq 0 k)) v) in Op by (intros c Hc; rewrite Ev; destruct (lt_dec c k); [reflexivity|contradiction]). exact Op.
    - intros ->. rewrite Eo. reflexivity.
  Qed.
  Lemma inverse_comb o n W Y : components_ (N := Rnum) o = Some C -> matrix n k W -> inverse_transform (N := Rnum) o W k = Ok Y ->
    matrix n p Y /\ forall i j, (i < n)%nat -> (j < p)%nat -> mat Y i j = comb k (mat C) (mat W i) j.
  Proof.
    intros Ec MW E. destruct (inverse_R o C k p n W Ec Hk MC MW) as (Y' & E' & MY & EY). rewrite E in E'. injection E' as <-. split; [exact MY|exact EY].
  Qed.

  Lemma projection_fixed nnreg trunc o n V X o' W : components_ (N := Rnum) o = Some C -> least_squares k p nnreg -> matrix n k V -> nonnegative V ->
    inverse_transform (N := Rnum) o V k = Ok X -> nmf_transform (N := Rnum) nnreg trunc o X p false true = (o', Ok W) ->
    inverse_transform (N := Rnum) o W k = Ok X /\ reconstruction_err_ o' = Some 0.
  Proof.
    intros Ec LS MV PV EX E. destruct (inverse_comb o n V X Ec MV EX) as [MX QX].
    destruct (transform_near nnreg trunc o n X true o' W Ec MX LS E) as (MW & PW & Nr & Er).
    assert (I : forall i j, (i < n)%nat -> (j < p)%nat -> comb k (mat C) (mat W i) j = mat X i j).
    { intros i j Hi Hj. apply (inside k p (mat C) (mat X i) (mat W i) (mat V i) (Nr i Hi)); [intros; apply PV|intros; now apply QX|exact Hj]. }
    destruct (inverse_R o C k p n W Ec Hk MC MW) as (Y & EY & MY & QY). split.
    - rewrite EY. f_equal. apply (matrix_same n p); [exact MY|exact MX|]. intros i j Hi Hj. rewrite (QY i j Hi Hj). exact (I i j Hi Hj).
    - rewrite (Er eq_refl). f_equal. rewrite <- sqrt_0. f_equal. apply Sum_zero. intros i Hi. apply Sum_zero. intros j Hj. rewrite (I i j Hi Hj). ring.
  Qed.
  Lemma projection_recovers nnreg trunc o n V X err o' W : independent k p C -> components_ (N := Rnum) o = Some C -> least_squares k p nnreg -> matrix n k V -> nonnegative V ->
    inverse_transform (N := Rnum) o V k = Ok X -> nmf_transform (N := Rnum) nnreg trunc o X p false err = (o', Ok W) -> W = V.
  Proof.
    intros Ind Ec LS MV PV EX E. destruct (inverse_comb o n V X Ec MV EX) as [MX QX].
    destruct (transform_near nnreg trunc o n X err o' W Ec MX LS E) as (MW & PW & Nr & _).
    apply (matrix_same n k); [exact MW|exact MV|]. intros i c Hi Hc. apply Rminus_diag_uniq.
    apply (Ind (fun c => mat W i c - mat V i c)); [|exact Hc]. intros j Hj.
    pose proof (inside k p (mat C) (mat X i) (mat W i) (mat V i) (Nr i Hi) (fun c _ => PV i c) (fun j => QX i j Hi) j Hj) as I. rewrite (QX i j Hi Hj) in I. unfold comb in I.
    rewrite (Sum_ext k _ (fun c => mat W i c * mat C c j - mat V i c * mat C c j)) by (intros; ring). rewrite Sum_minus. lra.
  Qed.
  Lemma projection_pythagoras nnreg trunc o n X o' W Y : components_ (N := Rnum) o = Some C -> least_squares k p nnreg -> matrix n p X ->
    nmf_transform (N := Rnum) nnreg trunc o X p false true = (o', Ok W) -> inverse_transform (N := Rnum) o W k = Ok Y ->
    exists e, reconstruction_err_ o' = Some e /\ 0 <= e /\ e * e = distance2 n p X Y /\ total2 n p X = total2 n p Y + e * e.
  Proof.
    intros Ec LS MX E EY. destruct (transform_near nnreg trunc o n X true o' W Ec MX LS E) as (MW & PW & Nr & Er).
    destruct (inverse_comb o n W Y Ec MW EY) as [MY QY]. eexists. split; [exact (Er eq_refl)|]. split; [apply sqrt_pos|].
    rewrite sqrt_sqrt by (apply Sum_nonneg; intros; apply Sum_nonneg; intros; apply Rle_0_sqr).
    split.
    - apply Sum_ext. intros i Hi. apply Sum_ext. intros j Hj. rewrite (QY i j Hi Hj). reflexivity.
    - unfold total2. rewrite <- Sum_plus. apply Sum_ext. intros i Hi. pose proof (pythagoras k p (mat C) (mat X i) (mat W i) (Nr i Hi)) as Q. unfold inner in Q. rewrite Q. f_equal.
      apply Sum_ext. intros j Hj. rewrite (QY i j Hi Hj). reflexivity.
  Qed.
  Lemma projection_nonexpansive nnreg1 nnreg2 trunc o1 o2 n X1 X2 err1 err2 o1' o2' W1 W2 Y1 Y2 : components_ (N := Rnum) o1 = Some C -> components_ (N := Rnum) o2 = Some C ->
    least_squares k p nnreg1 -> least_squares k p nnreg2 -> matrix n p X1 -> matrix n p X2 ->
    nmf_transform (N := Rnum) nnreg1 trunc o1 X1 p false err1 = (o1', Ok W1) -> nmf_transform (N := Rnum) nnreg2 trunc o2 X2 p false err2 = (o2', Ok W2) ->
    inverse_transform (N := Rnum) o1 W1 k = Ok Y1 -> inverse_transform (N := Rnum) o2 W2 k = Ok Y2 -> distance2 n p Y1 Y2 <= distance2 n p X1 X2.
  Proof.
    intros Ec1 Ec2 LS1 LS2 M1 M2 E1 E2 I1 I2.
    destruct (transform_near nnreg1 trunc o1 n X1 err1 o1' W1 Ec1 M1 LS1 E1) as (MW1 & _ & Nr1 & _). destruct (transform_near nnreg2 trunc o2 n X2 err2 o2' W2 Ec2 M2 LS2 E2) as (MW2 & _ & Nr2 & _).
    destruct (inverse_comb o1 n W1 Y1 Ec1 MW1 I1) as [_ Q1]. destruct (inverse_comb o2 n W2 Y2 Ec2 MW2 I2) as [_ Q2].
    apply Sum_le. intros i Hi. eapply Rle_trans; [|exact (nonexpansive k p (mat C) _ _ _ _ (Nr1 i Hi) (Nr2 i Hi))]. apply Req_le. apply Sum_ext. intros j Hj. rewrite (Q1 i j Hi Hj), (Q2 i j Hi Hj). reflexivity.
  Qed.
  Lemma distance_zero n X Y : matrix n p X -> matrix n p Y -> distance2 n p X Y <= 0 -> X = Y.
  Proof.
    intros MX MY D. apply (matrix_same n p _ _ MX MY). intros i j Hi Hj. apply Rminus_diag_uniq.
    assert (G : forall i, (i < n)%nat -> 0 <= Sum p (fun j => (mat X i j - mat Y i j) * (mat X i j - mat Y i j))) by (intros; apply Sum_nonneg; intros; apply Rle_0_sqr).
    assert (Z : distance2 n p X Y = 0) by (apply Rle_antisym; [exact D|apply Sum_nonneg; exact G]).
    pose proof (Sum_zero_inv n _ G Z i Hi) as Zi. exact (inner_zero p (fun j => mat X i j - mat Y i j) Zi j Hj).
  Qed.
  Lemma projection_unique nnreg1 nnreg2 trunc o1 o2 n X err1 err2 o1' o2' W1 W2 : components_ (N := Rnum) o1 = Some C -> components_ (N := Rnum) o2 = Some C ->
    least_squares k p nnreg1 -> least_squares k p nnreg2 -> matrix n p X ->
    nmf_transform (N := Rnum) nnreg1 trunc o1 X p false err1 = (o1', Ok W1) -> nmf_transform (N := Rnum) nnreg2 trunc o2 X p false err2 = (o2', Ok W2) ->
    inverse_transform (N := Rnum) o1 W1 k = inverse_transform (N := Rnum) o2 W2 k.
  Proof.
    intros Ec1 Ec2 LS1 LS2 MX E1 E2.
    destruct (transform_near nnreg1 trunc o1 n X err1 o1' W1 Ec1 MX LS1 E1) as (MW1 & _). destruct (transform_near nnreg2 trunc o2 n X err2 o2' W2 Ec2 MX LS2 E2) as (MW2 & _).
    destruct (inverse_R o1 C k p n W1 Ec1 Hk MC MW1) as (Y1 & I1 & MY1 & _). destruct (inverse_R o2 C k p n W2 Ec2 Hk MC MW2) as (Y2 & I2 & MY2 & _).
    rewrite I1, I2. f_equal. apply (distance_zero n); [exact MY1|exact MY2|].
    eapply Rle_trans; [exact (projection_nonexpansive nnreg1 nnreg2 trunc o1 o2 n X X err1 err2 o1' o2' W1 W2 Y1 Y2 Ec1 Ec2 LS1 LS2 MX MX E1 E2 I1 I2)|].
    apply Req_le. apply Sum_zero. intros. apply Sum_zero. intros. ring.
  Qed.
  Lemma projection_scaled nnreg trunc o n X X' s err err' o1 o2 W W' Y Y' : components_ (N := Rnum) o = Some C -> least_squares k p nnreg -> matrix n p X -> matrix n p X' ->
    0 <= s -> (forall i j, (i < n)%nat -> (j < p)%nat -> mat X' i j = s * mat X i j) ->
    nmf_transform (N := Rnum) nnreg trunc o X p false err = (o1, Ok W) -> nmf_transform (N := Rnum) nnreg trunc o X' p false err' = (o2, Ok W') ->
    inverse_transform (N := Rnum) o W k = Ok Y -> inverse_transform (N := Rnum) o W' k = Ok Y' ->
    forall i j, (i < n)%nat -> (j < p)%nat -> mat Y' i j = s * mat Y i j.
  Proof.
    intros Ec LS MX MX' Hs S E E' I I'.
    destruct (transform_near nnreg trunc o n X err o1 W Ec MX LS E) as (MW & _ & Nr & _). destruct (transform_near nnreg trunc o n X' err' o2 W' Ec MX' LS E') as (MW' & _ & Nr' & _).
    destruct (inverse_comb o n W Y Ec MW I) as [_ Q]. destruct (inverse_comb o n W' Y' Ec MW' I') as [_ Q'].
    intros i j Hi Hj. rewrite (Q i j Hi Hj), (Q' i j Hi Hj).
    pose proof (nonexpansive k p (mat C) _ _ _ _ (Nr' i Hi) (nearest_scaled k p (mat C) s _ _ Hs (Nr i Hi))) as G.
    assert (Z : inner p (fun j => mat X' i j - s * mat X i j) (fun j => mat X' i j - s * mat X i j) = 0) by (apply Sum_zero; intros j' Hj'; rewrite (S i j' Hi Hj'); ring).
    assert (Z' : inner p (fun j => comb k (mat C) (mat W' i) j - comb k (mat C) (fun c => s * mat W i c) j) (fun j => comb k (mat C) (mat W' i) j - comb k (mat C) (fun c => s * mat W i c) j) = 0) by (apply Rle_antisym; [lra|apply inner_sq]).
    pose proof (inner_zero p _ Z' j Hj) as D. cbv beta in D.
    replace (s * comb k (mat C) (mat W i) j) with (comb k (mat C) (fun c => s * mat W i c) j); [lra|]. unfold comb. rewrite <- Sum_scal. apply Sum_ext. intros. ring.
  Qed.
End Rows.

(** Rows do not influence each other. *)
Lemma mapM_app {A B} (f : A -> result B) l1 l2 r : mapM f (l1 ++ l2) = Ok r <-> exists r1 r2, mapM f l1 = Ok r1 /\ mapM f l2 = Ok r2 /\ r = r1 ++ r2.
Proof.
  revert r. induction l1 as [|a l1 IH]; intro r; cbn [mapM app].
  - split; [intro E; exists [], r; auto|intros (r1 & r2 & E1 & E2 & ->); injection E1 as <-; exact E2].
  - destruct (f a) as [y|e]; cbn [bind]; [|split; [discriminate|intros (? & ? & ? & _); discriminate]]. split.
    + intro E. destruct (mapM f (l1 ++ l2)) as [ys|] eqn:Ey; [|discriminate]. injection E as <-. destruct (proj1 (IH ys) eq_refl) as (r1 & r2 & E1 & E2 & ->). exists (y :: r1), r2. rewrite E1. auto.
    + intros (r1 & r2 & E1 & E2 & ->). destruct (mapM f l1) as [ys|] eqn:Ey; [|discriminate]. injection E1 as <-.
      pose proof (proj2 (IH (ys ++ r2)) (ex_intro _ ys (ex_intro _ r2 (conj eq_refl (conj E2 eq_refl))))) as Q. rewrite Q. reflexivity.
Qed.
Lemma transform_app (N : NumOps) nnreg trunc (o : nmf_state N) X1 X2 p integer W :
  snd (nmf_transform nnreg trunc o (X1 ++ X2) p integer false) = Ok W <->
  exists W1 W2, snd (nmf_transform nnreg trunc o X1 p integer false) = Ok W1 /\ snd (nmf_transform nnreg trunc o X2 p integer false) = Ok W2 /\ W = W1 ++ W2.
Proof.
  unfold nmf_transform. destruct (components_ o) as [C|]; cbn [snd]; [|split; [discriminate|intros (? & ? & ? & _); discriminate]].
  destruct (negb _); cbn [snd]; [split; [discriminate|intros (? & ? & ? & _); discriminate]|]. pose proof (mapM_app (nnreg (transposed C)) X1 X2) as M. split.
  - intro E. destruct (mapM _ (X1 ++ X2)) as [r|]; [|discriminate]. destruct (proj1 (M r) eq_refl) as (r1 & r2 & E1 & E2 & ->). rewrite E1, E2. cbn [snd] in E |- *. injection E as <-.
    eexists _, _. split; [reflexivity|]. split; [reflexivity|]. destruct integer; [apply map_app|reflexivity].
  - intros (W1 & W2 & E1 & E2 & ->). destruct (mapM _ X1) as [r1|] eqn:Q1; [|discriminate]. destruct (mapM _ X2) as [r2|] eqn:Q2; [|discriminate].
    rewrite (proj2 (M (r1 ++ r2)) (ex_intro _ r1 (ex_intro _ r2 (conj eq_refl (conj eq_refl eq_refl))))). cbn [snd] in *. injection E1 as <-. injection E2 as <-. destruct integer; [now rewrite map_app|reflexivity].
Qed.

(** ** Example: two components, three features *)
Definition ex_C : list (list R) := [[1; 0; 0]; [0; 1; 1]].
Definition ex_cone : nmf_state Rnum := mkNmf (N := Rnum) 2 (Some [2%nat]) false (Some ex_C) None None None None None.
(** Non-negative least squares on these components (other problems are refused). *)
Definition ex_nnls (A : list (list R)) (b : list R) : result (list R) :=
  if list_eq_dec (list_eq_dec Req_EM_T) A [[1; 0]; [0; 1]; [0; 1]] then Ok [Rmax 0 (entry b 0); Rmax 0 ((entry b 1 + entry b 2) / 2)] else Raise ValueError.
Lemma ex_nnls_best : least_squares 2 3 ex_nnls.
Proof.
  intros A b w. unfold ex_nnls. destruct (list_eq_dec _ _ _) as [->|]; [|discriminate]. intro E. injection E as <-.
  split; [reflexivity|]. split; [intros [|[|[|c]]]; cbn; try apply Rmax_l; lra|].
  intros v _ Pv. pose proof (Pv 0%nat) as P0. pose proof (Pv 1%nat) as P1. unfold residual, Sum. cbn. set (x := entry v 0) in *. set (y := entry v 1) in *.
  set (b0 := entry b 0). set (b1 := entry b 1). set (b2 := entry b 2).
  assert (Q : forall u z, 0 <= z -> (u - Rmax 0 u) * (u - Rmax 0 u) <= (u - z) * (u - z)).
  { intros u z Hz. unfold Rmax. destruct (Rle_dec 0 u) as [G|G]; [replace (u - u) with 0 by ring; rewrite Rmult_0_l; apply Rle_0_sqr|].
    apply Rnot_le_lt in G. assert (0 <= z * (z - 2 * u)) by (apply Rmult_le_pos; lra). lra. }
  pose proof (Q b0 x P0) as Q0. pose proof (Q ((b1 + b2) / 2) y P1) as Q1. lra.
Qed.
Lemma ex_C_matrix : matrix 2 3 ex_C. Proof. split; [reflexivity|repeat constructor]. Qed.
Lemma ex_transform X n err : matrix n 3 X -> exists o' W, nmf_transform (N := Rnum) ex_nnls (fun x => x) ex_cone X 3 false err = (o', Ok W).
Proof.
  intros [_ F]. assert (exists W, mapM (ex_nnls [[1; 0]; [0; 1]; [0; 1]]) X = Ok W) as (W & E).
  { clear. induction X as [|x X (W & E)]; [now exists []|]. cbn [mapM]. unfold ex_nnls at 1. destruct (list_eq_dec _ _ _) as [|Ne]; [|now destruct Ne]. cbn [bind]. rewrite E. cbn. eauto. }
  unfold nmf_transform. cbn [components_ ex_cone hd length Nat.eqb negb ex_C].
  match goal with |- context [match ?m with Raise _ => _ | Ok _ => _ end] => replace m with (@Ok (list (list R)) W) by (symmetry; exact E) end. eauto.
Qed.
