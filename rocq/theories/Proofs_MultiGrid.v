(** The regularization grid with several classes and the refitted intercepts. *)
From Coq Require Import ZArith List Bool Arith Reals Lra Lia.
From Verif Require Import Prelude Num Model_Mpi Model_Rescale Spec_Rescale Model_Poisson Spec_Poisson Deriv
  Model_Logistic Spec_Logistic Proofs_Intersection Proofs_Rescale Proofs_Poisson Proofs_PoissonOpt Proofs_PoissonMore
  Proofs_Logistic Proofs_LogisticGrad Proofs_LogisticGrid Proofs_Multinomial.
Import ListNotations.
Local Open Scope R_scope.

Definition ronehot (k : nat) (y : list nat) : list (list R) := map (fun v => map (ind v) (seq 0 k)) y.
Lemma onehot_matrix n k y : length y = n -> matrix n k (ronehot k y).
Proof.
  intro Hy. split; [unfold ronehot; now rewrite map_length|]. apply Forall_forall. intros r Hr. unfold ronehot in Hr.
  apply in_map_iff in Hr. destruct Hr as (v & <- & _). now rewrite map_length, seq_length.
Qed.
Lemma onehot_mat k y i c : (i < length y)%nat -> (c < k)%nat -> mat (ronehot k y) i c = ind (nth i y 0%nat) c.
Proof.
  intros Hi Hc. unfold mat, ronehot. rewrite (nth_mapd _ y i 0%nat) by exact Hi. unfold entry. now rewrite nth_map_seq.
Qed.
Lemma ind_sum k v : (v < k)%nat -> Sum k (ind v) = 1.
Proof.
  intro Hv. rewrite (Sum_ext k _ (fun c => if Nat.eqb c v then 1 else (fun _ => 0) c)).
  - rewrite Sum_at by exact Hv. rewrite Sum_const. ring.
  - intros c Hc. unfold ind. now rewrite Nat.eqb_sym.
Qed.

Lemma sum_ind y n c : length y = n -> Sum n (fun i => ind (nth i y 0%nat) c) = INR (count c y).
Proof.
  intros <-. induction y as [|a l IH]; [reflexivity|]. cbn [length]. rewrite Sum_shift, count_cons, plus_INR. cbn [nth]. rewrite IH.
  f_equal. unfold ind. rewrite Nat.eqb_sym. now destruct (Nat.eqb c a).
Qed.

Section MultiMax.
  Variables (n p k : nat) (X : list (list R)) (y : list nat).
  Hypothesis HX : matrix n p X.
  Hypothesis Hn : (0 < n)%nat.
  Hypothesis Hp : (0 < p)%nat.
  Hypothesis Hk : (1 < k)%nat.
  Hypothesis Hy : length y = n.
  Hypothesis Hl : Forall (fun v => (v < k)%nat) y.
  Hypothesis Hc : forall c, (c < k)%nat -> count c y <> 0%nat.
  Definition mscore (c j : nat) : R := / INR n * Sum n (fun i => (INR (count c y) / INR n - ind (nth i y 0%nat) c) * mat X i j).

  Lemma ne : y <> [].
  Proof. intro E. rewrite E in Hy. cbn in Hy. lia. Qed.
  Lemma no_absent : absent k y = 0%nat.
  Proof.
    unfold absent. destruct (filter (fun c => Nat.eqb (count c y) 0) (seq 0 k)) as [|c r] eqn:E; [reflexivity|].
    assert (I : In c (c :: r)) by now left. rewrite <- E in I. apply filter_In in I. destruct I as [I1 I2]. apply in_seq in I1. apply Nat.eqb_eq in I2. exfalso. apply (Hc c); [lia|exact I2].
  Qed.

  Lemma alpha_max_multi : exists A, alpha_max (N := Rnum) k p true X y = Ok A /\
    (forall c j, (c < k)%nat -> (j < p)%nat -> Rabs (mscore c j) <= A) /\
    exists c j, (c < k)%nat /\ (j < p)%nat /\ A = Rabs (mscore c j).
  Proof.
    set (b := multi_intercept (N := Rnum) k y).
    set (rows := map (fun c => repeat 0 p ++ [nth c b 0]) (seq 0 k)).
    assert (Fr : Forall (fun r => length r = S p) rows).
    { apply Forall_forall. intros r Hr. apply in_map_iff in Hr. destruct Hr as (c & <- & _). rewrite app_length, repeat_length. cbn. lia. }
    assert (Lr : length rows = k) by (unfold rows; now rewrite map_length, seq_length).
    set (w := concat rows).
    assert (Lw : length w = (k * S p)%nat) by (unfold w; rewrite (length_concat_eq (S p)), Lr by exact Fr; reflexivity).
    assert (Mh : mhas p k w = true) by (unfold mhas; rewrite Lw; apply Nat.eqb_refl).
    assert (Mq : mq p k w = S p) by (unfold mq; now rewrite Mh).
    assert (Ew : forall c j, (c < k)%nat -> (j < S p)%nat -> entry w (c * S p + j) = if Nat.ltb j p then 0 else entry b c).
    { intros c j Hck Hj. unfold w, entry at 1. rewrite (nth_concat (S p)) by (assumption || lia). unfold rows. rewrite nth_map_seq by exact Hck.
      destruct (Nat.ltb_spec j p) as [H|H].
      - rewrite app_nth1 by (rewrite repeat_length; exact H). apply entry_zeros.
      - rewrite app_nth2 by (rewrite repeat_length; lia). rewrite repeat_length. replace (j - p)%nat with 0%nat by lia. reflexivity. }
    assert (Hw : length w = (k * p)%nat \/ length w = (k * S p)%nat) by now right.
    pose proof (onehot_matrix n k y Hy) as HO.
    assert (Ls : length (repeat 1 n) = n) by apply repeat_length.
    pose proof (mgrad_value n p k X (ronehot k y) 0 None (repeat 1 n) HX HO Hn ltac:(lia) I Ls w Hw) as MG.
    set (G := snd (mlg p k X (ronehot k y) 0 None (repeat 1 n) w)) in *.
    assert (EA : alpha_max (N := Rnum) k p true X y =
      if Nat.eqb (length (removelast G)) 0 then Raise ValueError else Ok (nmaxl (N := Rnum) (map (nabs (n := Rnum)) (removelast G)))).
    { unfold alpha_max. destruct (Nat.eqb_spec k 1) as [E|_]; [lia|]. unfold G, mlg. destruct HX as [<- _]. reflexivity. }
    assert (LG : length G = (k * S p)%nat).
    { rewrite <- Lw. unfold G. apply (mgrad_length n p k X (ronehot k y) 0 None (repeat 1 n)); auto. lia. }
    assert (Er : forall i c, (c < k)%nat -> prob p k X (Wf p k None w) (Bf p k w) i c = INR (count c y) / INR n).
    { intros i c Hck.
      assert (Es : forall d, (d < k)%nat -> escore p X (Wf p k None w) (Bf p k w) i d = entry b d).
      { intros d Hd. unfold escore, Wf, Bf. rewrite Mh, Mq. rewrite Sum_zero.
        - rewrite Ew by lia. destruct (Nat.ltb_spec p p); [lia|ring].
        - intros j Hj. rewrite Ew by lia. destruct (Nat.ltb_spec j p); [ring|lia]. }
      unfold prob. rewrite (Es c Hck). rewrite (Sum_ext k _ (fun d => exp (entry b d))) by (intros d Hd; now rewrite Es).
      assert (Lb : length (b : list R) = k).
      { unfold b, multi_intercept. rewrite (class_rates_R k y ne Hl) by (rewrite no_absent; cbn; lra). now rewrite !map_length, seq_length. }
      pose proof (softmax_entry b c ltac:(rewrite Lb; exact Hck)) as SE. rewrite Lb in SE. rewrite <- SE.
      pose proof (multi_proba_R k y ne Hl ltac:(rewrite no_absent; cbn; lra)) as MP. unfold multi_proba in MP. fold b in MP. rewrite MP.
      unfold entry. rewrite nth_map_seq by exact Hck. unfold rate. destruct (Nat.eqb_spec (count c y) 0) as [E|E]; [now apply Hc in E|].
      rewrite no_absent. unfold freq. rewrite Hy. cbn [INR]. ring. }
    assert (EG1 : forall c j, (c < k)%nat -> (j < p)%nat -> entry G (c * S p + j) = mscore c j).
    { intros c j Hck Hj. specialize (MG c j Hck). rewrite Mq in MG. rewrite MG by lia. destruct (Nat.ltb_spec j p); [|lia].
      unfold mkm, mscore. rewrite Rmult_1_l, Rmult_0_l, Rplus_0_r. f_equal. apply Sum_ext. intros i Hi.
      rewrite entry_repeat by exact Hi. rewrite Er by exact Hck. rewrite onehot_mat by lia. ring. }
    assert (EG2 : forall c, (c < k)%nat -> entry G (c * S p + p) = 0).
    { intros c Hck. specialize (MG c p Hck). rewrite Mq in MG. rewrite MG by lia. destruct (Nat.ltb_spec p p); [lia|].
      rewrite (Sum_ext n _ (fun i => INR (count c y) / INR n - ind (nth i y 0%nat) c)).
      - rewrite Sum_minus, Sum_const. rewrite (sum_ind y n c Hy). assert (INR n <> 0) by (apply not_0_INR; lia). field. assumption.
      - intros i Hi. rewrite entry_repeat by exact Hi. rewrite Er by exact Hck. rewrite onehot_mat by lia. ring. }
    destruct (exists_last_or_nil G) as [E|(G' & a & E)]; [rewrite E in LG; cbn in LG; lia|].
    rewrite E, removelast_last in EA. rewrite E, app_length in LG. cbn [length] in LG.
    set (m := length G') in *. destruct (Nat.eqb_spec m 0) as [Em|Em]; [nia|].
    exists (nmaxl (N := Rnum) (map (nabs (n := Rnum)) G')). split; [exact EA|].
    destruct (max_of G' m eq_refl ltac:(lia)) as [M1 M2].
    assert (EG' : forall j, (j < m)%nat -> entry G' j = entry G j) by (intros j Hj; rewrite E; unfold entry; now rewrite app_nth1).
    assert (U : forall c j, (c < k)%nat -> (j < p)%nat -> Rabs (mscore c j) <= nmaxl (N := Rnum) (map (nabs (n := Rnum)) G')).
    { intros c j Hck Hj. rewrite <- EG1 by assumption. assert (Hix : (c * S p + j < m)%nat) by nia. rewrite <- EG' by exact Hix. now apply M1. }
    split; [exact U|]. destruct M2 as (ix & Hix & M2). rewrite EG' in M2 by exact Hix.
    pose proof (Nat.div_mod ix (S p) ltac:(lia)) as D. rewrite Nat.mul_comm in D. pose proof (Nat.mod_upper_bound ix (S p) ltac:(lia)) as B.
    assert (C : (ix / S p < k)%nat) by (apply Nat.div_lt_upper_bound; [lia|]; rewrite Nat.mul_comm; lia).
    destruct (Nat.eq_dec (ix mod S p) p) as [Ep|Ep].
    - rewrite D, Ep, EG2, Rabs_R0 in M2 by exact C. exists 0%nat, 0%nat. split; [lia|]. split; [exact Hp|].
      apply Rle_antisym; [|apply U; lia]. rewrite M2. apply Rabs_pos.
    - exists (ix / S p)%nat, (ix mod S p). split; [exact C|]. split; [lia|]. rewrite M2, D at 1. rewrite EG1 by lia. reflexivity.
  Qed.
End MultiMax.
