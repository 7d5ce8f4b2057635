(** Proofs about stratified bootstraps, continued: the number of samples per class (C115). *)
From Coq Require Import ZArith List Bool Arith Lia Permutation Reals Lra.
From Flocq Require Import Core BinarySingleNaN.
From Verif Require Import Prelude F64 F64Facts Model_Intersection Model_Mpi Model_Fit Model_Labels Model_Classes Proofs_Intersection
  Proofs_Split Proofs_Classes.
Import ListNotations.

Section Draws.
  Local Open Scope R_scope.
  (** The quotient of two integers, rounded, has the right integer part. *)
  Lemma rounded_quotient a b : (1 <= a < 2 ^ 53)%Z -> (1 <= b <= 2 ^ 53)%Z -> Ztrunc (rnd64 (IZR a / IZR b)) = (a / b)%Z.
  Proof.
    intros Ha Hb. set (q := (a / b)%Z). assert (Hq : (0 <= q)%Z) by (apply Z.div_pos; lia).
    pose proof (Z.div_mod a b ltac:(lia)) as E. pose proof (Z.mod_pos_bound a b ltac:(lia)) as M. fold q in E.
    assert (Rb : 1 <= IZR b) by (apply (IZR_le 1); lia). assert (Ra : 1 <= IZR a) by (apply (IZR_le 1); lia).
    assert (Q1 : (q <= a)%Z) by nia.
    assert (L : IZR q <= rnd64 (IZR a / IZR b)).
    { rewrite <- (rnd64_IZR q) by lia. apply rnd64_le. apply (Rmult_le_reg_r (IZR b)); [lra|]. unfold Rdiv. rewrite Rmult_assoc, Rinv_l, Rmult_1_r by lra.
      rewrite <- mult_IZR. apply IZR_le. nia. }
    assert (U : rnd64 (IZR a / IZR b) < IZR q + 1).
    { assert (I53 : bpow radix2 (-53) <= / IZR b) by (change (bpow radix2 (-53)) with (/ IZR (2 ^ 53)); apply Rinv_le; [lra|apply IZR_le; lia]).
      pose proof (product_error (/ IZR b) (IZR a) I53 Ra) as P. rewrite (Rmult_comm (/ IZR b)) in P. fold (IZR a / IZR b) in P.
      assert (P2 : rnd64 (IZR a / IZR b) <= IZR a / IZR b + bpow radix2 (-53) * (IZR a / IZR b)) by (apply Rabs_le_inv in P; lra).
      assert (X1 : IZR a / IZR b <= IZR q + 1 - / IZR b).
      { apply (Rmult_le_reg_r (IZR b)); [lra|]. unfold Rdiv. rewrite Rmult_assoc, Rinv_l, Rmult_1_r by lra.
        replace ((IZR q + 1 - / IZR b) * IZR b) with (IZR q * IZR b + IZR b - 1) by (field; lra).
        rewrite <- mult_IZR, <- plus_IZR, <- minus_IZR. apply IZR_le. nia. }
      assert (X2 : bpow radix2 (-53) * (IZR a / IZR b) < / IZR b).
      { change (bpow radix2 (-53)) with (/ IZR (2 ^ 53)). apply (Rmult_lt_reg_r (IZR b)); [lra|]. unfold Rdiv.
        rewrite Rinv_l by lra. rewrite !Rmult_assoc, Rinv_l, Rmult_1_r by lra.
        assert (B : IZR a < IZR (2 ^ 53)) by (apply IZR_lt; lia). apply (Rmult_lt_reg_l (IZR (2 ^ 53))); [apply (IZR_lt 0); reflexivity|].
        rewrite <- Rmult_assoc, Rinv_r, Rmult_1_l, Rmult_1_r; [exact B|]. apply not_0_IZR. discriminate. }
      lra. }
    rewrite Ztrunc_floor.
    - apply Zfloor_imp. rewrite plus_IZR. split; assumption.
    - apply Rle_trans with (IZR q); [apply (IZR_le 0); exact Hq|exact L].
  Qed.
  Lemma draws_value total n_train c extra : (1 <= c <= total)%Z -> (1 <= n_train <= total)%Z -> (total * total < 2 ^ 53)%Z ->
    class_draws false total n_train c extra = Ok (Z.to_nat (n_train * c / total) + if extra then 1 else 0)%nat.
  Proof.
    intros Hc Hn Ht. assert (Ht1 : (total <= 2 ^ 53)%Z) by nia. assert (Hp : (1 <= n_train * c < 2 ^ 53)%Z) by nia.
    destruct (f64_of_Z_correct total ltac:(lia)) as [Et Ft]. destruct (f64_of_Z_correct (n_train * c) ltac:(lia)) as [Ep Fp].
    assert (Rt : 1 <= IZR total) by (apply (IZR_le 1); lia). assert (Rp : 1 <= IZR (n_train * c)) by (apply (IZR_le 1); lia).
    assert (D0 : 0 <= IZR (n_train * c) / IZR total <= IZR (n_train * c)).
    { assert (0 < / IZR total <= 1) by (split; [apply Rinv_0_lt_compat; lra|rewrite <- Rinv_1; apply Rinv_le; lra]). unfold Rdiv. split; [apply Rmult_le_pos; lra|].
      apply Rle_trans with (IZR (n_train * c) * 1); [apply Rmult_le_compat_l; lra|lra]. }
    destruct (bounded_round _ (n_train * c) ltac:(lia) D0) as [_ D2]. rewrite <- Ep, <- Et in D2.
    destruct (fdiv_correct (f64_of_Z (n_train * c)) (f64_of_Z total) (f64_of_Z_valid _) (f64_of_Z_valid _) Fp Ft ltac:(rewrite Et; lra) D2) as [V F]. rewrite Ep, Et in V.
    unfold class_draws. change (expected_draws false total n_train c) with (fdiv (f64_of_Z (n_train * c)) (f64_of_Z total)).
    rewrite (ftrunc_correct _ F), V, rounded_quotient by lia. reflexivity.
  Qed.
End Draws.

Definition in_class (rows : list (list nat)) (i : nat) (r : nat) : bool := existsb (Nat.eqb r) (nth i rows []).
Lemma in_class_iff rows i r : in_class rows i r = true <-> In r (nth i rows []).
Proof.
  unfold in_class. rewrite existsb_exists. split; [intros (x & H & E); apply Nat.eqb_eq in E; now subst|]. intro H. exists r. split; [exact H|apply Nat.eqb_refl].
Qed.
Lemma mapM_map {A B} (f : A -> result B) g l : (forall a, In a l -> f a = Ok (g a)) -> mapM f l = Ok (map g l).
Proof.
  induction l as [|a l IH]; intro H; [reflexivity|]. cbn. rewrite (H a) by now left. cbn [bind]. rewrite IH by (intros b Hb; apply H; now right). reflexivity.
Qed.
Lemma count_app {A} (f : A -> bool) l m : count f (l ++ m) = count f l + count f m.
Proof. induction l as [|a l IH]; [reflexivity|]. cbn. destruct (f a); rewrite IH; lia. Qed.
Lemma count_all {A} (f : A -> bool) l : (forall a, In a l -> f a = true) -> count f l = length l.
Proof. induction l as [|a l IH]; intro H; [reflexivity|]. cbn. rewrite (H a) by now left. rewrite IH by (intros b Hb; apply H; now right). lia. Qed.
Lemma count_no {A} (f : A -> bool) l : (forall a, In a l -> f a = false) -> count f l = 0.
Proof. induction l as [|a l IH]; intro H; [reflexivity|]. cbn. rewrite (H a) by now left. rewrite IH by (intros b Hb; apply H; now right). reflexivity. Qed.
Lemma count_concat_one {A} (f : A -> bool) (g : nat -> list A) i s : NoDup s -> In i s -> (forall a, In a (g i) -> f a = true) ->
  (forall j, In j s -> j <> i -> forall a, In a (g j) -> f a = false) -> count f (concat (map g s)) = length (g i).
Proof.
  intros N Hi Ha Hn. induction s as [|j s IH]; [destruct Hi|]. cbn. rewrite count_app. inversion N as [|? ? Nj Ns]; subst.
  destruct (Nat.eq_dec j i) as [->|D].
  - rewrite (count_all f (g i)) by exact Ha. rewrite (count_no f (concat (map g s))); [lia|]. intros a H. apply in_concat in H as (l & Hl & H). apply in_map_iff in Hl as (k & <- & Hk).
    apply (Hn k); [now right|intro; subst; contradiction|exact H].
  - rewrite (count_no f (g j)) by (apply Hn; [now left|exact D]). destruct Hi as [E|Hi]; [contradiction|]. rewrite IH; [reflexivity|exact Ns|exact Hi|]. intros k Hk. apply Hn. now right.
Qed.
Lemma nodup_app_disj {A} (l m : list A) : NoDup (l ++ m) -> forall a, In a l -> ~ In a m.
Proof. induction l as [|x l IH]; intros N a Ha; [destruct Ha|]. inversion N; subst. destruct Ha as [->|Ha]; [|now apply IH]. intro Hm. apply H1. apply in_or_app. now right. Qed.
Lemma nodup_app_r {A} (l m : list A) : NoDup (l ++ m) -> NoDup m.
Proof. induction l as [|x l IH]; intro N; [exact N|]. inversion N. now apply IH. Qed.
Lemma rows_disjoint (rows : list (list nat)) : NoDup (concat rows) -> forall i j a, i <> j -> In a (nth i rows []) -> ~ In a (nth j rows []).
Proof.
  induction rows as [|r rows IH]; intros N i j a D Hi; [destruct i; destruct Hi|]. cbn in N. pose proof (nodup_app_disj _ _ N) as P. apply nodup_app_r in N as N2.
  assert (C : forall k b, In b (nth k rows []) -> In b (concat rows)).
  { intros k b Hb. apply in_concat. exists (nth k rows []). split; [|exact Hb]. destruct (Nat.lt_ge_cases k (length rows)) as [L|L]; [now apply nth_In|]. rewrite nth_overflow in Hb by exact L. destruct Hb. }
  destruct i as [|i], j as [|j]; cbn in *; [congruence| | |].
  - intro Hj. apply (P a Hi). now apply (C j).
  - intro Hj. apply (P a Hj). now apply (C i).
  - apply (IH N2 i j); [congruence|exact Hi].
Qed.

Lemma stratified_count n_train extra perm shuffle rows train :
  NoDup (concat rows) -> (forall i, i < length rows -> Permutation (perm i) (nth i rows [])) -> (forall l, Permutation (shuffle l) l) ->
  (n_train <= Z.of_nat (length (concat rows)))%Z -> (Z.of_nat (length (concat rows)) * Z.of_nat (length (concat rows)) < 2 ^ 53)%Z ->
  stratified_train false n_train extra perm shuffle rows = Ok train -> forall i, i < length rows ->
  count (fun r => existsb (Nat.eqb r) (nth i rows [])) train =
    Nat.min (length (nth i rows [])) (Z.to_nat (n_train * Z.of_nat (length (nth i rows [])) / Z.of_nat (length (concat rows))) + if extra i then 1 else 0).
Proof.
  intros N Pm Ps Hn Hs H i Hi. unfold stratified_train in H. destruct (existsb _ rows) eqn:E2; [discriminate|]. destruct (Z.ltb_spec n_train (Z.of_nat (length rows))) as [|Hn1]; [discriminate|].
  set (T := Z.of_nat (length (concat rows))) in *.
  set (g := fun i => firstn (Z.to_nat (n_train * Z.of_nat (length (nth i rows [])) / T) + if extra i then 1 else 0) (perm i)).
  assert (C2 : forall j, j < length rows -> 2 <= length (nth j rows []) <= length (concat rows)).
  { intros j Hj. split; [|apply length_concat_ge; now apply nth_In]. destruct (le_lt_dec 2 (length (nth j rows []))) as [L|L]; [exact L|]. exfalso.
    assert (existsb (fun c => length c <? 2) rows = true) by (apply existsb_exists; exists (nth j rows []); split; [now apply nth_In|now apply Nat.ltb_lt]). congruence. }
  rewrite (mapM_map _ g) in H.
  2:{ intros j Hj. apply in_seq in Hj. specialize (C2 j ltac:(lia)). rewrite draws_value by lia. reflexivity. }
  cbn [bind] in H. injection H as <-. rewrite (count_perm _ _ _ (Ps (concat (map g (seq 0 (length rows)))))).
  assert (G : forall j a, j < length rows -> In a (g j) -> In a (nth j rows [])).
  { intros j a Hj Ha. apply (Permutation_in _ (Pm j Hj)). rewrite <- (firstn_skipn (Z.to_nat (n_train * Z.of_nat (length (nth j rows [])) / T) + if extra j then 1 else 0) (perm j)). apply in_or_app. now left. }
  rewrite (count_concat_one _ g i); [| apply seq_NoDup|apply in_seq; lia| |].
  - unfold g. rewrite firstn_length, (Permutation_length (Pm i Hi)). apply Nat.min_comm.
  - intros a Ha. apply (in_class_iff rows i a). now apply G.
  - intros j Hj D a Ha. apply in_seq in Hj. destruct (existsb (Nat.eqb a) (nth i rows [])) eqn:E; [|reflexivity]. exfalso. apply (in_class_iff rows i a) in E.
    exact (rows_disjoint rows N i j a (not_eq_sym D) E (G j a ltac:(lia) Ha)).
Qed.
