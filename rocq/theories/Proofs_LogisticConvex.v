(** The logistic and multinomial losses lie above their tangents, and the objectives of the
    L1 branch compute them (C38, C91). *)
From Coq Require Import ZArith List Bool Arith Reals Lra Lia.
From Verif Require Import Prelude Num Model_Mpi Model_Rescale Spec_Rescale Model_Poisson Spec_Poisson
  Model_Logistic Spec_Logistic Proofs_Intersection Proofs_Rescale Proofs_Poisson Proofs_PoissonOpt Proofs_PoissonMore
  Proofs_Logistic Proofs_LogisticGrad Proofs_LogisticGrid Proofs_Multinomial Proofs_MultiGrid Proofs_LogisticIntercept.
Import ListNotations.
Local Open Scope R_scope.

(** Sum over all pairs. *)
Lemma Sum_app a b f : Sum (a + b) f = Sum a f + Sum b (fun i => f (a + i)%nat).
Proof.
  induction b as [|b IH]; [rewrite Nat.add_0_r, Sum_0; ring|].
  rewrite Nat.add_succ_r, !Sum_S, IH. ring.
Qed.
Lemma Sum_pairs a b f : Sum (a * b) f = Sum a (fun i => Sum b (fun j => f (i * b + j)%nat)).
Proof.
  induction a as [|a IH]; [reflexivity|]. rewrite Sum_S, <- IH. replace (S a * b)%nat with (a * b + b)%nat by lia. apply Sum_app.
Qed.

Section Binary.
  Variables (n p : nat) (X : list (list R)) (y : list R) (mask : option (list R)) (sw : list R).
  Hypothesis HX : matrix n p X.
  Hypothesis Hn : (0 < n)%nat.
  Hypothesis Hy : length y = n.
  Hypothesis Hm : match mask with Some m => length m = p | None => True end.
  Hypothesis Hsw : length sw = n.
  Hypothesis Hpos : forall i, (i < n)%nat -> 0 <= entry sw i.
  Notation L := (llg p X y 0 mask (Some sw)).

  Lemma binary_along (w w' : list R) q : q = p \/ q = S p -> length w = q -> length w' = q ->
    Sum q (fun j => entry (snd (snd (L w))) j * (entry w' j - entry w j)) =
    / INR n * Sum n (fun i => entry sw i * ((/ (1 + exp (- (entry y i * et p X mask w i))) - 1) * entry y i)
                              * (et p X mask w' i - et p X mask w i)).
  Proof.
    intros Hq Lw Lw'. assert (Hw : length w = p \/ length w = S p) by lia. assert (Hw' : length w' = p \/ length w' = S p) by lia.
    destruct (bgrad_shape n p X y 0 mask (Some sw) HX Hn Hy Hm Hsw w Hw) as (g & Lg & Es & Hg). rewrite Es.
    set (a := fun i => entry sw i * ((/ (1 + exp (- (entry y i * et p X mask w i))) - 1) * entry y i)).
    assert (Eg : Sum p (fun j => entry g j * (entry w' j - entry w j)) =
      / INR n * Sum n (fun i => a i * (Sum p (fun j => mat X i j * (mkf p mask j * entry w' j)) - Sum p (fun j => mat X i j * (mkf p mask j * entry w j))))).
    { rewrite (Sum_ext p _ (fun j => / INR n * Sum n (fun i => a i * (mat X i j * (mkf p mask j * entry w' j) - mat X i j * (mkf p mask j * entry w j))))).
      - rewrite Sum_scal. f_equal. rewrite Sum_swap. apply Sum_ext. intros i Hi. rewrite Sum_scal, Sum_minus. reflexivity.
      - intros j Hj. rewrite (Hg j Hj).
        rewrite (Sum_ext n (fun i => a i * _) (fun i => (entry sw i * ((/ (1 + exp (- (entry y i * et p X mask w i))) - 1) * entry y i * mat X i j)) * (mkf p mask j * (entry w' j - entry w j)))).
        + rewrite Sum_scal_r. change (weights n (Some sw)) with sw. ring.
        + intros i Hi. unfold a. ring. }
    assert (Ed : forall i, et p X mask w' i - et p X mask w i = (bi p mask w' - bi p mask w) +
      (Sum p (fun j => mat X i j * (mkf p mask j * entry w' j)) - Sum p (fun j => mat X i j * (mkf p mask j * entry w j)))) by (intro; unfold et; ring).
    rewrite (Sum_ext n _ (fun i => a i * (bi p mask w' - bi p mask w) + a i * (Sum p (fun j => mat X i j * (mkf p mask j * entry w' j)) - Sum p (fun j => mat X i j * (mkf p mask j * entry w j)))))
      by (intros i Hi; rewrite Ed; fold (a i); ring).
    rewrite Sum_plus, Sum_scal_r, Rmult_plus_distr_l, <- Eg.
    rewrite (bi_value n p y mask Hn Hy Hm w Hw), (bi_value n p y mask Hn Hy Hm w' Hw'). rewrite Lw, Lw'.
    destruct Hq as [Hq|Hq]; subst q.
    - destruct (Nat.eqb_spec p (S p)); [lia|]. rewrite Rminus_0_r, Rmult_0_r, Rmult_0_r, Rplus_0_l. reflexivity.
    - rewrite Nat.eqb_refl, Sum_S. rewrite Rplus_comm. f_equal.
      + unfold entry at 1. rewrite app_nth2, Lg, Nat.sub_diag by lia. cbn [nth].
        rewrite (rsum_Sum n) by (apply (len_z0 n p X y mask (Some sw) HX Hy Hsw w)).
        rewrite (Sum_ext n (fun i => entry (z0 n p X y mask (Some sw) w) i) a).
        * rewrite <- INR_IZR_INZ. unfold Rdiv. ring.
        * intros i Hi. apply (entry_z0 n p X y mask (Some sw) HX Hn Hy Hm Hsw w Hw i Hi).
      + apply Sum_ext. intros j Hj. unfold entry at 1. rewrite app_nth1 by lia. reflexivity.
  Qed.

  Lemma binary_tangent (w w' : list R) q : q = p \/ q = S p -> length w = q -> length w' = q ->
    fst (snd (L w)) + Sum q (fun j => entry (snd (snd (L w))) j * (entry w' j - entry w j)) <= fst (snd (L w')).
  Proof.
    intros Hq Lw Lw'. assert (Hw : length w = p \/ length w = S p) by lia. assert (Hw' : length w' = p \/ length w' = S p) by lia.
    rewrite (binary_along w w' q) by assumption.
    rewrite (bloss_value n p X y 0 mask (Some sw) HX Hn Hy Hm Hsw w Hw), (bloss_value n p X y 0 mask (Some sw) HX Hn Hy Hm Hsw w' Hw').
    unfold blossf. change (weights n (Some sw)) with sw.
    fold (et p X mask w). fold (et p X mask w').
    assert (In : 0 < / INR n) by (apply Rinv_0_lt_compat, lt_0_INR; lia).
    match goal with |- / INR n * ?s + _ + / INR n * ?t <= / INR n * ?u + _ => enough (K : s + t <= u)
      by (apply (Rmult_le_compat_l _ _ _ (Rlt_le _ _ In)) in K; rewrite Rmult_plus_distr_l in K; lra) end.
    rewrite <- Sum_plus. apply Sum_le. intros i Hi. fold (et p X mask w i). fold (et p X mask w' i).
    pose proof (softplus_tangent (- (entry y i * et p X mask w i)) (- (entry y i * et p X mask w' i))) as T.
    set (u := - (entry y i * et p X mask w i)) in *. set (v := - (entry y i * et p X mask w' i)) in *.
    pose proof (exp_pos u) as Pu. specialize (Hpos i Hi).
    assert (Ev : v - u = - (entry y i * (et p X mask w' i - et p X mask w i))) by (unfold u, v; ring).
    rewrite Ev in T. clearbody u v.
    replace (entry sw i * ((/ (1 + exp u) - 1) * entry y i) * (et p X mask w' i - et p X mask w i))
      with (entry sw i * (exp u / (1 + exp u) * - (entry y i * (et p X mask w' i - et p X mask w i)))) by (field; lra).
    nra.
  Qed.
End Binary.

Section Multi.
  Variables (n p k : nat) (X Y : list (list R)) (mask : option (list (list R))) (sw : list R).
  Hypothesis HX : matrix n p X.
  Hypothesis HY : matrix n k Y.
  Hypothesis Hn : (0 < n)%nat.
  Hypothesis Hk : (0 < k)%nat.
  Hypothesis Hm : match mask with Some m => matrix k p m | None => True end.
  Hypothesis Hsw : length sw = n.
  Hypothesis Hpos : forall i, (i < n)%nat -> 0 <= entry sw i.
  Hypothesis Hone : forall i, (i < n)%nat -> Sum k (mat Y i) = 1.
  Notation L := (mlg p k X Y 0 mask sw).
  Notation W := (Wf p k mask).
  Notation B := (Bf p k).
  Notation es w := (escore p X (W w) (B w)).

  Lemma mq_of w q : q = p \/ q = S p -> length w = (k * q)%nat -> mq p k w = q /\ mhas p k w = Nat.ltb p q.
  Proof.
    intros Hq Lw. unfold mq, mhas. destruct (Nat.eqb_spec (length w) (k * S p)) as [E|E]; destruct Hq as [->| ->];
      destruct (Nat.ltb_spec p p); destruct (Nat.ltb_spec p (S p)); try lia; split; auto; nia.
  Qed.

  Lemma multi_along (w w' : list R) q : q = p \/ q = S p -> length w = (k * q)%nat -> length w' = (k * q)%nat ->
    Sum (k * q) (fun j => entry (snd (L w)) j * (entry w' j - entry w j)) =
    / INR n * Sum n (fun i => entry sw i * Sum k (fun c => (prob p k X (W w) (B w) i c - mat Y i c) * (es w' i c - es w i c))).
  Proof.
    intros Hq Lw Lw'. assert (Hw : length w = (k * p)%nat \/ length w = (k * S p)%nat) by (destruct Hq; subst q; auto).
    destruct (mq_of w q Hq Lw) as [Eq Eh]. destruct (mq_of w' q Hq Lw') as [Eq' Eh'].
    set (a := fun i c => entry sw i * (prob p k X (W w) (B w) i c - mat Y i c)).
    pose proof (fun c j Hc => mgrad_value n p k X Y 0 mask sw HX HY Hn Hk Hm Hsw w Hw c j Hc) as G. rewrite Eq in G.
    assert (Ec : forall c, (c < k)%nat -> Sum q (fun j => entry (snd (L w)) (c * q + j) * (entry w' (c * q + j) - entry w (c * q + j))) =
      / INR n * Sum n (fun i => a i c * (es w' i c - es w i c))).
    { intros c Hc.
      assert (Ep : Sum p (fun j => entry (snd (L w)) (c * q + j) * (entry w' (c * q + j) - entry w (c * q + j))) =
        / INR n * Sum n (fun i => a i c * (Sum p (fun j => mat X i j * W w' c j) - Sum p (fun j => mat X i j * W w c j)))).
      { rewrite (Sum_ext p _ (fun j => / INR n * Sum n (fun i => a i c * (mat X i j * W w' c j - mat X i j * W w c j)))).
        - rewrite Sum_scal. f_equal. rewrite Sum_swap. apply Sum_ext. intros i Hi. rewrite Sum_scal, Sum_minus. reflexivity.
        - intros j Hj. rewrite G by (destruct Hq; lia). destruct (Nat.ltb_spec j p); [|lia].
          assert (E1 : W w' c j = mkm p mask c j * entry w' (c * q + j)) by (unfold Wf; now rewrite Eq').
          assert (E2 : W w c j = mkm p mask c j * entry w (c * q + j)) by (unfold Wf; now rewrite Eq).
          rewrite (Sum_ext n (fun i => a i c * (mat X i j * W w' c j - mat X i j * W w c j)) (fun i => entry sw i * (prob p k X (W w) (B w) i c - mat Y i c) * mat X i j * (mkm p mask c j * (entry w' (c * q + j) - entry w (c * q + j))))).
          + rewrite Sum_scal_r. ring.
          + intros i Hi. rewrite E1, E2. unfold a. ring. }
      rewrite (Sum_ext n _ (fun i => a i c * (Sum p (fun j => mat X i j * W w' c j) - Sum p (fun j => mat X i j * W w c j)) + a i c * (B w' c - B w c)))
        by (intros i Hi; unfold escore; ring).
      rewrite Sum_plus, Sum_scal_r, Rmult_plus_distr_l, <- Ep.
      assert (EB : B w' c - B w c = if Nat.ltb p q then entry w' (c * q + p) - entry w (c * q + p) else 0).
      { unfold Bf. rewrite Eh, Eh', Eq, Eq'. destruct (Nat.ltb p q); ring. }
      rewrite EB. clear EB.
      destruct Hq as [Hq|Hq]; clear Eq Eq' Eh Eh' Lw Lw'; subst q.
      - destruct (Nat.ltb_spec p p); [lia|]. ring.
      - destruct (Nat.ltb_spec p (S p)); [|lia]. rewrite Sum_S. f_equal. rewrite G by lia.
        destruct (Nat.ltb_spec p p); [lia|]. unfold a. ring. }
    rewrite Sum_pairs. rewrite (Sum_ext k _ _ Ec), Sum_scal. f_equal. rewrite Sum_swap. apply Sum_ext. intros i Hi.
    rewrite <- Sum_scal. apply Sum_ext. intros c Hc. unfold a. ring.
  Qed.

  Lemma multi_tangent (w w' : list R) q : q = p \/ q = S p -> length w = (k * q)%nat -> length w' = (k * q)%nat ->
    fst (L w) + Sum (k * q) (fun j => entry (snd (L w)) j * (entry w' j - entry w j)) <= fst (L w').
  Proof.
    intros Hq Lw Lw'. assert (Hw : length w = (k * p)%nat \/ length w = (k * S p)%nat) by (destruct Hq; subst q; auto).
    assert (Hw' : length w' = (k * p)%nat \/ length w' = (k * S p)%nat) by (destruct Hq; subst q; auto).
    rewrite (multi_along w w' q) by assumption.
    rewrite (mloss_value n p k X Y 0 mask sw HX HY Hn Hk Hm Hsw w Hw), (mloss_value n p k X Y 0 mask sw HX HY Hn Hk Hm Hsw w' Hw').
    unfold mlossf. assert (In : 0 < / INR n) by (apply Rinv_0_lt_compat, lt_0_INR; lia).
    match goal with |- / INR n * ?s + _ + / INR n * ?t <= / INR n * ?u + _ => enough (K : s + t <= u)
      by (apply (Rmult_le_compat_l _ _ _ (Rlt_le _ _ In)) in K; rewrite Rmult_plus_distr_l in K; lra) end.
    rewrite <- Sum_plus. apply Sum_le. intros i Hi. specialize (Hpos i Hi). specialize (Hone i Hi).
    assert (E : forall l (s : nat -> R), Sum k (fun c => mat Y i c * (l - s c)) = l - Sum k (fun c => mat Y i c * s c)).
    { intros l s. rewrite (Sum_ext k _ (fun c => mat Y i c * l - mat Y i c * s c)) by (intros; ring).
      rewrite Sum_minus, Sum_scal_r. rewrite Hone. ring. }
    rewrite !E. pose proof (lse_tangent k (es w i) (es w' i) Hk) as T.
    rewrite (Sum_ext k (fun c => (prob p k X (W w) (B w) i c - mat Y i c) * (es w' i c - es w i c))
      (fun c => exp (es w i c) / Sum k (fun d => exp (es w i d)) * (es w' i c - es w i c) - (mat Y i c * es w' i c - mat Y i c * es w i c)))
      by (intros; unfold prob; ring).
    rewrite !Sum_minus. nra.
  Qed.
End Multi.
