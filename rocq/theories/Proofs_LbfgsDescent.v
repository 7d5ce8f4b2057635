(** The L-BFGS direction over the reals is a descent direction. *)
From Coq Require Import String ZArith List Bool Arith Reals Lra Lia.
From Verif Require Import Prelude Num Spec_Rescale Proofs_Rescale Model_Lbfgs Proofs_Poisson Spec_Lbfgs
  Proofs_Lbfgs Proofs_LbfgsTrace Proofs_LbfgsVec Proofs_LbfgsReal Proofs_LbfgsDir Proofs_LbfgsTop.
Import ListNotations.
Local Open Scope R_scope.

Section Dot.
  Variable n : nat.
  Lemma dot_comm a b : dot n a b = dot n b a.
  Proof. unfold dot. apply Sum_ext. intros. ring. Qed.
  Lemma dot_vecadd_r a (y x : list R) (c : R) : length y = n -> length x = n ->
    dot n a (vecadd (N := Rnum) y x c) = dot n a y + c * dot n a x.
  Proof.
    intros Hy Hx. unfold dot. rewrite <- Sum_scal, <- Sum_plus. apply Sum_ext. intros i Hi.
    rewrite (entry_vecadd n) by assumption. ring.
  Qed.
  Lemma dot_vecadd_l a (y x : list R) (c : R) : length y = n -> length x = n ->
    dot n (vecadd (N := Rnum) y x c) a = dot n y a + c * dot n x a.
  Proof. intros. rewrite dot_comm, dot_vecadd_r by assumption. rewrite (dot_comm a y), (dot_comm a x). reflexivity. Qed.
  Lemma dot_scale_r a (y : list R) (c : R) : length y = n -> dot n a (vecscale (N := Rnum) y c) = c * dot n a y.
  Proof.
    intros Hy. unfold dot. rewrite <- Sum_scal. apply Sum_ext. intros i Hi. rewrite (entry_vecscale n) by assumption. ring.
  Qed.
  Lemma dot_ncpy_l (a b : list R) : length a = n -> dot n (vecncpy (N := Rnum) a) b = - dot n a b.
  Proof.
    intros Ha. unfold dot. replace (- Sum n _) with (Sum n (fun i => -1 * (entry a i * entry b i))) by (rewrite Sum_scal; ring).
    apply Sum_ext. intros i Hi. rewrite (entry_vecncpy n) by assumption. ring.
  Qed.
  Lemma dot_pos a : 0 <= dot n a a.
  Proof. apply Sum_nonneg. intros. nra. Qed.
  Lemma dot_zero_entry a : dot n a a = 0 -> forall i, (i < n)%nat -> entry a i = 0.
  Proof.
    intros H i Hi. unfold dot in H.
    assert (Hs : forall k, (k <= n)%nat -> Sum k (fun i => entry a i * entry a i) <= 0).
    { intros k Hk. rewrite <- H. clear H Hi. induction Hk; [apply Rle_refl|]. rewrite Sum_S. nra. }
    specialize (Hs (S i) Hi). rewrite Sum_S in Hs.
    assert (0 <= Sum i (fun i => entry a i * entry a i)) by (apply Sum_nonneg; intros; nra). nra.
  Qed.
  Lemma dot_zero_l a b : (forall i, (i < n)%nat -> entry a i = 0) -> dot n a b = 0.
  Proof. intros H. unfold dot. apply Sum_zero. intros i Hi. rewrite H by exact Hi. ring. Qed.
End Dot.

Section TwoLoop.
  Variable n : nat.
  Definition good_pair (p : list R * list R) : Prop := length (fst p) = n /\ length (snd p) = n /\ 0 < dot n (snd p) (fst p).
  Definition H (pairs : list (list R * list R)) (gamma : R) (q : list R) : list R := two_loop (N := Rnum) pairs gamma q.

  Definition alpha (s y q : list R) : R := dot n s q / dot n y s.
  Definition reduce (s y q : list R) : list R := vecadd (N := Rnum) q y (- alpha s y q).

  Lemma H_cons s y older gamma q : length s = n -> length y = n -> length q = n ->
    length (H older gamma (reduce s y q)) = n ->
    H ((s, y) :: older) gamma q =
    vecadd (N := Rnum) (H older gamma (reduce s y q)) s (alpha s y q - dot n y (H older gamma (reduce s y q)) / dot n y s).
  Proof.
    intros Hs Hy Hq Hl. unfold H at 1. cbn [two_loop]. cbv zeta.
    rewrite !(vecdot_dot n s q), !(vecdot_dot n y s) by assumption.
    change (vecadd q y (nopp (ndiv (dot n s q) (dot n y s)))) with (reduce s y q).
    change (two_loop older gamma (reduce s y q)) with (H older gamma (reduce s y q)).
    rewrite (vecdot_dot n y) by assumption. reflexivity.
  Qed.

  Lemma length_H gamma pairs : Forall good_pair pairs -> forall q, length q = n -> length (H pairs gamma q) = n.
  Proof.
    induction 1 as [|[s y] older (Hs & Hy & _) _ IH]; intros q Hq.
    - now apply length_vecscale.
    - cbn [fst snd] in *. assert (Hr : length (reduce s y q) = n) by (apply length_vecadd; assumption).
      rewrite H_cons by auto. apply length_vecadd; auto.
  Qed.

  Lemma H_bilinear gamma s y older a q : good_pair (s, y) -> Forall good_pair older -> length a = n -> length q = n ->
    dot n a (H ((s, y) :: older) gamma q) =
    dot n (reduce s y a) (H older gamma (reduce s y q)) + dot n y s * alpha s y a * alpha s y q.
  Proof.
    intros (Hs & Hy & Hp) Ho Ha Hq. cbn [fst snd] in *.
    assert (Hr : length (reduce s y q) = n) by (apply length_vecadd; assumption).
    assert (Hl : length (H older gamma (reduce s y q)) = n) by (apply length_H; assumption).
    rewrite H_cons by assumption. set (r := H older gamma (reduce s y q)) in *.
    rewrite dot_vecadd_r by assumption. unfold reduce at 1. rewrite dot_vecadd_l by assumption.
    unfold alpha. rewrite (dot_comm n s a). rewrite (dot_comm n s q). field. lra.
  Qed.

  Lemma H_positive gamma pairs : 0 < gamma -> Forall good_pair pairs -> forall q, length q = n ->
    0 <= dot n q (H pairs gamma q) /\ (dot n q (H pairs gamma q) = 0 -> forall i, (i < n)%nat -> entry q i = 0).
  Proof.
    intros Hg HF. induction HF as [|[s y] older Hp Ho IH]; intros q Hq.
    - unfold H. cbn [two_loop]. rewrite dot_scale_r by assumption. pose proof (dot_pos n q). split; [nra|].
      intros E. apply dot_zero_entry. nra.
    - rewrite H_bilinear by assumption. destruct Hp as (Hs & Hy & Hp). cbn [fst snd] in *.
      assert (Hr : length (reduce s y q) = n) by (apply length_vecadd; assumption).
      destruct (IH (reduce s y q) Hr) as [I1 I2]. set (h := dot n (reduce s y q) (H older gamma (reduce s y q))) in *.
      set (a := alpha s y q) in *. assert (0 <= dot n y s * a * a) by (rewrite Rmult_assoc; apply Rmult_le_pos; [lra|nra]).
      split; [lra|]. intros E. assert (E1 : h = 0) by lra. assert (E2 : dot n y s * a * a = 0) by lra.
      assert (Ea : a = 0) by (destruct (Req_dec a 0) as [|Hn]; [assumption|]; exfalso; assert (0 < a * a) by nra; nra).
      intros i Hi. specialize (I2 E1 i Hi). unfold reduce in I2. rewrite (entry_vecadd n) in I2 by assumption. fold a in I2. rewrite Ea in I2. lra.
  Qed.

  Lemma H_symmetric gamma pairs : Forall good_pair pairs -> forall a q, length a = n -> length q = n ->
    dot n a (H pairs gamma q) = dot n q (H pairs gamma a).
  Proof.
    induction 1 as [|[s y] older Hp Ho IH]; intros a q Ha Hq.
    - unfold H. cbn [two_loop]. rewrite !dot_scale_r by assumption. now rewrite dot_comm.
    - rewrite !H_bilinear by assumption. destruct Hp as (Hs & Hy & Hp). cbn [fst snd] in *.
      rewrite IH by (apply length_vecadd; assumption). ring.
  Qed.

  Lemma H_zero gamma pairs : Forall good_pair pairs -> forall q, length q = n -> (forall i, (i < n)%nat -> entry q i = 0) ->
    forall i, (i < n)%nat -> entry (H pairs gamma q) i = 0.
  Proof.
    induction 1 as [|[s y] older (Hs & Hy & Hp) Ho IH]; intros q Hq Hz i Hi; cbn [fst snd] in *.
    - unfold H. cbn [two_loop]. rewrite (entry_vecscale n) by assumption. rewrite Hz by exact Hi. ring.
    - assert (Ea : alpha s y q = 0).
      { unfold alpha. rewrite dot_comm, dot_zero_l by assumption. unfold Rdiv. ring. }
      assert (Hr : length (reduce s y q) = n) by (apply length_vecadd; assumption).
      assert (Hz' : forall i, (i < n)%nat -> entry (reduce s y q) i = 0).
      { intros k Hk. unfold reduce. rewrite (entry_vecadd n) by assumption. rewrite Ea, Hz by exact Hk. ring. }
      assert (Hl : length (H older gamma (reduce s y q)) = n) by (apply length_H; assumption).
      rewrite H_cons by assumption. rewrite (entry_vecadd n) by assumption. rewrite IH by assumption.
      rewrite Ea, (dot_comm n y), dot_zero_l by (intros; now apply IH). unfold Rdiv. ring.
  Qed.

  (** The secant equation. *)
  Lemma H_secant gamma s y older : good_pair (s, y) -> Forall good_pair older -> H ((s, y) :: older) gamma y = s.
  Proof.
    intros (Hs & Hy & Hp) Ho. cbn [fst snd] in *.
    assert (Ea : alpha s y y = 1). { unfold alpha. rewrite (dot_comm n s y). field. lra. }
    assert (Hr : length (reduce s y y) = n) by (apply length_vecadd; assumption).
    assert (Hz : forall i, (i < n)%nat -> entry (reduce s y y) i = 0).
    { intros k Hk. unfold reduce. rewrite (entry_vecadd n) by assumption. rewrite Ea. ring. }
    assert (Hl : length (H older gamma (reduce s y y)) = n) by (apply length_H; assumption).
    rewrite H_cons by assumption. apply (nth_ext _ _ 0 0); [rewrite Hs; now apply length_vecadd|].
    intros i Hi. rewrite (length_vecadd n) in Hi by assumption.
    change (entry (vecadd (N := Rnum) (H older gamma (reduce s y y)) s (alpha s y y - dot n y (H older gamma (reduce s y y)) / dot n y s)) i = entry s i).
    rewrite (entry_vecadd n) by assumption. rewrite (dot_comm n y (H older gamma (reduce s y y))).
    rewrite dot_zero_l by (intros; now apply H_zero). rewrite H_zero, Ea by assumption. field. lra.
  Qed.

  Lemma yy_pos s y : good_pair (s, y) -> 0 < dot n y y.
  Proof.
    intros (Hs & Hy & Hp). cbn [fst snd] in *. destruct (Rle_lt_or_eq_dec _ _ (dot_pos n y)) as [|E]; [assumption|].
    symmetry in E. exfalso. rewrite dot_zero_l in Hp; [lra|]. now apply dot_zero_entry.
  Qed.

  Lemma direction_descends pairs g : Forall good_pair pairs -> length g = n -> (exists i, (i < n)%nat /\ entry g i <> 0) ->
    dot n g (bfgs_direction (N := Rnum) pairs (vecncpy (N := Rnum) g)) < 0.
  Proof.
    intros HF Hg (i & Hi & Hne).
    assert (Hq : length (vecncpy (N := Rnum) g) = n) by now apply length_vecncpy.
    assert (K : forall v, dot n g v = - dot n (vecncpy (N := Rnum) g) v) by (intros; rewrite dot_ncpy_l by assumption; ring).
    assert (Pos : forall gamma ps, 0 < gamma -> Forall good_pair ps -> dot n g (H ps gamma (vecncpy (N := Rnum) g)) < 0).
    { intros gamma ps Hgam Hps. rewrite K. destruct (H_positive gamma ps Hgam Hps _ Hq) as [P1 P2].
      destruct (Rle_lt_or_eq_dec _ _ P1) as [|E]; [lra|]. exfalso. symmetry in E. specialize (P2 E i Hi).
      rewrite (entry_vecncpy n) in P2 by assumption. lra. }
    destruct pairs as [|[s y] older].
    - cbn [bfgs_direction]. specialize (Pos 1 [] ltac:(lra) ltac:(constructor)).
      unfold H in Pos. cbn [two_loop] in Pos. rewrite dot_scale_r in Pos by assumption. lra.
    - inversion HF as [|? ? Hp Ho]; subst. cbn [bfgs_direction]. destruct Hp as (Hs & Hy & Hp). pose proof Hp as Hp'. cbn [fst snd] in *.
      rewrite !(vecdot_dot n) by assumption. apply (Pos (dot n y s / dot n y y)); [|exact HF].
      apply Rdiv_lt_0_compat; [exact Hp|]. apply (yy_pos s y). repeat split; assumption.
  Qed.

  Lemma direction_secant s y older : good_pair (s, y) -> Forall good_pair older ->
    bfgs_direction (N := Rnum) ((s, y) :: older) y = s.
  Proof. intros Hp Ho. cbn [bfgs_direction]. now apply H_secant. Qed.
End TwoLoop.
