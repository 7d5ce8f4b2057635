(** Convergence of the optimizer on strongly convex objectives (C106). *)
From Coq Require Import String ZArith List Bool Arith Reals Lra Lia.
From Verif Require Import Prelude Num Spec_Rescale Proofs_Rescale Model_Lbfgs Proofs_Poisson Spec_Lbfgs Spec_LbfgsRate
  Proofs_Lbfgs Proofs_LbfgsTrace Proofs_LbfgsVec Proofs_LbfgsReal Proofs_LbfgsTop Proofs_LbfgsDir Proofs_LbfgsDescent
  Proofs_LbfgsCurv Proofs_LbfgsMain Proofs_LbfgsOpts.
Import ListNotations.
Local Open Scope R_scope.

(** ** Norms *)
Section Norms.
  Variable n : nat.
  Lemma norm_pos a : 0 <= norm n a.
  Proof. apply sqrt_pos. Qed.
  Lemma norm_sq a : norm n a * norm n a = dot n a a.
  Proof. apply sqrt_sqrt, dot_pos. Qed.
  Lemma dot_le a b : Rabs (dot n a b) <= norm n a * norm n b.
  Proof. exact (cauchy n (fun i => entry a i) (fun i => entry b i)). Qed.
  Lemma sq_le a b : 0 <= b -> a * a <= b * b -> a <= b.
  Proof. intros. nra. Qed.
  Lemma norm_vecadd (a b : list R) (c : R) : length a = n -> length b = n ->
    norm n (vecadd (N := Rnum) a b c) <= norm n a + Rabs c * norm n b.
  Proof.
    intros Ha Hb. pose proof (norm_pos a) as Pa. pose proof (norm_pos b) as Pb. pose proof (Rabs_pos c) as Pc.
    assert (P : 0 <= Rabs c * norm n b) by (apply Rmult_le_pos; assumption).
    apply sq_le; [lra|]. rewrite norm_sq. rewrite dot_vecadd_l by assumption.
    rewrite !dot_vecadd_r by assumption. rewrite (dot_comm n b a).
    pose proof (norm_sq a) as Ea. pose proof (norm_sq b) as Eb.
    assert (X : c * dot n a b <= Rabs c * (norm n a * norm n b)).
    { apply Rle_trans with (Rabs (c * dot n a b)); [apply Rle_abs|]. rewrite Rabs_mult.
      apply Rmult_le_compat_l; [exact Pc|apply dot_le]. }
    assert (Y : Rabs c * Rabs c = c * c) by (rewrite <- Rabs_mult; apply Rabs_right; nra).
    rewrite <- Ea, <- Eb.
    replace ((norm n a + Rabs c * norm n b) * (norm n a + Rabs c * norm n b)) with
      (norm n a * norm n a + 2 * (Rabs c * (norm n a * norm n b)) + (Rabs c * Rabs c) * (norm n b * norm n b)) by ring.
    rewrite Y. lra.
  Qed.
  Lemma norm_scale (a : list R) (c : R) : length a = n -> 0 <= c -> norm n (vecscale (N := Rnum) a c) = c * norm n a.
  Proof.
    intros Ha Hc. unfold norm at 1. rewrite dot_scale_r by assumption. rewrite dot_comm, dot_scale_r by assumption.
    rewrite <- norm_sq. replace (c * (c * (norm n a * norm n a))) with (Rsqr (c * norm n a)) by (unfold Rsqr; ring).
    apply sqrt_Rsqr. apply Rmult_le_pos; [exact Hc|apply norm_pos].
  Qed.
  Lemma norm_ncpy (a : list R) : length a = n -> norm n (vecncpy (N := Rnum) a) = norm n a.
  Proof.
    intros Ha. unfold norm. rewrite dot_ncpy_l by exact Ha. rewrite dot_comm, dot_ncpy_l by exact Ha. f_equal. ring.
  Qed.
  Lemma distance_diff (x y : list R) : length x = n -> length y = n -> distance n x y = norm n (vecdiff (N := Rnum) y x).
  Proof.
    intros Hx Hy. unfold distance, norm, dot. f_equal. apply Sum_ext. intros i Hi.
    rewrite !(entry_vecdiff n) by assumption. ring.
  Qed.
  Lemma along_diff (v x y : list R) : length x = n -> length y = n -> along n v x y = dot n v (vecdiff (N := Rnum) y x).
  Proof.
    intros Hx Hy. unfold along, dot. apply Sum_ext. intros i Hi. rewrite !(entry_vecdiff n) by assumption. ring.
  Qed.
End Norms.

(** ** The direction *)
Section Direction.
  Variable n : nat.
  Variables mu M : R.
  Hypothesis Hmu : 0 < mu.
  Hypothesis HM : 0 < M.
  Notation "| a |" := (norm n a) (at level 9, a at level 0, format "| a |").

  Definition tame (p : list R * list R) : Prop :=
    good_pair n p /\ mu * (norm n (fst p) * norm n (fst p)) <= dot n (snd p) (fst p) /\ norm n (snd p) <= M * norm n (fst p).

  Lemma tame_good ps : Forall tame ps -> Forall (good_pair n) ps.
  Proof. apply Forall_impl. intros p H. apply H. Qed.

  Lemma tame_s s y : tame (s, y) -> 0 < norm n s.
  Proof.
    intros ((_ & _ & H) & _ & _). cbn [fst snd] in *. destruct (Rle_lt_or_eq_dec _ _ (norm_pos n s)) as [|E]; [assumption|].
    exfalso. pose proof (dot_le n y s) as D. rewrite <- E, Rmult_0_r in D. apply Rabs_inv in D. lra.
  Qed.
  Lemma tame_sy s y : tame (s, y) -> mu * norm n s <= norm n y.
  Proof.
    intros T. pose proof (tame_s s y T) as P. destruct T as (_ & H & _). cbn [fst snd] in *.
    pose proof (dot_le n y s) as D. apply Rabs_inv in D.
    apply (Rmult_le_reg_r (norm n s)); [exact P|]. lra.
  Qed.

  Lemma lower gamma pairs c : 0 < c -> c <= gamma -> c <= mu / (M * M) -> Forall tame pairs -> forall q, length q = n ->
    c / 2 ^ length pairs * (norm n q * norm n q) <= dot n q (H pairs gamma q).
  Proof.
    intros Hc Hg Hcm HF. induction HF as [|[s y] older Hp Ho IH]; intros q Hq.
    - unfold H. cbn [two_loop length pow]. rewrite dot_scale_r by assumption. rewrite <- norm_sq.
      pose proof (norm_pos n q). unfold Rdiv. rewrite Rinv_1, Rmult_1_r. apply Rmult_le_compat_r; [nra|exact Hg].
    - pose proof Hp as (Hgp & T1 & T2). rewrite (H_bilinear n) by (try assumption; apply tame_good; exact Ho).
      pose proof Hgp as (Hs & Hy & Hpos). cbn [fst snd] in *.
      assert (Hr : length (reduce n s y q) = n) by (apply length_vecadd; assumption).
      specialize (IH (reduce n s y q) Hr). set (h := dot n (reduce n s y q) (H older gamma (reduce n s y q))) in *.
      set (al := alpha n s y q) in *. set (v := reduce n s y q) in *.
      cbn [length pow]. set (p := 2 ^ length older) in *. assert (Pp : 1 <= p).
      { unfold p. apply pow_R1_Rle. lra. }
      set (c' := c / p) in *.
      assert (Ec : c / (2 * p) = c' / 2) by (unfold c'; field; lra). rewrite Ec.
      assert (Pc : 0 < c') by (apply Rdiv_lt_0_compat; lra).
      assert (Lc : c' <= mu / (M * M)).
      { apply Rle_trans with c; [|exact Hcm]. unfold c'. apply (Rmult_le_reg_r p); [lra|]. unfold Rdiv.
        rewrite Rmult_assoc, Rinv_l, Rmult_1_r by lra. nra. }
      assert (Tr : norm n q <= norm n v + Rabs al * norm n y).
      { assert (Eq : q = vecadd (N := Rnum) v y al).
        { apply (nth_ext _ _ 0 0); [rewrite Hq; symmetry; now apply length_vecadd|]. intros i Hi. rewrite Hq in Hi.
          change (entry q i = entry (vecadd (N := Rnum) v y al) i). rewrite (entry_vecadd n) by assumption.
          unfold v, reduce. rewrite (entry_vecadd n) by assumption. fold al. ring. }
        rewrite Eq at 1. now apply norm_vecadd. }
      pose proof (norm_pos n q) as P1. pose proof (norm_pos n v) as P2. pose proof (norm_pos n y) as P3. pose proof (norm_pos n s) as P4.
      pose proof (Rabs_pos al) as P5.
      assert (Sq : norm n q * norm n q <= 2 * (norm n v * norm n v) + 2 * ((Rabs al * norm n y) * (Rabs al * norm n y))).
      { set (u := Rabs al * norm n y) in *. assert (0 <= u) by (apply Rmult_le_pos; assumption).
        apply Rle_trans with ((norm n v + u) * (norm n v + u)); [apply Rmult_le_compat; assumption|].
        pose proof (Rle_0_sqr (norm n v - u)) as Z. unfold Rsqr in Z. nra. }
      assert (Y : (Rabs al * norm n y) * (Rabs al * norm n y) * (mu / (M * M)) <= dot n y s * al * al).
      { replace ((Rabs al * norm n y) * (Rabs al * norm n y)) with (Rabs al * Rabs al * (norm n y * norm n y)) by ring.
        rewrite <- Rabs_mult, (Rabs_right (al * al)) by nra.
        assert (Y1 : norm n y * norm n y * (mu / (M * M)) <= dot n y s).
        { apply Rle_trans with (mu * (norm n s * norm n s)); [|exact T1].
          assert (Y2 : norm n y * norm n y <= M * norm n s * (M * norm n s)) by (apply Rmult_le_compat; assumption).
          apply Rle_trans with (M * norm n s * (M * norm n s) * (mu / (M * M))).
          - apply Rmult_le_compat_r; [|exact Y2]. apply Rlt_le, Rdiv_lt_0_compat; [lra|nra].
          - right. field. lra. }
        rewrite Rmult_assoc. assert (Y3 : 0 <= al * al) by nra.
        replace (dot n y s * al * al) with (al * al * dot n y s) by ring. now apply Rmult_le_compat_l. }
      assert (Z : c' * ((Rabs al * norm n y) * (Rabs al * norm n y)) <= dot n y s * al * al).
      { apply Rle_trans with (2 := Y). rewrite Rmult_comm. apply Rmult_le_compat_l; [|exact Lc].
        assert (0 <= Rabs al * norm n y) by (apply Rmult_le_pos; assumption). nra. }
      apply Rle_trans with (c' / 2 * (2 * (norm n v * norm n v) + 2 * ((Rabs al * norm n y) * (Rabs al * norm n y)))).
      + apply Rmult_le_compat_l; [lra|exact Sq].
      + lra.
  Qed.

  Lemma upper gamma pairs : 0 <= gamma -> gamma <= 1 / mu -> Forall tame pairs -> forall q, length q = n ->
    norm n (H pairs gamma q) <= INR (S (length pairs)) * (1 + M / mu) ^ (2 * length pairs) / mu * norm n q.
  Proof.
    intros Hg0 Hg HF. assert (Pk : 0 < M / mu) by (apply Rdiv_lt_0_compat; assumption).
    induction HF as [|[s y] older Hp Ho IH]; intros q Hq.
    - unfold H. cbn [two_loop length]. rewrite norm_scale by assumption.
      apply Rmult_le_compat_r; [apply norm_pos|]. change (2 * 0)%nat with O. change (INR 1) with 1. cbn [pow].
      rewrite Rmult_1_l. exact Hg.
    - pose proof Hp as (Hgp & T1 & T2). pose proof (tame_s s y Hp) as Ps. pose proof Hgp as (Hs & Hy & Hpos). cbn [fst snd] in *.
      assert (Hr : length (reduce n s y q) = n) by (apply length_vecadd; assumption).
      pose proof (length_H n gamma older (tame_good _ Ho) _ Hr) as Hl.
      rewrite (H_cons n) by assumption. specialize (IH (reduce n s y q) Hr).
      set (r := H older gamma (reduce n s y q)) in *.
      set (k := 1 + M / mu) in *. assert (Pk1 : 1 < k) by (unfold k; lra).
      set (B := INR (S (length older)) * k ^ (2 * length older) / mu) in *.
      assert (PB : 0 < B).
      { unfold B. apply Rdiv_lt_0_compat; [|exact Hmu]. apply Rmult_lt_0_compat; [apply lt_0_INR; lia|apply pow_lt; lra]. }
      pose proof (norm_pos n q) as Pq. pose proof (norm_pos n r) as Pr. pose proof (norm_pos n y) as Py.
      assert (K1 : norm n y * norm n s / dot n y s <= M / mu).
      { apply (Rmult_le_reg_r (dot n y s)); [exact Hpos|]. unfold Rdiv at 1. rewrite Rmult_assoc, Rinv_l, Rmult_1_r by lra.
        apply Rle_trans with (M * norm n s * norm n s); [apply Rmult_le_compat_r; lra|].
        apply Rle_trans with (M / mu * (mu * (norm n s * norm n s))); [right; field; lra|].
        apply Rmult_le_compat_l; [lra|exact T1]. }
      assert (K2 : norm n s * norm n s / dot n y s <= 1 / mu).
      { apply (Rmult_le_reg_r (dot n y s)); [exact Hpos|]. unfold Rdiv at 1. rewrite Rmult_assoc, Rinv_l, Rmult_1_r by lra.
        apply Rle_trans with (1 / mu * (mu * (norm n s * norm n s))); [right; field; lra|].
        apply Rmult_le_compat_l; [|exact T1]. apply Rlt_le, Rdiv_lt_0_compat; lra. }
      assert (Ea : Rabs (alpha n s y q) <= norm n s * norm n q / dot n y s).
      { unfold alpha, Rdiv. rewrite Rabs_mult, (Rabs_right (/ dot n y s)) by (apply Rle_ge, Rlt_le, Rinv_0_lt_compat, Hpos).
        apply Rmult_le_compat_r; [apply Rlt_le, Rinv_0_lt_compat, Hpos|apply dot_le]. }
      assert (Ev : norm n (reduce n s y q) <= k * norm n q).
      { unfold reduce. eapply Rle_trans; [apply norm_vecadd; assumption|]. rewrite Rabs_Ropp.
        assert (Rabs (alpha n s y q) * norm n y <= M / mu * norm n q); [|unfold k; lra].
        apply Rle_trans with (norm n s * norm n q / dot n y s * norm n y); [apply Rmult_le_compat_r; assumption|].
        replace (norm n s * norm n q / dot n y s * norm n y) with (norm n y * norm n s / dot n y s * norm n q) by (field; lra).
        apply Rmult_le_compat_r; assumption. }
      eapply Rle_trans; [apply norm_vecadd; assumption|].
      assert (Eb : Rabs (dot n y r / dot n y s) * norm n s <= M / mu * norm n r).
      { unfold Rdiv at 1. rewrite Rabs_mult, (Rabs_right (/ dot n y s)) by (apply Rle_ge, Rlt_le, Rinv_0_lt_compat, Hpos).
        apply Rle_trans with (norm n y * norm n r * / dot n y s * norm n s).
        - apply Rmult_le_compat_r; [lra|]. apply Rmult_le_compat_r; [apply Rlt_le, Rinv_0_lt_compat, Hpos|apply dot_le].
        - replace (norm n y * norm n r * / dot n y s * norm n s) with (norm n y * norm n s / dot n y s * norm n r) by (field; lra).
          apply Rmult_le_compat_r; assumption. }
      assert (Ea' : Rabs (alpha n s y q) * norm n s <= 1 / mu * norm n q).
      { apply Rle_trans with (norm n s * norm n q / dot n y s * norm n s); [apply Rmult_le_compat_r; lra|].
        replace (norm n s * norm n q / dot n y s * norm n s) with (norm n s * norm n s / dot n y s * norm n q) by (field; lra).
        apply Rmult_le_compat_r; assumption. }
      assert (Es : Rabs (alpha n s y q - dot n y r / dot n y s) * norm n s <= 1 / mu * norm n q + M / mu * norm n r).
      { apply Rle_trans with ((Rabs (alpha n s y q) + Rabs (dot n y r / dot n y s)) * norm n s).
        - apply Rmult_le_compat_r; [lra|]. unfold Rminus. eapply Rle_trans; [apply Rabs_triang|]. rewrite Rabs_Ropp. apply Rle_refl.
        - lra. }
      assert (Er : norm n r <= B * (k * norm n q)).
      { apply Rle_trans with (1 := IH). apply Rmult_le_compat_l; [lra|exact Ev]. }
      apply Rle_trans with (k * norm n r + 1 / mu * norm n q); [unfold k; lra|].
      apply Rle_trans with (k * (B * (k * norm n q)) + 1 / mu * norm n q).
      + apply Rplus_le_compat_r. apply Rmult_le_compat_l; lra.
      + replace (k * (B * (k * norm n q)) + 1 / mu * norm n q) with ((k * k * B + 1 / mu) * norm n q) by ring.
        apply Rmult_le_compat_r; [exact Pq|]. cbn [length]. rewrite (S_INR (S (length older))).
        replace (2 * S (length older))%nat with (S (S (2 * length older))) by lia. cbn [pow].
        set (w := k ^ (2 * length older)) in *. assert (Pw : 1 <= w) by (unfold w; apply pow_R1_Rle; lra).
        unfold B. set (j := INR (S (length older))) in *.
        replace (k * k * (j * w / mu) + 1 / mu) with ((j * (k * (k * w)) + 1) / mu) by (field; lra).
        replace ((j + 1) * (k * (k * w)) / mu) with ((j * (k * (k * w)) + k * (k * w)) / mu) by (field; lra).
        unfold Rdiv. apply Rmult_le_compat_r; [apply Rlt_le, Rinv_0_lt_compat, Hmu|].
        assert (1 <= k * (k * w)); [|lra]. assert (1 <= k * w) by nra. nra.
  Qed.

  Lemma gamma_bounds s y : tame (s, y) -> mu / (M * M) <= dot n y s / dot n y y <= 1 / mu.
  Proof.
    intros T. pose proof (tame_s s y T) as Ps. pose proof (tame_sy s y T) as Psy. pose proof T as (Hg & T1 & T2). cbn [fst snd] in *.
    pose proof (yy_pos n s y Hg) as Pyy. pose proof Hg as (_ & _ & Hpos). cbn [fst snd] in *.
    pose proof (norm_sq n y) as Ey. pose proof (norm_pos n y) as Py. split.
    - apply (Rmult_le_reg_r (dot n y y)); [exact Pyy|]. unfold Rdiv at 2. rewrite Rmult_assoc, Rinv_l, Rmult_1_r by lra.
      apply Rle_trans with (2 := T1). rewrite <- Ey.
      apply Rle_trans with (mu / (M * M) * (M * norm n s * (M * norm n s))); [|right; field; lra].
      apply Rmult_le_compat_l; [apply Rlt_le, Rdiv_lt_0_compat; nra|]. apply Rmult_le_compat; assumption.
    - apply (Rmult_le_reg_r (dot n y y)); [exact Pyy|]. unfold Rdiv at 1. rewrite Rmult_assoc, Rinv_l, Rmult_1_r by lra.
      pose proof (dot_le n y s) as D. apply Rabs_inv in D. rewrite <- Ey.
      apply Rle_trans with (norm n y * norm n s); [lra|].
      replace (1 / mu * (norm n y * norm n y)) with (norm n y * (norm n y / mu)) by (field; lra).
      apply Rmult_le_compat_l; [exact Py|]. apply (Rmult_le_reg_r mu); [exact Hmu|]. unfold Rdiv.
      rewrite Rmult_assoc, Rinv_l, Rmult_1_r by lra. lra.
  Qed.

  Lemma least_pos m : 0 < least mu M m.
  Proof.
    unfold least. apply Rmin_glb_lt; [lra|]. apply Rdiv_lt_0_compat; [exact Hmu|].
    apply Rmult_lt_0_compat; [nra|apply pow_lt; lra].
  Qed.
  Lemma most_pos m : 1 <= most mu M m.
  Proof. apply Rmax_l. Qed.

  Lemma direction_bounds pairs g m : Forall tame pairs -> (length pairs <= m)%nat -> length g = n ->
    let d := bfgs_direction (N := Rnum) pairs (vecncpy (N := Rnum) g) in
    dot n g d <= - (least mu M m * (norm n g * norm n g)) /\ norm n d <= most mu M m * norm n g.
  Proof.
    intros HF Hm Hg d. set (q := vecncpy (N := Rnum) g) in *.
    assert (Hq : length q = n) by now apply length_vecncpy.
    assert (K : forall v, dot n g v = - dot n q v) by (intros; unfold q; rewrite dot_ncpy_l by assumption; ring).
    assert (Nq : norm n q = norm n g) by now apply norm_ncpy.
    pose proof (norm_pos n g) as Pg. assert (Pgg : 0 <= norm n g * norm n g) by nra.
    destruct pairs as [|[s y] older].
    - cbn [bfgs_direction] in d. unfold d. rewrite K, <- norm_sq, Nq. split.
      + apply Ropp_le_contravar. rewrite <- (Rmult_1_l (norm n g * norm n g)) at 2. apply Rmult_le_compat_r; [exact Pgg|apply Rmin_l].
      + rewrite <- (Rmult_1_l (norm n g)) at 1. apply Rmult_le_compat_r; [exact Pg|apply Rmax_l].
    - inversion HF as [|? ? Hp Ho]; subst. cbn [bfgs_direction] in d. pose proof Hp as ((Hs & Hy & _) & _ & _). cbn [fst snd] in *.
      unfold d. rewrite !(vecdot_dot n) by assumption. destruct (gamma_bounds s y Hp) as [G1 G2].
      set (ps := (s, y) :: older) in *. change (two_loop ps (ndiv (dot n y s) (dot n y y)) q) with (H ps (dot n y s / dot n y y) q).
      set (gamma := dot n y s / dot n y y) in *.
      assert (Pc : 0 < mu / (M * M)) by (apply Rdiv_lt_0_compat; nra).
      assert (P2 : 0 < 2 ^ length ps) by (apply pow_lt; lra). assert (P2m : 2 ^ length ps <= 2 ^ m) by (apply Rle_pow; [lra|exact Hm]).
      split.
      + rewrite K, <- Nq. apply Ropp_le_contravar. eapply Rle_trans; [|apply (lower gamma ps (mu / (M * M))); try assumption; lra].
        apply Rmult_le_compat_r; [rewrite Nq; exact Pgg|]. eapply Rle_trans; [apply Rmin_r|].
        replace (mu / (M * M) / 2 ^ length ps) with (mu / (M * M * 2 ^ length ps)) by (field; lra).
        unfold Rdiv. apply Rmult_le_compat_l; [lra|]. apply Rinv_le_contravar; [apply Rmult_lt_0_compat; [nra|exact P2]|].
        apply Rmult_le_compat_l; [nra|exact P2m].
      + rewrite <- Nq. eapply Rle_trans; [apply (upper gamma ps); try assumption; lra|].
        apply Rmult_le_compat_r; [apply norm_pos|]. eapply Rle_trans; [|apply Rmax_r].
        unfold Rdiv. apply Rmult_le_compat_r; [apply Rlt_le, Rinv_0_lt_compat, Hmu|].
        assert (P1 : 1 <= 1 + M / mu) by (assert (0 < M / mu) by (apply Rdiv_lt_0_compat; assumption); lra).
        apply Rmult_le_compat; [apply pos_INR|apply pow_le; lra|apply le_INR; lia|apply Rle_pow; [exact P1|lia]].
  Qed.
End Direction.
