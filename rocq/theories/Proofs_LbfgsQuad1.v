(** Interpolation in the More-Thuente search: on a parabola every formula gives its
    lowest point. *)
From Coq Require Import ZArith List Bool Arith Reals Lra Lia.
From Verif Require Import Prelude Num Model_Lbfgs Proofs_LbfgsVec.
Import ListNotations.
Local Open Scope R_scope.

Lemma min2_R (a b : R) : min2 (N := Rnum) a b = Rmin a b.
Proof.
  unfold min2, Rmin. cbn [nleb Rnum]. unfold Rleb. destruct (Rle_dec a b); reflexivity.
Qed.
Lemma max2_R (a b : R) : max2 (N := Rnum) a b = Rmax a b.
Proof.
  unfold max2, Rmax. cbn [nleb Rnum]. unfold Rleb.
  destruct (Rle_dec b a), (Rle_dec a b); try reflexivity; [apply Rle_antisym; assumption|].
  exfalso. lra.
Qed.
Lemma max3_R (a b c : R) : max3 (N := Rnum) a b c = Rmax (Rmax a b) c.
Proof. unfold max3. rewrite !max2_R. reflexivity. Qed.

(** The parabola c0 + c1 t + a t^2 / 2 and its slope. *)
Definition par (c0 c1 a t : R) : R := c0 + c1 * t + a * t * t / 2.
Definition slope (c1 a t : R) : R := c1 + a * t.

Section Parabola.
  Variables c0 c1 a : R.
  Hypothesis Ha : 0 < a.
  Notation Q := (par c0 c1 a).
  Notation D := (slope c1 a).

  Lemma theta_eq u v : u <> v -> (Q u - Q v) * 3 / (v - u) + D u + D v = - (D u + D v) / 2.
  Proof. intro H. unfold par, slope. field. lra. Qed.

  Lemma scale_pos u v th : u <> v -> 0 < Rmax (Rmax (Rabs th) (Rabs (D u))) (Rabs (D v)).
  Proof.
    intro H. pose proof (Rmax_l (Rmax (Rabs th) (Rabs (D u))) (Rabs (D v))) as H1.
    pose proof (Rmax_r (Rmax (Rabs th) (Rabs (D u))) (Rabs (D v))) as H2.
    pose proof (Rmax_r (Rabs th) (Rabs (D u))) as H3.
    destruct (Req_dec (D u) 0) as [E|E].
    - assert (D v <> 0).
      { unfold slope in *. intro E'. apply H. apply (Rmult_eq_reg_l a); lra. }
      pose proof (Rabs_pos_lt _ H0). lra.
    - pose proof (Rabs_pos_lt _ E). lra.
  Qed.

  Lemma gamma_eq (s th du dv : R) : 0 < s -> th = - (du + dv) / 2 ->
    s * sqrt (th / s * (th / s) - du / s * (dv / s)) = Rabs (dv - du) / 2.
  Proof.
    intros Hs ->.
    replace (- (du + dv) / 2 / s * (- (du + dv) / 2 / s) - du / s * (dv / s))
      with (Rsqr (Rabs (dv - du) / 2 / s)).
    - rewrite sqrt_Rsqr; [field; lra|].
      apply Rmult_le_pos; [pose proof (Rabs_pos (dv - du)); lra|apply Rlt_le, Rinv_0_lt_compat, Hs].
    - replace (Rabs (dv - du) / 2 / s) with (Rabs (dv - du) * (/ 2 / s)) by (field; lra).
      rewrite Rsqr_mult, <- Rsqr_abs. unfold Rsqr. field. lra.
  Qed.

  Lemma sign_gamma u v : (if Rltb v u then - (Rabs (D v - D u) / 2) else Rabs (D v - D u) / 2) = (D v - D u) / 2.
  Proof.
    destruct (Rltb v u) eqn:E; [apply Rltb_t in E|apply Rltb_f in E]; unfold slope.
    - rewrite Rabs_left1; [lra|]. assert (a * v <= a * u) by (apply Rmult_le_compat_l; lra). lra.
    - rewrite Rabs_right; [lra|]. assert (a * u <= a * v) by (apply Rmult_le_compat_l; lra). lra.
  Qed.

  Lemma cubic_par u v : u <> v -> (cubic_minimizer (N := Rnum) u (Q u) (D u) v (Q v) (D v) : R) = - c1 / a.
  Proof.
    intro H. unfold cubic_minimizer. cbv zeta. rewrite max3_R.
    cbn [nadd nsub nmul ndiv nopp nabs nofZ nltb nsqrt Rnum].
    set (th := (Q u - Q v) * 3 / (v - u) + D u + D v).
    pose proof (scale_pos u v th H) as Hs. set (s := Rmax (Rmax (Rabs th) (Rabs (D u))) (Rabs (D v))) in *.
    rewrite (gamma_eq s th (D u) (D v) Hs (theta_eq u v H)), sign_gamma.
    rewrite (theta_eq u v H : th = _). unfold slope. field.
    split; [lra|]. intro E. apply H. apply (Rmult_eq_reg_l a); lra.
  Qed.

  Lemma cubic2_par u v lo hi : u < v -> D v < 0 ->
    (cubic_minimizer2 (N := Rnum) u (Q u) (D u) v (Q v) (D v) lo hi : R) = - c1 / a.
  Proof.
    intros H Hv. assert (Hn : u <> v) by lra. assert (Hm : a * u < a * v) by (apply Rmult_lt_compat_l; lra).
    unfold cubic_minimizer2. cbv zeta. rewrite max3_R, max2_R.
    cbn [nadd nsub nmul ndiv nopp nabs nofZ nltb nsqrt Rnum nzero]. unfold nzero; cbn [nofZ Rnum].
    set (th := (Q u - Q v) * 3 / (v - u) + D u + D v).
    pose proof (scale_pos u v th Hn) as Hs. set (s := Rmax (Rmax (Rabs th) (Rabs (D u))) (Rabs (D v))) in *.
    assert (Hr : 0 <= th / s * (th / s) - D u / s * (D v / s)).
    { rewrite (theta_eq u v Hn : th = _).
      replace (- (D u + D v) / 2 / s * (- (D u + D v) / 2 / s) - D u / s * (D v / s))
        with (((D v - D u) / 2 / s) * ((D v - D u) / 2 / s)) by (field; lra).
      apply Rle_0_sqr. }
    rewrite Rmax_right by exact Hr.
    rewrite (gamma_eq s th (D u) (D v) Hs (theta_eq u v Hn)).
    assert (E : Rltb u v = true) by (apply Rltb_t; exact H). rewrite E.
    assert (Eg : Rabs (D v - D u) / 2 = (D v - D u) / 2).
    { rewrite Rabs_right; [reflexivity|]. unfold slope. lra. }
    rewrite Eg, (theta_eq u v Hn : th = _).
    set (r := (- ((D v - D u) / 2) - D v + - (D u + D v) / 2) / (- ((D v - D u) / 2) - D v + - ((D v - D u) / 2) + D u)).
    assert (Er : r = D v / (D v - D u)) by (unfold r, slope; field; lra).
    assert (Hneg : r < 0).
    { rewrite Er. unfold Rdiv. assert (0 < / (D v - D u)) by (apply Rinv_0_lt_compat; unfold slope; lra).
      set (i := / (D v - D u)) in *. clearbody i. nra. }
    assert (E2 : Rltb r 0 = true) by (apply Rltb_t; exact Hneg). rewrite E2.
    assert (E3 : nnonzero (N := Rnum) (- ((D v - D u) / 2)) = true).
    { unfold nnonzero, nzero. cbn [neqb nofZ Rnum]. apply negb_true_iff, Reqb_f. unfold slope. lra. }
    rewrite E3. cbn [andb]. rewrite Er. unfold slope. field. lra.
  Qed.

  Lemma quard_par u v : u <> v -> (quard_minimizer (N := Rnum) u (Q u) (D u) v (Q v) : R) = - c1 / a.
  Proof.
    intro H. unfold quard_minimizer. cbv zeta. cbn [nadd nsub nmul ndiv nopp nabs nofZ nltb nsqrt Rnum].
    replace ((Q u - Q v) / (v - u) + D u) with (a * (u - v) / 2) by (unfold par, slope; field; lra).
    unfold slope. field. split; lra.
  Qed.

  Lemma quard2_par u v : u <> v -> (quard_minimizer2 (N := Rnum) u (D u) v (D v) : R) = - c1 / a.
  Proof.
    intro H. unfold quard_minimizer2. cbv zeta. cbn [nadd nsub nmul ndiv nopp nabs nofZ nltb nsqrt Rnum].
    replace (D v - D u) with (a * (v - u)) by (unfold slope; ring). unfold slope. field. split; lra.
  Qed.
End Parabola.
