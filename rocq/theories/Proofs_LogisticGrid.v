(** The regularization grid of UoI_L1Logistic. *)
From Coq Require Import ZArith List Bool Arith Reals Lra Lia.
From Verif Require Import Prelude Num Model_Mpi Model_Rescale Spec_Rescale Model_Poisson Spec_Poisson Deriv
  Model_Logistic Spec_Logistic Proofs_Intersection Proofs_Rescale Proofs_Poisson Proofs_PoissonOpt Proofs_PoissonMore
  Proofs_Logistic Proofs_LogisticGrad.
Import ListNotations.
Local Open Scope R_scope.

(** Tangents lie below the graph of ln(1 + exp). *)
Lemma exp_chord s d : 0 <= s <= 1 -> exp (s * d) <= 1 - s + s * exp d.
Proof.
  intro Hs. pose proof (exp_pos (s * d)) as P.
  assert (A : 1 >= exp (s * d) * (1 - s * d)).
  { replace 1 with (exp (s * d) * exp (- (s * d))) at 1 by (rewrite <- exp_plus; replace (s * d + - (s * d)) with 0 by ring; apply exp_0).
    apply Rle_ge, Rmult_le_compat_l; [lra|]. pose proof (exp_ineq1_le (- (s * d))). lra. }
  assert (B : exp d >= exp (s * d) * (1 + (1 - s) * d)).
  { replace (exp d) with (exp (s * d) * exp ((1 - s) * d)) by (rewrite <- exp_plus; f_equal; ring).
    apply Rle_ge, Rmult_le_compat_l; [lra|]. apply exp_ineq1_le. }
  assert (E : exp (s * d) = (1 - s) * (exp (s * d) * (1 - s * d)) + s * (exp (s * d) * (1 + (1 - s) * d))) by ring.
  rewrite E. apply Rplus_le_compat.
  - rewrite <- (Rmult_1_r (1 - s)) at 2. apply Rmult_le_compat_l; lra.
  - apply Rmult_le_compat_l; lra.
Qed.
Lemma softplus_tangent u v : ln (1 + exp v) >= ln (1 + exp u) + exp u / (1 + exp u) * (v - u).
Proof.
  pose proof (exp_pos u) as Pu. pose proof (exp_pos v) as Pv.
  set (s := exp u / (1 + exp u)).
  assert (Hs : 0 <= s <= 1).
  { unfold s. split; [left; apply Rdiv_lt_0_compat; lra|]. apply Rmult_le_reg_r with (1 + exp u); [lra|]. unfold Rdiv. rewrite Rmult_assoc, Rinv_l by lra. lra. }
  pose proof (exp_chord s (v - u) Hs) as C.
  assert (E : 1 - s + s * exp (v - u) = (1 + exp v) / (1 + exp u)).
  { unfold s, Rminus at 2. rewrite exp_plus, exp_Ropp. field. split; lra. }
  rewrite E in C. apply Rle_ge.
  apply (Rplus_le_reg_r (- ln (1 + exp u))). replace (ln (1 + exp u) + s * (v - u) + - ln (1 + exp u)) with (s * (v - u)) by ring.
  rewrite <- ln_Rinv by lra. rewrite <- ln_mult by (try apply Rinv_0_lt_compat; lra).
  rewrite <- (ln_exp (s * (v - u))). destruct C as [C|C].
  - left. apply ln_increasing; [apply exp_pos|exact C].
  - right. now rewrite C.
Qed.

Section Null.
  Variables (n p : nat) (X : list (list R)) (y : list nat).
  Hypothesis HX : matrix n p X.
  Hypothesis Hn : (0 < n)%nat.
  Hypothesis Hy : length y = n.
  Hypothesis Hb : Forall (fun v => (v < 2)%nat) y.
  Hypothesis Hq : 0 < share y < 1.
  Notation q := (share y).
  Definition b0 : R := ln (q / (1 - q)).
  Notation yi i := (INR (nth i y 0%nat)).
  Notation obj := (l1_logistic n p X (signs y)).

  Lemma label_cases i : (i < n)%nat -> nth i y 0%nat = 0%nat \/ nth i y 0%nat = 1%nat.
  Proof. intro Hi. rewrite Forall_forall in Hb. assert (In (nth i y 0%nat) y) by (apply nth_In; lia). specialize (Hb _ H). lia. Qed.
  Lemma sign_entry i : (i < n)%nat -> entry (signs y) i = 2 * yi i - 1.
  Proof.
    intro Hi. unfold signs, entry. rewrite (nth_indep _ 0 ((fun v => if Nat.eqb v 1 then 1 else -1) 0%nat)) by (rewrite map_length; lia).
    rewrite (map_nth (fun v => if Nat.eqb v 1 then 1 else -1)). destruct (label_cases i Hi) as [E|E]; rewrite E; cbn; lra.
  Qed.
  Lemma exp_b0 : exp b0 = q / (1 - q).
  Proof. unfold b0. apply exp_ln. apply Rdiv_lt_0_compat; lra. Qed.

  Lemma term_tangent i e : (i < n)%nat ->
    ln (1 + exp (- (entry (signs y) i * e))) >= ln (1 + exp (- (entry (signs y) i * b0))) + (q - yi i) * (e - b0).
  Proof.
    intro Hi. rewrite sign_entry by exact Hi. pose proof exp_b0 as E0. destruct (label_cases i Hi) as [E|E]; rewrite E; cbn [INR].
    - replace (- ((2 * 0 - 1) * e)) with e by ring. replace (- ((2 * 0 - 1) * b0)) with b0 by ring.
      pose proof (softplus_tangent b0 e) as T. rewrite E0 in T at 2 3.
      replace (q / (1 - q) / (1 + q / (1 - q))) with q in T by (field; lra). lra.
    - replace (- ((2 * 1 - 1) * e)) with (- e) by ring. replace (- ((2 * 1 - 1) * b0)) with (- b0) by ring.
      pose proof (softplus_tangent (- b0) (- e)) as T. assert (E1 : exp (- b0) = (1 - q) / q) by (rewrite exp_Ropp, E0; field; lra).
      rewrite E1 in T at 2 3. replace ((1 - q) / q / (1 + (1 - q) / q)) with (1 - q) in T by (field; lra). lra.
  Qed.

  Lemma sum_labels : Sum n (fun i => yi i) = INR (count 1 y).
  Proof.
    rewrite <- Hy. clear HX Hn Hy Hq. induction Hb as [|a l Ha H IH]; [reflexivity|].
    cbn [length]. rewrite Sum_shift, count_cons, plus_INR. cbn [nth]. rewrite (IH H). f_equal.
    destruct a as [|[|a]]; [reflexivity|reflexivity|lia].
  Qed.
  Lemma residual_sum : Sum n (fun i => q - yi i) = 0.
  Proof.
    rewrite Sum_minus, Sum_const, sum_labels. unfold share. rewrite Hy. assert (INR n <> 0) by (apply not_0_INR; lia). field. assumption.
  Qed.

  Lemma obj_lower lam (c : list R) b : length c = p ->
    obj lam c b >= obj lam (repeat 0 p) b0 + Sum p (fun j => lam * Rabs (entry c j) - entry c j * null_score n X y j).
  Proof.
    intro Hc. unfold l1_logistic, logistic_loss.
    assert (Hn' : 0 < INR n) by (apply lt_0_INR; lia). assert (Hi' : 0 < / INR n) by (now apply Rinv_0_lt_compat).
    assert (EZ : forall f : R -> R, f 0 = 0 -> Sum p (fun j => f (entry (repeat 0 p) j)) = 0).
    { intros f Hf. apply Sum_zero. intros j Hj. now rewrite entry_zeros. }
    rewrite (EZ Rabs Rabs_R0), (EZ (fun v => v * v)) by ring.
    rewrite Sum_minus, Sum_scal.
    assert (T : Sum n (fun i => entry (repeat 1 n) i * ln (1 + exp (- (entry (signs y) i * eta p X c b i))))
              >= Sum n (fun i => entry (repeat 1 n) i * ln (1 + exp (- (entry (signs y) i * eta p X (repeat 0 p) b0 i))))
                 + Sum n (fun i => (q - yi i) * (eta p X c b i - b0))).
    { rewrite <- Sum_plus. apply Rle_ge, Sum_le. intros i Hi. rewrite entry_repeat by exact Hi.
      assert (E0 : eta p X (repeat 0 p) b0 i = b0).
      { unfold eta. rewrite Sum_zero; [ring|]. intros j Hj. rewrite entry_zeros. ring. }
      rewrite E0. pose proof (term_tangent i (eta p X c b i) Hi). lra. }
    assert (E : / INR n * Sum n (fun i => (q - yi i) * (eta p X c b i - b0)) = - Sum p (fun j => entry c j * null_score n X y j)).
    { rewrite (Sum_ext n _ (fun i => (q - yi i) * (b - b0) + Sum p (fun j => (q - yi i) * (mat X i j * entry c j)))).
      - rewrite Sum_plus, Sum_scal_r, residual_sum, Rmult_0_l, Rplus_0_l. rewrite Sum_swap.
        rewrite <- Sum_scal. rewrite <- (Rmult_1_l (Sum p (fun j => entry c j * _))), Ropp_mult_distr_l, <- Sum_scal.
        apply Sum_ext. intros j Hj. unfold null_score.
        rewrite (Sum_ext n _ (fun i => (-1 * entry c j) * ((yi i - q) * mat X i j))) by (intros; ring). rewrite Sum_scal. ring.
      - intros i Hi. unfold eta. rewrite Sum_scal. ring. }
    apply Rge_le in T. apply (Rmult_le_compat_l (/ INR n)) in T; [|lra]. rewrite Rmult_plus_distr_l, E in T.
    set (A := Sum n (fun i => entry (repeat 1 n) i * ln (1 + exp (- (entry (signs y) i * eta p X c b i))))) in *.
    set (B := Sum n (fun i => entry (repeat 1 n) i * ln (1 + exp (- (entry (signs y) i * eta p X (repeat 0 p) b0 i))))) in *. lra.
  Qed.

  Lemma null_optimal lam : (forall j, (j < p)%nat -> Rabs (null_score n X y j) <= lam) ->
    forall c b, length c = p -> obj lam (repeat 0 p) b0 <= obj lam c b.
  Proof.
    intros H c b Hc. pose proof (obj_lower lam c b Hc) as L.
    assert (0 <= Sum p (fun j => lam * Rabs (entry c j) - entry c j * null_score n X y j)); [|lra].
    apply Sum_nonneg. intros j Hj. specialize (H j Hj).
    assert (entry c j * null_score n X y j <= Rabs (entry c j) * lam); [|lra].
    apply Rle_trans with (Rabs (entry c j * null_score n X y j)); [apply Rle_abs|]. rewrite Rabs_mult.
    apply Rmult_le_compat_l; [apply Rabs_pos|exact H].
  Qed.

  Lemma null_beaten lam j : 0 <= lam -> (j < p)%nat -> lam < Rabs (null_score n X y j) ->
    exists c, length c = p /\ obj lam c b0 < obj lam (repeat 0 p) b0.
  Proof.
    intros Hl Hj H. set (G := null_score n X y j) in *. set (sg := if Rle_dec 0 G then 1 else -1).
    assert (Hsg : sg * G = Rabs G /\ (sg = 1 \/ sg = -1)).
    { unfold sg. destruct (Rle_dec 0 G); [rewrite Rabs_right by lra|rewrite Rabs_left by lra]; split; lra. }
    destruct Hsg as [HG Hs]. assert (Hs2 : Rabs sg = 1) by (destruct Hs as [-> | ->]; [rewrite Rabs_right; lra|rewrite Rabs_left; lra]).
    set (cf := fun (t : R) (k : nat) => if Nat.eqb k j then sg * t else 0).
    set (F := fun t => blossf n p X (signs y) (repeat 1 n) 0 (cf t) b0).
    assert (D : derivable_pt_lim F 0 (- Rabs G)).
    { unfold F. eapply der_val; [|apply (der_bloss n p X (signs y) (repeat 1 n) 0 cf (fun _ => b0) 0 (fun k => if Nat.eqb k j then sg else 0) 0)].
      - assert (Z : forall k, cf 0 k = 0) by (intro k; unfold cf; destruct (Nat.eqb k j); ring).
        rewrite Rmult_0_l, Rplus_0_r.
        rewrite (Sum_ext n _ (fun i => (- sg) * ((yi i - q) * mat X i j))).
        + rewrite Sum_scal, <- HG. unfold G, null_score. ring.
        + intros i Hi. rewrite entry_repeat by exact Hi.
          rewrite (Sum_zero p (fun k => mat X i k * cf 0 k)) by (intros k Hk; rewrite Z; ring).
          rewrite (Sum_ext p (fun k => mat X i k * (if Nat.eqb k j then sg else 0)) (fun k => if Nat.eqb k j then mat X i j * sg else (fun _ => 0) k)).
          * rewrite Sum_at by exact Hj. rewrite Sum_const. rewrite Rplus_0_r, sign_entry by exact Hi.
            pose proof exp_b0 as E0. destruct (label_cases i Hi) as [E|E]; rewrite E; cbn [INR].
            -- replace (- ((2 * 0 - 1) * b0)) with b0 by ring. rewrite E0. field. lra.
            -- replace (- ((2 * 1 - 1) * b0)) with (- b0) by ring. rewrite exp_Ropp, E0. field. lra.
          * intros k Hk. destruct (Nat.eqb_spec k j); [subst; reflexivity|ring].
      - intros k Hk. unfold cf. destruct (Nat.eqb k j); [|apply der_const]. apply (der_val _ _ (sg * 1)); [ring|]. apply der_scal, der_id.
      - apply der_const. }
    destruct (D (Rabs G - lam) ltac:(lra)) as [dl Hd]. pose proof (cond_pos dl) as Hdl.
    set (h := dl / 2). assert (Hh : 0 < h < dl) by (unfold h; lra).
    specialize (Hd h ltac:(lra) ltac:(rewrite Rabs_right; lra)). apply Rabs_def2 in Hd. destruct Hd as [Hd _].
    rewrite Rplus_0_l in Hd.
    assert (Hf : F h - F 0 < - lam * h).
    { apply Rmult_lt_reg_r with (/ h); [apply Rinv_0_lt_compat; lra|]. replace (- lam * h * / h) with (- lam) by (field; lra).
      change ((F h - F 0) * / h) with ((F h - F 0) / h). lra. }
    exists (upd (repeat 0 p) j (sg * h)). assert (Lc : (j < length (repeat 0%R p))%nat) by (now rewrite repeat_length).
    split; [rewrite length_upd, repeat_length by exact Lc; reflexivity|].
    assert (Ec : forall k, entry (upd (repeat 0 p) j (sg * h)) k = cf h k).
    { intro k. rewrite entry_upd by exact Lc. unfold cf. now rewrite entry_zeros. }
    assert (E1 : obj lam (upd (repeat 0 p) j (sg * h)) b0 = F h + lam * h).
    { unfold l1_logistic. f_equal.
      - unfold F, logistic_loss, blossf, eta. f_equal; f_equal; apply Sum_ext.
        + intros i Hi. f_equal. f_equal. f_equal. f_equal. f_equal. f_equal. f_equal. apply Sum_ext. intros k Hk. now rewrite Ec.
        + intros k Hk. now rewrite Ec.
      - f_equal. rewrite (Sum_ext p _ (fun k => if Nat.eqb k j then h else (fun _ => 0) k)).
        + rewrite Sum_at by exact Hj. rewrite Sum_const. ring.
        + intros k Hk. rewrite Ec. unfold cf. destruct (Nat.eqb k j); [|apply Rabs_R0]. rewrite Rabs_mult, Hs2, Rabs_right by lra. ring. }
    assert (E2 : obj lam (repeat 0 p) b0 = F 0).
    { unfold l1_logistic. rewrite (Sum_zero p (fun k => Rabs _)) by (intros k Hk; rewrite entry_zeros; apply Rabs_R0).
      rewrite Rmult_0_r, Rplus_0_r. unfold F, logistic_loss, blossf, eta.
      assert (Z : forall k, cf 0 k = 0) by (intro k; unfold cf; destruct (Nat.eqb k j); ring).
      f_equal; f_equal; apply Sum_ext.
      + intros i Hi. f_equal. f_equal. f_equal. f_equal. f_equal. f_equal. f_equal. apply Sum_ext. intros k Hk. now rewrite Z, entry_zeros.
      + intros k Hk. now rewrite Z, entry_zeros. }
    rewrite E1, E2. lra.
  Qed.

  (** The penalties for which zero coefficients (with the best intercept) are optimal. *)
  Lemma null_iff lam : 0 <= lam ->
    ((forall c b, length c = p -> obj lam (repeat 0 p) b0 <= obj lam c b) <->
     (forall j, (j < p)%nat -> Rabs (null_score n X y j) <= lam)).
  Proof.
    intro Hl. split; [|apply null_optimal]. intros H j Hj. apply Rnot_lt_le. intro G.
    destruct (null_beaten lam j Hl Hj G) as (c & Lc & B). specialize (H c b0 Lc). lra.
  Qed.
End Null.

(** ** The code's alpha_max, binary *)
Lemma exists_last_or_nil {A} (l : list A) : l = [] \/ exists l1 a, l = l1 ++ [a].
Proof. destruct l as [|a l]; [now left|right]. destruct (exists_last (l := a :: l)) as (l1 & b & E); [discriminate|]. now exists l1, b. Qed.
Lemma max_of (l : list R) m : length l = m -> (0 < m)%nat -> is_max m (fun j => Rabs (entry l j)) (nmaxl (N := Rnum) (map (nabs (n := Rnum)) l)).
Proof.
  intros Hl Hm. set (l' := map (nabs (n := Rnum)) l).
  assert (Ne : l' <> []) by (intro E; apply (f_equal (@length R)) in E; unfold l' in E; rewrite map_length in E; cbn in E; lia).
  destruct (nmaxl_R l' Ne) as [M1 M2]. split.
  - intros j Hj. apply M1. unfold l'. change (Rabs (entry l j)) with ((nabs (n := Rnum)) (nth j l 0)). apply in_map. apply nth_In. lia.
  - unfold l' in M2 at 2. apply in_map_iff in M2. destruct M2 as (v & Ev & Iv). apply (In_nth _ _ 0) in Iv. destruct Iv as (j & Hj & Ej).
    exists j. split; [lia|]. rewrite <- Ev, <- Ej. reflexivity.
Qed.
Lemma is_max_ext m f g A : (forall j, (j < m)%nat -> f j = g j) -> is_max m f A -> is_max m g A.
Proof.
  intros E [H1 (j & Hj & H2)]. split; [intros i Hi; rewrite <- E by exact Hi; auto|]. exists j. split; [exact Hj|]. now rewrite <- E.
Qed.
Definition floats (y : list nat) : list R := map (fun v => IZR (Z.of_nat v)) y.
Lemma entry_floats y i : entry (floats y) i = INR (nth i y 0%nat).
Proof. unfold floats, entry. change 0 with ((fun v => IZR (Z.of_nat v)) 0%nat). rewrite map_nth. symmetry. apply INR_IZR_INZ. Qed.

Section AlphaMax.
  Variables (n p : nat) (X : list (list R)) (y : list nat).
  Hypothesis HX : matrix n p X.
  Hypothesis Hn : (0 < n)%nat.
  Hypothesis Hy : length y = n.
  Hypothesis Hb : Forall (fun v => (v < 2)%nat) y.
  Notation yi i := (INR (nth i y 0%nat)).
  Definition clipped : R := Rmin (Rmax (share y) tiny) (1 - tiny).

  Lemma null_gradient b ic : ic = [] \/ ic = [b] ->
    exists g, length g = p /\ snd (snd (llg p X (floats y) 0 None None (repeat 0 p ++ ic))) = g ++ (match ic with [] => [] | _ => [rsum (z0 n p X (floats y) None None (repeat 0 p ++ ic)) / IZR (Z.of_nat n)] end) /\
    forall j, (j < p)%nat -> entry g j = / INR n * Sum n (fun i => yi i * (/ (1 + exp (- (match ic with [] => 0 | _ => b end))) - 1) * mat X i j).
  Proof.
    intro Hic. set (w := repeat 0 p ++ ic).
    assert (Hl : length w = p \/ length w = S p) by (unfold w; rewrite app_length, repeat_length; destruct Hic as [-> | ->]; cbn; lia).
    assert (Ly : length (floats y) = n) by (unfold floats; now rewrite map_length).
    destruct (bgrad_shape n p X (floats y) 0 None None HX Hn Ly I I w Hl) as (g & Lg & Es & Hg).
    exists g. split; [exact Lg|]. split.
    - rewrite Es. unfold w at 1. rewrite app_length, repeat_length. destruct Hic as [E | E]; rewrite E; cbn [length].
      + rewrite Nat.add_0_r. destruct (Nat.eqb_spec p (S p)); [lia|]. now rewrite app_nil_r.
      + destruct (Nat.eqb_spec (p + 1) (S p)); [reflexivity|lia].
    - intros j Hj. rewrite (Hg j Hj). unfold mkf. rewrite Rmult_1_l, Rmult_0_l, Rplus_0_r. f_equal. apply Sum_ext. intros i Hi.
      unfold weights. rewrite entry_repeat by exact Hi. rewrite entry_floats.
      assert (Ee : et p X None w i = match ic with [] => 0 | _ => b end).
      { unfold et. rewrite (bi_value n p (floats y) None Hn Ly I w Hl). rewrite Sum_zero.
        - unfold w. rewrite app_length, repeat_length. destruct Hic as [E | E]; rewrite E; cbn [length].
          + rewrite Nat.add_0_r. destruct (Nat.eqb_spec p (S p)); [lia|ring].
          + destruct (Nat.eqb_spec (p + 1) (S p)); [|lia]. unfold entry. rewrite app_nth2, repeat_length, Nat.sub_diag by (rewrite repeat_length; lia). cbn [nth]. ring.
        - intros l Hlp. unfold w, entry, mkf. rewrite app_nth1 by (rewrite repeat_length; exact Hlp). fold (entry (repeat 0 p) l). rewrite entry_zeros. ring. }
      rewrite Ee. set (e := match ic with [] => 0 | _ => b end).
      rewrite Forall_forall in Hb. assert (Hv : (nth i y 0 < 2)%nat) by (apply Hb, nth_In; lia).
      destruct (nth i y 0%nat) as [|[|v]]; [| |lia]; cbn [INR]; [ring|]. rewrite (Rmult_1_l e). ring.
  Qed.

  Lemma clipped_bounds : 0 < clipped < 1.
  Proof. pose proof tiny_pos. unfold clipped, Rmin, Rmax. destruct (Rle_dec (share y) tiny); destruct (Rle_dec _ (1 - tiny)); lra. Qed.

  Lemma alpha_max_binary : (0 < p)%nat -> exists A, alpha_max (N := Rnum) 1 p true X y = Ok A /\
    is_max p (fun j => (1 - clipped) * Rabs (/ INR n * Sum n (fun i => yi i * mat X i j))) A.
  Proof.
    intro Hp. pose proof clipped_bounds as Hc. unfold alpha_max. cbn [Nat.eqb].
    set (b := binary_intercept (N := Rnum) y).
    destruct (null_gradient b [b] (or_intror eq_refl)) as (g & Lg & Eg & Hg). cbv iota in Eg, Hg.
    unfold llg in Eg. change (map (nofnat (N := Rnum)) y) with (floats y). unfold nzero. rn. rr. rewrite Eg, removelast_last.
    rewrite Lg. destruct (Nat.eqb_spec p 0); [lia|]. eexists. split; [reflexivity|].
    refine (is_max_ext p _ _ _ _ (max_of g p Lg Hp)). intros j Hj. cbv beta. rewrite (Hg j Hj).
    assert (E : / (1 + exp (- b)) = clipped).
    { rewrite <- (sigmoid_R b). unfold b, binary_intercept. rewrite (binary_rate_R y Hb). exact (sigmoid_logit clipped Hc). }
    rewrite E. rewrite (Sum_ext n _ (fun i => (clipped - 1) * (yi i * mat X i j))) by (intros; ring). rewrite Sum_scal.
    replace (/ INR n * ((clipped - 1) * Sum n (fun i => yi i * mat X i j))) with (- ((1 - clipped) * (/ INR n * Sum n (fun i => yi i * mat X i j)))) by ring.
    rewrite Rabs_Ropp, Rabs_mult, (Rabs_right (1 - clipped)) by lra. reflexivity.
  Qed.

  Lemma alpha_max_no_intercept : alpha_max (N := Rnum) 1 p false X y = Raise ValueError /\ (p <= 1)%nat \/
    (1 < p)%nat /\ exists A, alpha_max (N := Rnum) 1 p false X y = Ok A /\
      is_max (p - 1) (fun j => / 2 * Rabs (/ INR n * Sum n (fun i => yi i * mat X i j))) A.
  Proof.
    unfold alpha_max. cbn [Nat.eqb].
    destruct (null_gradient 0 [] (or_introl eq_refl)) as (g & Lg & Eg & Hg). cbv iota in Eg, Hg.
    unfold llg in Eg. change (map (nofnat (N := Rnum)) y) with (floats y). unfold nzero. rn. rr. rewrite Eg, app_nil_r.
    assert (Lr : length (removelast g) = (p - 1)%nat).
    { destruct (exists_last_or_nil g) as [E|(g' & a & E)]; rewrite E in *; [cbn in *; lia|]. rewrite removelast_last. rewrite app_length in Lg. cbn in Lg. lia. }
    rewrite Lr. destruct (Nat.eqb_spec (p - 1) 0) as [E|E]; [left; split; [reflexivity|lia]|].
    right. split; [lia|]. eexists. split; [reflexivity|].
    refine (is_max_ext (p - 1) _ _ _ _ (max_of (removelast g) (p - 1) Lr ltac:(lia))). intros j Hj. cbv beta.
    assert (Ej : entry (removelast g) j = entry g j).
    { destruct (exists_last_or_nil g) as [E'|(g' & a & E')]; rewrite E' in *; [reflexivity|]. rewrite removelast_last. rewrite app_length in Lg. cbn in Lg.
      unfold entry. rewrite app_nth1 by lia. reflexivity. }
    rewrite Ej, (Hg j) by lia. rewrite Ropp_0, exp_0.
    rewrite (Sum_ext n _ (fun i => (- / 2) * (yi i * mat X i j))) by (intros; field). rewrite Sum_scal.
    replace (/ INR n * (- / 2 * Sum n (fun i => yi i * mat X i j))) with (- (/ 2 * (/ INR n * Sum n (fun i => yi i * mat X i j)))) by ring.
    rewrite Rabs_Ropp, Rabs_mult, (Rabs_right (/ 2)) by lra. reflexivity.
  Qed.
End AlphaMax.

Lemma C_grid_value A eps num i : 0 < A -> 0 < eps -> (i < num)%nat ->
  entry (C_grid (N := Rnum) A eps num) i = / A * Rpower (/ eps) (INR i / INR (num - 1)).
Proof.
  intros HA He Hi. pose proof (Rinv_0_lt_compat A HA) as IA. pose proof (Rinv_0_lt_compat eps He) as Ie.
  rewrite <- (logspace_value (/ A) (/ eps) num i IA Ie Hi). unfold C_grid, entry. f_equal.
  assert (E1 : nopp (n := Rnum) (log10 (N := Rnum) A) = log10 (N := Rnum) (/ A)).
  { unfold log10. rn. rewrite ln_Rinv by exact HA. req. pose proof ln10_pos. field. lra. }
  rewrite E1. f_equal. unfold log10. rn. rewrite ln_mult, !ln_Rinv by assumption. req. pose proof ln10_pos. field. lra.
Qed.

(** On centred features the first grid value never gives the intercept-only model. *)
Lemma first_C_not_null n p X y A : matrix n p X -> (0 < n)%nat -> length y = n -> Forall (fun v => (v < 2)%nat) y ->
  (0 < p)%nat -> (forall j, (j < p)%nat -> Sum n (fun i => mat X i j) = 0) ->
  tiny <= share y <= 1 - tiny -> alpha_max (N := Rnum) 1 p true X y = Ok A -> 0 < A ->
  exists c, length c = p /\ forall b, l1_logistic n p X (signs y) A c (ln (share y / (1 - share y))) < l1_logistic n p X (signs y) A (repeat 0 p) b.
Proof.
  intros HX Hn Hy Hb Hp HC Hs HA Apos. pose proof tiny_pos as Ht.
  assert (Hq : 0 < share y < 1) by lra.
  destruct (alpha_max_binary n p X y HX Hn Hy Hb Hp) as (A' & EA & M). rewrite HA in EA. injection EA as <-.
  assert (Ec : clipped y = share y).
  { unfold clipped. rewrite Rmax_left, Rmin_left by lra. reflexivity. }
  rewrite Ec in M. destruct M as [M1 (j & Hj & M2)].
  assert (Es : null_score n X y j = / INR n * Sum n (fun i => INR (nth i y 0%nat) * mat X i j)).
  { unfold null_score. f_equal. rewrite (Sum_ext n _ (fun i => INR (nth i y 0%nat) * mat X i j - share y * mat X i j)) by (intros; ring).
    rewrite Sum_minus, Sum_scal, (HC j Hj). ring. }
  rewrite <- Es in M2.
  assert (Pn : 0 < Rabs (null_score n X y j)).
  { destruct (Rabs_pos (null_score n X y j)) as [P|P]; [exact P|]. rewrite <- P in M2. rewrite Rmult_0_r in M2. lra. }
  assert (L : A < Rabs (null_score n X y j)).
  { rewrite M2. rewrite <- (Rmult_1_l (Rabs (null_score n X y j))) at 2. apply Rmult_lt_compat_r; lra. }
  destruct (null_beaten n p X y HX Hn Hy Hb Hq A j ltac:(lra) Hj L) as (c & Lc & B). exists c. split; [exact Lc|]. intro b.
  eapply Rlt_le_trans; [exact B|].
  pose proof (obj_lower n p X y Hn Hy Hb Hq A (repeat 0 p) b (repeat_length 0 p)) as OL.
  rewrite Sum_zero in OL; [lra|]. intros l Hl. rewrite entry_zeros, Rabs_R0. ring.
Qed.
