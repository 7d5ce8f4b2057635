(** Gradients of the logistic and multinomial losses. *)
From Coq Require Import ZArith List Bool Arith Reals Lra Lia.
From Verif Require Import Prelude Num Model_Mpi Model_Rescale Spec_Rescale Model_Poisson Spec_Poisson Deriv
  Model_Logistic Spec_Logistic Proofs_Intersection Proofs_Rescale Proofs_Poisson Proofs_PoissonOpt Proofs_PoissonMore Proofs_Logistic.
Import ListNotations.
Local Open Scope R_scope.

(** ** Binary loss along a curve *)

(** The loss with the coefficients given by a function. *)
Definition blossf (n p : nat) (X : list (list R)) (y sw : list R) (l2 : R) (cf : nat -> R) (b : R) : R :=
  / INR n * Sum n (fun i => entry sw i * ln (1 + exp (- (entry y i * (b + Sum p (fun j => mat X i j * cf j))))))
  + l2 / 2 * Sum p (fun j => cf j * cf j).

Lemma der_bloss n p X y sw l2 (cf : R -> nat -> R) (b : R -> R) x (d : nat -> R) (db : R) :
  (forall j, (j < p)%nat -> derivable_pt_lim (fun t => cf t j) x (d j)) -> derivable_pt_lim b x db ->
  derivable_pt_lim (fun t => blossf n p X y sw l2 (cf t) (b t)) x
    (/ INR n * Sum n (fun i => entry sw i * ((/ (1 + exp (- (entry y i * (b x + Sum p (fun j => mat X i j * cf x j))))) - 1)
                                             * entry y i * (db + Sum p (fun j => mat X i j * d j))))
     + l2 * Sum p (fun j => cf x j * d j)).
Proof.
  intros Hd Hb. unfold blossf. apply der_plus.
  - apply der_scal. apply der_Sum. intros i Hi. apply der_scal.
    set (e := fun t => - (entry y i * (b t + Sum p (fun j => mat X i j * cf t j)))).
    assert (De : derivable_pt_lim e x (- (entry y i * (db + Sum p (fun j => mat X i j * d j))))).
    { unfold e. apply der_opp, der_scal, der_plus; [exact Hb|]. apply (der_Sum p (fun j t => mat X i j * cf t j)). intros j Hj. now apply der_scal, Hd. }
    change (- (entry y i * (b x + Sum p (fun j => mat X i j * cf x j)))) with (e x).
    pose proof (exp_pos (e x)) as He.
    apply (der_val _ _ (/ (1 + exp (e x)) * (0 + exp (e x) * (- (entry y i * (db + Sum p (fun j => mat X i j * d j))))))).
    { field. lra. }
    apply (der_ln (fun t => 1 + exp (e t))); [lra|]. apply der_plus; [apply der_const|]. now apply der_exp.
  - apply (der_val _ _ (l2 / 2 * Sum p (fun j => d j * cf x j + cf x j * d j))).
    { rewrite (Sum_ext p _ (fun j => 2 * (cf x j * d j))) by (intros; ring). rewrite Sum_scal. field. }
    apply der_scal. apply (der_Sum p (fun j t => cf t j * cf t j)). intros j Hj.
    apply (der_mult (fun t => cf t j) (fun t => cf t j)); now apply Hd.
Qed.

(** ** The code's binary loss and gradient *)
Definition rll : R -> R := log_logistic (N := Rnum).
Definition rexpit : R -> R := expit (N := Rnum).
Definition rmask (p : nat) (mask : option (list R)) (w : list R) : list R :=
  match mask with Some m => map2 Rmult (firstn p w) m ++ skipn p w | None => w end.
Definition mkf (p : nat) (mask : option (list R)) (j : nat) : R :=
  match mask with Some m => if Nat.ltb j p then entry m j else 1 | None => 1 end.

Lemma rmask_length p mask w : match mask with Some m => length m = p | None => True end -> (p <= length w)%nat ->
  length (rmask p mask w) = length w.
Proof.
  intros Hm Hw. destruct mask as [m|]; [|reflexivity]. cbn. rewrite app_length, (length_map2n _ p), skipn_length; auto; [lia|].
  rewrite firstn_length. lia.
Qed.
Lemma nth_skipn' {A} (d : A) p w i : nth i (skipn p w) d = nth (p + i) w d.
Proof. revert w. induction p; intros [|a w]; cbn; auto. now destruct i. Qed.
Lemma rmask_entry p mask w j : match mask with Some m => length m = p | None => True end -> (p <= length w)%nat ->
  entry (rmask p mask w) j = mkf p mask j * entry w j.
Proof.
  intros Hm Hw. destruct mask as [m|]; cbn [rmask mkf]; [|req; ring].
  assert (Lf : length (firstn p w) = p) by (rewrite firstn_length; lia).
  assert (Lm : length (map2 Rmult (firstn p w) m) = p) by (now apply length_map2n).
  destruct (Nat.ltb_spec j p) as [H|H].
  - unfold entry at 1. rewrite app_nth1 by lia. fold (entry (map2 Rmult (firstn p w) m) j).
    rewrite (entry_map2n Rmult p) by assumption. rewrite entry_firstn by exact H. ring.
  - unfold entry. rewrite app_nth2 by lia. rewrite Lm, nth_skipn'. replace (p + (j - p))%nat with j by lia. ring.
Qed.

Section BLoss.
  Variables (n p : nat) (X : list (list R)) (y : list R) (l2 : R) (mask : option (list R)) (swo : option (list R)).
  Hypothesis HX : matrix n p X.
  Hypothesis Hn : (0 < n)%nat.
  Hypothesis Hy : length y = n.
  Hypothesis Hm : match mask with Some m => length m = p | None => True end.
  Hypothesis Hsw : match swo with Some s => length s = n | None => True end.
  Notation sw := (weights n swo).

  Definition llg (w : list R) : list R * (R * list R) := logistic_loss_and_grad (N := Rnum) p X y l2 mask swo w.
  Definition has (w : list R) : bool := Nat.eqb (length w) (S p).
  Definition bi (w : list R) : R := if has (rmask p mask w) then last (rmask p mask w) 0 else 0.
  Definition cs (w : list R) : list R := if has (rmask p mask w) then firstn p (rmask p mask w) else rmask p mask w.
  Definition yz (w : list R) : list R := map2 Rmult y (map (fun v => v + bi w) (rmatvec X (cs w))).
  Definition z0 (w : list R) : list R := map2 Rmult (map2 Rmult sw (map (fun v => rexpit v - 1) (yz w))) y.

  Lemma llg_R w : llg w =
    (rmask p mask w,
     (- rsum (map2 Rmult sw (map rll (yz w))) / IZR (Z.of_nat n) + 1 / 2 * l2 * rdot (cs w) (cs w),
      let g := map2 Rplus (map (fun v => v / IZR (Z.of_nat n)) (rtmat p X (z0 w))) (map (Rmult l2) (cs w)) in
      let g := match mask with Some m => map2 Rmult g m | None => g end in
      if has (rmask p mask w) then g ++ [rsum (z0 w) / IZR (Z.of_nat n)] else g)).
  Proof. unfold z0, weights. destruct HX as [<- _]. reflexivity. Qed.

  Section W.
    Variable w : list R.
    Hypothesis Hw : length w = p \/ length w = S p.

    Lemma len_mask : length (rmask p mask w) = length w.
    Proof. apply rmask_length; [exact Hm|lia]. Qed.
    Lemma len_cs : length (cs w) = p.
    Proof.
      unfold cs, has. rewrite len_mask. destruct (Nat.eqb_spec (length w) (S p)) as [E|E].
      - rewrite firstn_length, len_mask. lia.
      - rewrite len_mask. lia.
    Qed.
    Lemma entry_cs j : (j < p)%nat -> entry (cs w) j = mkf p mask j * entry w j.
    Proof.
      intro Hj. unfold cs. rewrite <- rmask_entry by (assumption || lia).
      destruct (has (rmask p mask w)); [|reflexivity]. now apply entry_firstn.
    Qed.
    Lemma bi_value : bi w = if Nat.eqb (length w) (S p) then entry w p else 0.
    Proof.
      unfold bi, has. rewrite len_mask. destruct (Nat.eqb_spec (length w) (S p)) as [E|E]; [|reflexivity].
      assert (EL : forall l : list R, length l = S p -> last l 0 = entry l p).
      { intros l Hl. destruct (exists_last (l := l)) as (l' & a & ->); [intros ->; discriminate|].
        rewrite app_length in Hl. cbn in Hl. rewrite last_last. unfold entry. rewrite app_nth2 by lia.
        replace (p - length l')%nat with 0%nat by lia. reflexivity. }
      rewrite EL by (now rewrite len_mask). rewrite rmask_entry by (assumption || lia). unfold mkf.
      destruct mask; [|ring]. destruct (Nat.ltb_spec p p); [lia|ring].
    Qed.
    Definition et (i : nat) : R := bi w + Sum p (fun j => mat X i j * (mkf p mask j * entry w j)).
    Lemma len_mv : length (map (fun v => v + bi w) (rmatvec X (cs w))) = n.
    Proof. unfold rmatvec. rewrite !map_length. apply HX. Qed.
    Lemma len_yz : length (yz w) = n.
    Proof. apply length_map2n; [exact Hy|exact len_mv]. Qed.
    Lemma entry_yz i : (i < n)%nat -> entry (yz w) i = entry y i * et i.
    Proof.
      intro Hi. unfold yz. rewrite (entry_map2n Rmult n) by (auto using len_mv). f_equal.
      assert (Lr : length (rmatvec X (cs w)) = n) by (unfold rmatvec; rewrite map_length; apply HX).
      rewrite (entry_mapn (fun v => v + bi w) n) by assumption.
      assert (E : entry (rmatvec X (cs w)) i = Sum p (fun j => mat X i j * entry (cs w) j)) by exact (entry_matvec n p X HX (cs w) i len_cs Hi).
      rewrite E. unfold et. rewrite Rplus_comm. f_equal. apply Sum_ext. intros j Hj. now rewrite entry_cs.
    Qed.
    Lemma len_sw : length sw = n.
    Proof. now apply length_weights. Qed.
    Lemma len_z0 : length (z0 w) = n.
    Proof. apply length_map2n; [|exact Hy]. apply length_map2n; [exact len_sw|]. rewrite map_length. exact len_yz. Qed.
    Lemma entry_z0 i : (i < n)%nat -> entry (z0 w) i = entry sw i * ((/ (1 + exp (- (entry y i * et i))) - 1) * entry y i).
    Proof.
      intro Hi. unfold z0. pose proof len_yz. pose proof len_sw.
      rewrite (entry_map2n Rmult n); [|apply length_map2n; [assumption|now rewrite map_length]|exact Hy|exact Hi].
      rewrite (entry_map2n Rmult n) by (rewrite ?map_length; assumption).
      rewrite (entry_mapn (fun v => rexpit v - 1) n) by assumption. rewrite entry_yz by exact Hi.
      unfold rexpit. rewrite (expit_R (entry y i * et i)). ring.
    Qed.

    Lemma bloss_value : fst (snd (llg w)) = blossf n p X y sw l2 (fun j => mkf p mask j * entry w j) (bi w).
    Proof.
      rewrite llg_R. cbn [fst snd]. unfold blossf. pose proof len_yz. pose proof len_sw. pose proof len_cs.
      rewrite <- INR_IZR_INZ. rewrite (rdot_Sum p) by assumption.
      rewrite (rsum_Sum n) by (apply length_map2n; rewrite ?map_length; assumption).
      rewrite (Sum_ext n (fun i => entry (map2 Rmult sw _) i) (fun i => (-1) * (entry sw i * ln (1 + exp (- (entry y i * et i)))))).
      - rewrite Sum_scal. rewrite (Sum_ext p _ (fun j => mkf p mask j * entry w j * (mkf p mask j * entry w j))).
        + unfold et, Rdiv. ring.
        + intros j Hj. now rewrite entry_cs.
      - intros i Hi. rewrite (entry_map2n Rmult n) by (rewrite ?map_length; assumption).
        rewrite (entry_mapn rll n) by assumption. rewrite entry_yz by exact Hi. unfold rll. rewrite log_logistic_R. ring.
    Qed.

    Lemma bgrad_shape : exists g, length g = p /\
      snd (snd (llg w)) = (if Nat.eqb (length w) (S p) then g ++ [rsum (z0 w) / IZR (Z.of_nat n)] else g) /\
      forall j, (j < p)%nat -> entry g j =
        mkf p mask j * (/ INR n * Sum n (fun i => entry sw i * ((/ (1 + exp (- (entry y i * et i))) - 1) * entry y i * mat X i j))
                        + l2 * (mkf p mask j * entry w j)).
    Proof.
      pose proof len_cs as Lc.
      set (g0 := map2 Rplus (map (fun v => v / IZR (Z.of_nat n)) (rtmat p X (z0 w))) (map (Rmult l2) (cs w))).
      assert (Lr : length (rtmat p X (z0 w)) = p) by (unfold rtmat; now rewrite map_length, seq_length).
      assert (L0 : length g0 = p) by (apply length_map2n; rewrite map_length; assumption).
      assert (E0 : forall j, (j < p)%nat -> entry g0 j = / INR n * Sum n (fun i => entry sw i * ((/ (1 + exp (- (entry y i * et i))) - 1) * entry y i * mat X i j))
                        + l2 * (mkf p mask j * entry w j)).
      { intros j Hj. unfold g0. rewrite (entry_map2n Rplus p) by (rewrite ?map_length; assumption).
        rewrite (entry_mapn (fun v => v / IZR (Z.of_nat n)) p), (entry_mapn (Rmult l2) p), entry_cs by assumption.
        rewrite <- INR_IZR_INZ. f_equal.
        assert (Et : entry (rtmat p X (z0 w)) j = Sum n (fun i => mat X i j * entry (z0 w) i)) by exact (entry_tmatvec n p X HX _ j len_z0 Hj).
        rewrite Et. unfold Rdiv. rewrite Rmult_comm. f_equal. apply Sum_ext. intros i Hi. rewrite entry_z0 by exact Hi. ring. }
      exists (match mask with Some m => map2 Rmult g0 m | None => g0 end).
      split; [destruct mask; [now apply length_map2n|exact L0]|]. split.
      - rewrite llg_R. cbn [snd]. cbv zeta. fold g0. unfold has. rewrite len_mask. reflexivity.
      - intros j Hj. unfold mkf at 1. destruct mask as [m|].
        + rewrite (entry_map2n Rmult p) by assumption. rewrite E0 by exact Hj. destruct (Nat.ltb_spec j p); [ring|lia].
        + rewrite E0 by exact Hj. ring.
    Qed.
  End W.

  Lemma mask_updates w j t : length w = p \/ length w = S p -> (j < length w)%nat ->
    forall k, mkf p mask k * entry (upd w j t) k = if Nat.eqb k j then mkf p mask k * t else mkf p mask k * entry w k.
  Proof. intros Hw Hj k. rewrite entry_upd by exact Hj. now destruct (Nat.eqb k j). Qed.

  Lemma logistic_gradient w j : length w = p \/ length w = S p -> (j < length w)%nat ->
    derivable_pt_lim (fun t => fst (snd (llg (upd w j t)))) (entry w j) (entry (snd (snd (llg w))) j).
  Proof.
    intros Hw Hj.
    assert (Lu : forall t, length (upd w j t) = length w) by (intro; now apply length_upd).
    assert (Hu : forall t, length (upd w j t) = p \/ length (upd w j t) = S p) by (intro; now rewrite Lu).
    apply (der_ext (fun t => blossf n p X y sw l2 (fun k => if Nat.eqb k j then mkf p mask k * t else mkf p mask k * entry w k)
             (if Nat.eqb (length w) (S p) then (if Nat.eqb p j then t else entry w p) else 0))).
    { intro t. rewrite bloss_value by apply Hu. rewrite bi_value by apply Hu. rewrite Lu.
      replace (entry (upd w j t) p) with (if Nat.eqb p j then t else entry w p) by (now rewrite entry_upd by exact Hj).
      unfold blossf. f_equal; f_equal; apply Sum_ext.
      - intros i Hi. f_equal. f_equal. f_equal. f_equal. f_equal. f_equal. f_equal. apply Sum_ext. intros k Hk. now rewrite mask_updates.
      - intros k Hk. now rewrite mask_updates. }
    destruct (bgrad_shape w Hw) as (g & Lg & -> & Hg).
    assert (Ecf : forall k, (if Nat.eqb k j then mkf p mask k * entry w j else mkf p mask k * entry w k) = mkf p mask k * entry w k).
    { intro k. destruct (Nat.eqb_spec k j); [now subst|reflexivity]. }
    assert (Eb : (if Nat.eqb (length w) (S p) then (if Nat.eqb p j then entry w j else entry w p) else 0) = bi w).
    { rewrite bi_value by exact Hw. destruct (Nat.eqb_spec p j); [now subst|reflexivity]. }
    assert (Eeta : forall i, bi w + Sum p (fun k => mat X i k * (if Nat.eqb k j then mkf p mask k * entry w j else mkf p mask k * entry w k)) = et w i).
    { intro i. unfold et. f_equal. apply Sum_ext. intros k Hk. now rewrite Ecf. }
    destruct (Nat.lt_ge_cases j p) as [Hjp|Hjp].
    - assert (Eg : entry (if (length w =? S p)%nat then g ++ [rsum (z0 w) / IZR (Z.of_nat n)] else g) j = entry g j).
      { destruct (length w =? S p)%nat; [|reflexivity]. unfold entry. now rewrite app_nth1 by lia. }
      rewrite Eg, (Hg j Hjp).
      eapply der_val; [|apply (der_bloss n p X y sw l2 (fun t k => if Nat.eqb k j then mkf p mask k * t else mkf p mask k * entry w k) _ (entry w j)
               (fun k => if Nat.eqb k j then mkf p mask j else 0) 0)].
      + cbv beta. rewrite Eb.
        assert (E1 : forall (a : nat -> R), Sum p (fun k => a k * (if Nat.eqb k j then mkf p mask j else 0)) = a j * mkf p mask j).
        { intro a. rewrite (Sum_ext p _ (fun k => if Nat.eqb k j then a j * mkf p mask j else (fun _ => 0) k)).
          - rewrite Sum_at by exact Hjp. rewrite Sum_const. ring.
          - intros k Hk. destruct (Nat.eqb_spec k j); [now subst|ring]. }
        rewrite (E1 (fun k => if Nat.eqb k j then mkf p mask k * entry w j else mkf p mask k * entry w k)). rewrite Ecf.
        rewrite (Sum_ext n _ (fun i => mkf p mask j * (entry sw i * ((/ (1 + exp (- (entry y i * et w i))) - 1) * entry y i * mat X i j)))).
        * rewrite Sum_scal. ring.
        * intros i Hi. rewrite Eeta, (E1 (mat X i)). ring.
      + intros k Hk. destruct (Nat.eqb_spec k j).
        * subst k. apply (der_val _ _ (mkf p mask j * 1)); [ring|]. apply der_scal, der_id.
        * apply der_const.
      + destruct (Nat.eqb (length w) (S p)); [|apply der_const]. destruct (Nat.eqb_spec p j); [lia|apply der_const].
    - assert (Hc : length w = S p) by lia. assert (j = p) by lia. subst j.
      assert (Eg : entry (if (length w =? S p)%nat then g ++ [rsum (z0 w) / IZR (Z.of_nat n)] else g) p = / INR n * Sum n (entry (z0 w))).
      { rewrite Hc, Nat.eqb_refl. unfold entry at 1. rewrite app_nth2, Lg, Nat.sub_diag by lia. cbn [nth].
        rewrite <- INR_IZR_INZ, (rsum_Sum n) by (now apply len_z0). unfold Rdiv. apply Rmult_comm. }
      rewrite Eg.
      eapply der_val; [|apply (der_bloss n p X y sw l2 (fun t k => if Nat.eqb k p then mkf p mask k * t else mkf p mask k * entry w k) _ (entry w p)
               (fun k => 0) 1)].
      + cbv beta. rewrite Eb.
        rewrite (Sum_ext p (fun k => _ * 0) (fun _ => 0)) by (intros; ring). rewrite Sum_const.
        rewrite (Sum_ext n _ (entry (z0 w))); [ring|].
        intros i Hi. rewrite Eeta, entry_z0 by assumption.
        rewrite (Sum_ext p (fun k => _ * 0) (fun _ => 0)) by (intros; ring). rewrite Sum_const. ring.
      + intros k Hk. destruct (Nat.eqb_spec k p); [lia|]. apply der_const.
      + rewrite Hc, !Nat.eqb_refl. apply der_id.
  Qed.
End BLoss.
