(** The More-Thuente search follows the rules (C118). *)
From Coq Require Import String ZArith List Bool Arith Reals Lra Lia Psatz.
From Verif Require Import Prelude Num Spec_Rescale Proofs_Rescale Model_Lbfgs Proofs_Poisson Spec_Lbfgs Spec_LbfgsBack Spec_LbfgsRules
  Proofs_Lbfgs Proofs_LbfgsTrace Proofs_LbfgsVec Proofs_LbfgsReal Proofs_LbfgsTop Proofs_LbfgsDir Proofs_LbfgsDescent
  Proofs_LbfgsCurv Proofs_LbfgsOpts Proofs_LbfgsQuad1 Proofs_LbfgsQuad2 Proofs_LbfgsQuad3 Proofs_LbfgsBack Proofs_LbfgsRules1 Proofs_LbfgsRules2.
Import ListNotations.
Local Open Scope R_scope.

(** ** What holds of the interval *)
Section Invariant.
  Variables mu eta xtol lo hi : R.
  Variables h h' : R -> R.
  Variable t0 : R.
  Hypothesis Hd : h' 0 < 0.
  Hypothesis Hmu : 0 <= mu < 1.
  Hypothesis Heta : 4 * mu <= eta.
  Hypothesis Hlo : 0 <= lo.
  Notation enough := (enough mu h h').
  Notation settled := (settled mu eta h h').
  Notation acceptable := (acceptable mu eta h h').
  Notation tilt := (tilt mu h h').
  Notation follows := (follows mu eta xtol lo hi h h' t0).

  Definition sound (first : bool) (x y : R) (b : bool) : Prop :=
    if first then 0 <= x /\ h' x < mu * h' 0 /\ h x <= enough x /\ (b = true -> x < y /\ (h x < h y \/ enough y < h y))
    else b = true /\ x <> y /\ h x <= h y /\ (h' x <> 0 -> h' x * (y - x) < 0).

  Definition placed (x y : R) (b : bool) (t : R) : Prop := b = true -> Rmin x y < t < Rmax x y.

  Lemma settled_dec t : {settled t} + {~ settled t}.
  Proof.
    unfold settled. destruct (Rle_dec (h t) (enough t)) as [A|A]; [|right; tauto].
    destruct (Rle_dec (Rmin mu eta * h' 0) (h' t)) as [B|B]; [left; split; assumption|right; tauto].
  Qed.

  Lemma rejected t : ~ acceptable t -> h t <= enough t -> eta * - h' 0 < Rabs (h' t).
  Proof.
    intros H L. unfold acceptable in H. rewrite (Rabs_left (h' 0)) in H by exact Hd.
    destruct (Rlt_dec (eta * - h' 0) (Rabs (h' t))) as [Q|Q]; [exact Q|]. exfalso. apply H. split; [exact L|lra].
  Qed.

  Lemma min_mu : Rmin mu eta = mu.
  Proof. apply Rmin_left. lra. Qed.

  Section Step.
    Variables (first first' : bool) (x y : R) (b : bool) (t : R).
    Hypothesis Hs : sound first x y b.
    Hypothesis Hp : placed x y b t.
    Hypothesis Ht : 0 < t.
    Hypothesis Hr : ~ acceptable t.
    Hypothesis Hw : downhill h' x b t.
    Hypothesis Hf : first' = true <-> first = true /\ ~ settled t.
    Let s := tilt first' x t.
    Let k (r : R) := h r - s * r.
    Let k' (r : R) := h' r - s.

    Lemma first_up : first = true -> x < t.
    Proof.
      intros ->. destruct Hs as (S1 & S2 & S3 & S4). unfold downhill in Hw. destruct b; [|exact Hw].
      destruct (S4 eq_refl) as [S5 _]. specialize (Hp eq_refl). rewrite Rmin_left in Hp by lra. lra.
    Qed.

    Lemma second : first = false -> first' = false.
    Proof. intros ->. destruct first'; [|reflexivity]. destruct Hf as [F _]. destruct (F eq_refl). discriminate. Qed.

    Lemma tilt_0 : s = 0 -> h t <= h x -> first = true -> h t <= enough t.
    Proof.
      intros Es L E. unfold s, tilt in Es. destruct (settled_dec t) as [Q|Q]; [exact (proj1 Q)|].
      assert (Ef : first' = true) by (apply Hf; split; assumption). rewrite Ef in Es.
      destruct (Rlt_dec (enough t) (h t)) as [A|A]; [|apply Rnot_lt_le; exact A]. destruct (Rle_dec (h t) (h x)) as [B|B]; [|contradiction].
      unfold Spec_LbfgsRules.enough in *. exfalso. rewrite E in Hs. destruct Hs as (S1 & S2 & S3 & _). unfold Spec_LbfgsRules.enough in S3.
      rewrite Es in *. lra.
    Qed.

    Lemma tilt_cases : (s = 0) \/ (s = mu * h' 0 /\ first = true /\ first' = true /\ enough t < h t /\ h t <= h x).
    Proof.
      unfold s, tilt. destruct first' eqn:Ef; [|now left]. destruct (Rlt_dec (enough t) (h t)); [|now left]. destruct (Rle_dec (h t) (h x)); [|now left].
      right. repeat split; try assumption. now apply Hf.
    Qed.

    Lemma sound_good : good k k' x y b t.
    Proof.
      destruct (Bool.bool_dec first true) as [E1|E1]; [|apply Bool.not_true_is_false in E1]; pose proof Hs as Hs'; rewrite E1 in Hs'.
      - pose proof (first_up E1) as U. destruct Hs' as (S1 & S2 & S3 & S4).
        assert (I : b = true -> x < t < y \/ y < t < x).
        { intro B. destruct (S4 B) as [S5 _]. pose proof (Hp B) as Hp'. rewrite Rmax_right in Hp' by lra. left. lra. }
        assert (X0 : h' x < 0) by nra.
        destruct tilt_cases as [Es|(Es & _ & _ & T1 & T2)].
        + constructor; [lra|unfold k'; cbv beta; rewrite Es; nra|exact I|]. intros B K1 K2 K3. unfold k, k' in *. rewrite Es in *.
          rewrite !Rmult_0_l, !Rminus_0_r in *. pose proof (tilt_0 Es K1 E1) as L. pose proof (rejected t Hr L) as R.
          assert (T0 : h' t < 0). { rewrite (Rabs_left (h' x)) in K3 by exact X0. destruct (Req_dec (h' t) 0) as [Z|Z]; [rewrite Z, Rabs_R0 in K3; lra|nra]. }
          rewrite (Rabs_left (h' t)) in R by exact T0. destruct (S4 B) as [S5 S6]. assert (Ty : t < y) by (destruct (I B); lra).
          assert (0 < - h' t * (y - t)) by (apply Rmult_lt_0_compat; lra).
          destruct S6 as [S6|S6]; [nra|]. unfold Spec_LbfgsRules.enough in *.
          assert (h t - h y < mu * - h' 0 * (y - t)) by nra. assert (4 * (mu * - h' 0) <= eta * - h' 0) by nra.
          assert (4 * (mu * - h' 0 * (y - t)) < - h' t * (y - t)) by nra. nra.
        + constructor; [lra|unfold k'; rewrite Es; nra|exact I|]. intros B K1 K2 K3. exfalso. unfold k in K1. rewrite Es in K1. unfold Spec_LbfgsRules.enough in *. lra.
      - pose proof (second E1) as Ef. destruct Hs' as (B & S1 & S2 & S3).
        assert (Es : s = 0) by (unfold s, tilt; now rewrite Ef). pose proof (Hp B) as Hp'. pose proof Hw as Hw'. unfold downhill in Hw'. rewrite B in Hw'. specialize (S3 Hw').
        assert (I : x < t < y \/ y < t < x).
        { destruct (Rlt_dec x y) as [L|L]; [left; rewrite Rmin_left, Rmax_right in Hp' by lra; lra|right; rewrite Rmin_right, Rmax_left in Hp' by lra; lra]. }
        constructor; [destruct I; lra| |intros _; exact I|].
        + unfold k'. rewrite Es, Rminus_0_r. destruct (Rdichotomy _ _ Hw') as [L|L].
          * assert (0 < y - x) by nra. assert (0 < t - x) by lra. nra.
          * assert (y - x < 0) by nra. assert (t - x < 0) by lra. nra.
        + intros _ K1 K2 K3. unfold k, k' in *. rewrite Es in *. rewrite !Rmult_0_l, !Rminus_0_r in *.
          assert (T0 : h' t <> 0) by (intro Z; rewrite Z, Rabs_R0 in K3; pose proof (Rabs_pos_lt _ Hw'); lra).
          destruct (Rdichotomy _ _ Hw') as [L|L].
          * assert (h' t < 0) by nra. assert (0 < y - x) by nra. assert (0 < y - t) by lra. nra.
          * assert (0 < h' t) by nra. assert (y - x < 0) by nra. assert (y - t < 0) by lra. nra.
    Qed.

    Lemma sound_next x' y' b' : keep k k' x y b t = (x', y', b') -> sound first' x' y' b'.
    Proof.
      unfold keep. intro K. destruct (Bool.bool_dec first true) as [E1|E1]; [|apply Bool.not_true_is_false in E1]; pose proof Hs as Hs'; rewrite E1 in Hs'.
      - pose proof (first_up E1) as U. destruct Hs' as (S1 & S2 & S3 & S4).
        assert (X0 : h' x < 0) by nra.
        destruct tilt_cases as [Es|(Es & _ & Ef & T1 & T2)].
        + unfold k, k' in K. rewrite Es in K. rewrite !Rmult_0_l, !Rminus_0_r in K.
          destruct (settled_dec t) as [Q|Q].
          * assert (Ef : first' = false) by (destruct first'; [|reflexivity]; destruct Hf as [F _]; destruct (F eq_refl); contradiction).
            destruct Q as [Q1 Q2]. rewrite min_mu in Q2. pose proof (rejected t Hr Q1) as R.
            assert (T0 : 0 < h' t). { destruct (Rlt_dec 0 (h' t)) as [L|L]; [exact L|]. exfalso. rewrite Rabs_left1 in R by lra. nra. }
            rewrite Ef. cbn [sound]. destruct (Rlt_dec (h x) (h t)) as [L|L].
            -- injection K as <- <- <-. split; [reflexivity|]. split; [lra|]. split; [lra|]. intros _. nra.
            -- apply Rnot_lt_le in L. destruct (Rlt_dec (h' t * h' x) 0) as [M|M]; [|exfalso; apply M; nra]. injection K as <- <- <-.
               split; [reflexivity|]. split; [lra|]. split; [lra|]. intros _. nra.
          * assert (Ef : first' = true) by (apply Hf; split; [exact E1|exact Q]). rewrite Ef. cbn [sound].
            destruct (Rlt_dec (h x) (h t)) as [L|L].
            -- injection K as <- <- <-. repeat split; try assumption. now left.
            -- apply Rnot_lt_le in L. pose proof (tilt_0 Es L E1) as Q1. pose proof (rejected t Hr Q1) as R.
               assert (T0 : h' t < mu * h' 0).
               { destruct (Rlt_dec (h' t) (mu * h' 0)) as [M|M]; [exact M|]. exfalso. apply Q. split; [exact Q1|rewrite min_mu; lra]. }
               assert (T1 : h' t < 0) by nra.
               destruct (Rlt_dec (h' t * h' x) 0) as [M|M]; [exfalso; nra|]. injection K as <- <- <-.
               split; [lra|]. split; [exact T0|]. split; [exact Q1|]. intro B. destruct (S4 B) as [S5 S6]. pose proof (Hp B) as Hp'. rewrite Rmax_right in Hp' by lra.
               split; [lra|]. destruct S6; [left; lra|now right].
        + unfold k, k' in K. rewrite Es in K. unfold Spec_LbfgsRules.enough in *.
          destruct (Rlt_dec (h x - mu * h' 0 * x) (h t - mu * h' 0 * t)) as [L|L]; [|exfalso; lra]. injection K as <- <- <-.
          rewrite Ef. cbn [sound]. repeat split; try assumption. right. exact T1.
      - pose proof (second E1) as Ef. destruct Hs' as (B & S1 & S2 & S3).
        assert (Es : s = 0) by (unfold s, tilt; now rewrite Ef). pose proof (Hp B) as Hp'. pose proof Hw as Hw'. unfold downhill in Hw'. rewrite B in Hw', K. specialize (S3 Hw').
        assert (I : x < t < y \/ y < t < x).
        { destruct (Rlt_dec x y) as [L|L]; [left; rewrite Rmin_left, Rmax_right in Hp' by lra; lra|right; rewrite Rmin_right, Rmax_left in Hp' by lra; lra]. }
        unfold k, k' in K. rewrite Es in K. rewrite !Rmult_0_l, !Rminus_0_r in K. rewrite Ef. cbn [sound].
        destruct (Rlt_dec (h x) (h t)) as [L|L].
        + injection K as <- <- <-. split; [reflexivity|]. split; [lra|]. split; [lra|]. intros _.
          destruct (Rdichotomy _ _ Hw') as [M|M]; [assert (0 < y - x) by nra; assert (0 < t - x) by lra; nra|assert (y - x < 0) by nra; assert (t - x < 0) by lra; nra].
        + apply Rnot_lt_le in L. destruct (Rlt_dec (h' t * h' x) 0) as [M|M]; injection K as <- <- <-.
          * split; [reflexivity|]. split; [lra|]. split; [lra|]. intros _.
            destruct (Rdichotomy _ _ Hw') as [O|O]; [assert (0 < y - x) by nra; assert (0 < t - x) by lra; assert (0 < h' t) by nra; nra|
              assert (y - x < 0) by nra; assert (t - x < 0) by lra; assert (h' t < 0) by nra; nra].
          * apply Rnot_lt_le in M. split; [reflexivity|]. split; [lra|]. split; [lra|]. intro T0.
            destruct (Rdichotomy _ _ Hw') as [O|O]; [assert (0 < y - x) by nra; assert (0 < y - t) by lra; assert (h' t < 0) by nra; nra|
              assert (y - x < 0) by nra; assert (y - t < 0) by lra; assert (0 < h' t) by nra; nra].
    Qed.
  End Step.

  Lemma follows_sound ts first x y b width old t : follows ts first x y b width old t ->
    sound first x y b /\ inside xtol x y b t /\ ts <> [].
  Proof.
    induction 1 as [|ts first x y b width old t first' x' y' b' u t' H IH Ht Hr Hw Hf Hc Et Hi].
    - split; [|split; [intros B; discriminate|discriminate]]. cbn [sound]. unfold Spec_LbfgsRules.enough. repeat split; try lra; try nra; discriminate.
    - destruct IH as (I1 & I2 & _). destruct Hc as (w & g & _ & K & _).
      split; [|split; [exact Hi|destruct ts; discriminate]].
      refine (sound_next first first' x y b t I1 _ _ _ _ _ x' y' b' K); try assumption; [|lra].
      + intro B. exact (proj1 (I2 B)).
  Qed.

  Lemma follows_good ts first x y b width old t first' : follows ts first x y b width old t -> lo < t < hi -> ~ acceptable t -> downhill h' x b t ->
    (first' = true <-> first = true /\ ~ settled t) ->
    good (fun r => h r - tilt first' x t * r) (fun r => h' r - tilt first' x t) x y b t.
  Proof.
    intros H Ht Hr Hw Hf. destruct (follows_sound _ _ _ _ _ _ _ _ H) as (I1 & I2 & _).
    apply (sound_good first first' x y b t I1); try assumption. intro B. exact (proj1 (I2 B)).
  Qed.
End Invariant.
