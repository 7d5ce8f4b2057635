(** One update of the interval of the More-Thuente search follows the rules (C118). *)
From Coq Require Import ZArith List Bool Arith Reals Lra Lia Psatz.
From Verif Require Import Prelude Num Model_Lbfgs Proofs_LbfgsVec Proofs_LbfgsReal Proofs_LbfgsQuad1 Proofs_LbfgsQuad2 Spec_LbfgsRules Proofs_LbfgsRules1.
Import ListNotations.
Local Open Scope R_scope.

Lemma fsign_R (a b : R) : b <> 0 -> fsigndiff (N := Rnum) a b = if Rlt_dec (a * b) 0 then true else false.
Proof.
  intro Hb. unfold fsigndiff, nzero. un. assert (Hp : 0 < Rabs b) by now apply Rabs_pos_lt.
  assert (E : a * (b / Rabs b) = a * b * / Rabs b) by (field; lra). assert (Hi : 0 < / Rabs b) by now apply Rinv_0_lt_compat.
  destruct (Rlt_dec (a * b) 0) as [L|L]; [apply Rltb_t|apply Rltb_f]; rewrite E; nra.
Qed.

Lemma ltb_dec {A : Type} (a b : R) (p q : A) : (if Rltb a b then p else q) = if Rlt_dec a b then p else q.
Proof. destruct (Rlt_dec a b) as [L|L]; [now tt L|apply Rnot_lt_le in L; now ff L]. Qed.

Section Update.
  Variables k k' : R -> R.
  Variables x y : R.
  Variable b : bool.
  Variables t tmin tmax : R.

  Record good : Prop := mkGood {
    g_ne : x <> t;
    g_dn : k' x * (t - x) < 0;
    g_in : b = true -> x < t < y \/ y < t < x;
    g_w : b = true -> k t <= k x -> 0 <= k' t * k' x -> Rabs (k' x) <= Rabs (k' t) -> 4 * (k t - k y) < - (k' t * (y - t))
  }.

  Let mc : R := cubic_minimizer (N := Rnum) x (k x) (k' x) t (k t) (k' t).
  Let mc2 : R := cubic_minimizer2 (N := Rnum) x (k x) (k' x) t (k t) (k' t) tmin tmax.
  Let mcy : R := cubic_minimizer (N := Rnum) t (k t) (k' t) y (k y) (k' y).
  Let mq : R := quard_minimizer (N := Rnum) x (k x) (k' x) t (k t).
  Let mq2 : R := quard_minimizer2 (N := Rnum) x (k' x) t (k' t).

  Definition codew : R * bool :=
    if Rlt_dec (k x) (k t) then (if Rlt_dec (Rabs (mc - x)) (Rabs (mq - x)) then mc else (mc + mq) / 2, true)
    else if Rlt_dec (k' t * k' x) 0 then (farther t mc mq2, false)
    else if Rlt_dec (Rabs (k' t)) (Rabs (k' x)) then (if b then nearer t mc2 mq2 else farther t mc2 mq2, true)
    else if b then (mcy, false) else (tmax, false).

  Hypothesis G : good.

  Lemma dx0 : k' x <> 0.
  Proof. pose proof (g_dn G) as H. intro Z. rewrite Z in H. lra. Qed.

  Lemma dips_higher : k x < k t -> dips (k x) (k t) (k' x * (t - x)) (k' t * (t - x)).
  Proof. intro H. pose proof (g_dn G). split; [assumption|right; lra]. Qed.

  Lemma across_V : k' t * k' x < 0 -> 0 < k' t * (t - x).
  Proof.
    intro H. pose proof (g_dn G) as D. destruct (Rdichotomy _ _ dx0) as [L|L].
    - assert (0 < k' t) by nra. assert (0 < t - x) by nra. nra.
    - assert (k' t < 0) by nra. assert (t - x < 0) by nra. nra.
  Qed.
  Lemma same_V : 0 <= k' t * k' x -> k' t * (t - x) <= 0.
  Proof.
    intro H. pose proof (g_dn G) as D. destruct (Rdichotomy _ _ dx0) as [L|L].
    - assert (k' t <= 0) by nra. assert (0 < t - x) by nra. nra.
    - assert (0 <= k' t) by nra. assert (t - x < 0) by nra. nra.
  Qed.

  Lemma dips_across : k' t * k' x < 0 -> dips (k x) (k t) (k' x * (t - x)) (k' t * (t - x)).
  Proof. intro H. pose proof (g_dn G). split; [assumption|left; now apply across_V]. Qed.

  Lemma flatter_UV : 0 <= k' t * k' x -> Rabs (k' t) < Rabs (k' x) -> k' x * (t - x) < k' t * (t - x).
  Proof.
    intros H1 H2. pose proof (g_dn G) as D. destruct (Rdichotomy _ _ dx0) as [L|L].
    - assert (k' t <= 0) by nra. assert (0 < t - x) by nra. rewrite Rabs_left1, Rabs_left in H2 by lra. nra.
    - assert (0 <= k' t) by nra. assert (t - x < 0) by nra. rewrite !Rabs_right in H2 by lra. nra.
  Qed.

  Lemma within_U : b = true -> 0 <= k' t * k' x -> Rabs (k' x) <= Rabs (k' t) -> k' t * (y - t) < 0.
  Proof.
    intros Hb H1 H2. pose proof (g_dn G) as D. pose proof (g_in G Hb) as I. assert (T0 : k' t <> 0).
    { intro Z. rewrite Z, Rabs_R0 in H2. pose proof (Rabs_pos_lt _ dx0). lra. }
    destruct (Rdichotomy _ _ dx0) as [L|L].
    - assert (k' t < 0) by nra. assert (0 < t - x) by nra. destruct I as [I|I]; [|lra]. nra.
    - assert (0 < k' t) by nra. assert (t - x < 0) by nra. destruct I as [I|I]; [lra|]. nra.
  Qed.
  Lemma ty : b = true -> t <> y.
  Proof. intro Hb. destruct (g_in G Hb); lra. Qed.
  Lemma dips_within : b = true -> k t <= k x -> 0 <= k' t * k' x -> Rabs (k' x) <= Rabs (k' t) -> dips (k t) (k y) (k' t * (y - t)) (k' y * (y - t)).
  Proof. intros Hb H0 H1 H2. split; [now apply within_U|right; now apply (g_w G)]. Qed.

  Lemma slopes_ne : Rabs (k' t) < Rabs (k' x) -> k' x <> k' t.
  Proof. intros H Z. rewrite Z in H. lra. Qed.
  Lemma slopes_ne2 : k' t * k' x < 0 -> k' x <> k' t.
  Proof. intros H Z. rewrite Z in H. pose proof (Rle_0_sqr (k' t)). unfold Rsqr in *. lra. Qed.

  Lemma pick_iff (w : R) (g : bool) : pick k k' x y b t tmin tmax w g <-> (w, g) = codew.
  Proof.
    pose proof (g_ne G) as Hne. pose proof (g_dn G) as Hdn. unfold codew. split.
    - intros [c q H1 H2 H3|c q H1 H2 H3 H4|c q H1 H2 H3 H4 H5|c H1 H2 H3 H4 H5|H1 H2 H3 H4].
      + destruct (Rlt_dec (k x) (k t)) as [_|N]; [|contradiction].
        apply (dips_all k k' x t Hne (dips_higher H1)) in H2. apply (vertex_is k k' x t Hne q Hdn H1) in H3. fold mc in H2. fold mq in H3. now rewrite H2, H3.
      + destruct (Rlt_dec (k x) (k t)) as [N|_]; [lra|]. destruct (Rlt_dec (k' t * k' x) 0) as [_|N]; [|contradiction].
        apply (dips_all k k' x t Hne (dips_across H2)) in H3. apply (secant_is k' x t Hne q (slopes_ne2 H2)) in H4. fold mc in H3. fold mq2 in H4. now rewrite H3, H4.
      + destruct (Rlt_dec (k x) (k t)) as [N|_]; [lra|]. destruct (Rlt_dec (k' t * k' x) 0) as [N|_]; [lra|].
        destruct (Rlt_dec (Rabs (k' t)) (Rabs (k' x))) as [_|N]; [|contradiction].
        apply (ahead_is k k' x t Hne tmin tmax c (flatter_UV H2 H3) Hdn) in H4. apply (secant_is k' x t Hne q (slopes_ne H3)) in H5.
        fold mc2 in H4. fold mq2 in H5. now rewrite H4, H5.
      + destruct (Rlt_dec (k x) (k t)) as [N|_]; [lra|]. destruct (Rlt_dec (k' t * k' x) 0) as [N|_]; [lra|].
        destruct (Rlt_dec (Rabs (k' t)) (Rabs (k' x))) as [N|_]; [lra|].
        apply (dips_all k k' t y (ty H4) (dips_within H4 H1 H2 H3)) in H5. fold mcy in H5. rewrite H5. destruct b; [reflexivity|discriminate].
      + destruct (Rlt_dec (k x) (k t)) as [N|_]; [lra|]. destruct (Rlt_dec (k' t * k' x) 0) as [N|_]; [lra|].
        destruct (Rlt_dec (Rabs (k' t)) (Rabs (k' x))) as [N|_]; [lra|]. destruct b; [discriminate|reflexivity].
    - destruct (Rlt_dec (k x) (k t)) as [H1|H1].
      { intro E. injection E as -> ->. apply pick_higher; [exact H1| |].
        - now apply (dips_all k k' x t Hne (dips_higher H1)).
        - now apply (vertex_is k k' x t Hne mq Hdn H1). }
      apply Rnot_lt_le in H1. destruct (Rlt_dec (k' t * k' x) 0) as [H2|H2].
      { intro E. injection E as -> ->. apply pick_across; [exact H1|exact H2| |].
        - now apply (dips_all k k' x t Hne (dips_across H2)).
        - now apply (secant_is k' x t Hne mq2 (slopes_ne2 H2)). }
      apply Rnot_lt_le in H2. destruct (Rlt_dec (Rabs (k' t)) (Rabs (k' x))) as [H3|H3].
      { intro E. injection E as -> ->. apply pick_flatter; [exact H1|exact H2|exact H3| |].
        - now apply (ahead_is k k' x t Hne tmin tmax mc2 (flatter_UV H2 H3) Hdn).
        - now apply (secant_is k' x t Hne mq2 (slopes_ne H3)). }
      apply Rnot_lt_le in H3. destruct (Bool.bool_dec b true) as [Hb|Hb].
      + rewrite Hb at 1. intro E. injection E as -> ->. apply pick_within; try assumption.
        now apply (dips_all k k' t y (ty Hb) (dips_within Hb H1 H2 H3)).
      + apply Bool.not_true_is_false in Hb. rewrite Hb at 1. intro E. injection E as -> ->. now apply pick_further.
  Qed.

  Lemma clip_R (w : R) : (if Rltb (if Rltb tmax w then tmax else w) tmin then tmin else if Rltb tmax w then tmax else w) = Rmax tmin (Rmin tmax w).
  Proof.
    rewrite !ltb_dec. destruct (Rlt_dec tmax w); unfold Rmax, Rmin; destruct (Rle_dec tmax w); try lra;
    repeat (match goal with |- context [Rlt_dec ?a ?c] => destruct (Rlt_dec a c) | |- context [Rle_dec ?a ?c] => destruct (Rle_dec a c) end); lra.
  Qed.

  Lemma capped_R (x' y' w : R) : (if Rltb x' y' then (if Rltb (x' + two_thirds (N := Rnum) * (y' - x')) w then x' + two_thirds (N := Rnum) * (y' - x') else w)
     else (if Rltb w (x' + two_thirds (N := Rnum) * (y' - x')) then x' + two_thirds (N := Rnum) * (y' - x') else w)) = capped x' y' w.
  Proof.
    rewrite !ltb_dec. unfold capped. rewrite two_thirds_R. unfold Rmax, Rmin.
    repeat (match goal with |- context [Rlt_dec ?a ?c] => destruct (Rlt_dec a c) | |- context [Rle_dec ?a ?c] => destruct (Rle_dec a c) end); lra.
  Qed.

  Lemma update_code : (b = true -> tmin <= tmax) -> (b = false -> x < t) ->
    update_trial_interval (N := Rnum) (mkInterval (N := Rnum) x (k x) (k' x) y (k y) (k' y) t b) (k t) (k' t) tmin tmax =
    let '(w, g) := codew in let '(x', y', b') := keep k k' x y b t in
    (mkInterval (N := Rnum) x' (k x') (k' x') y' (k y') (k' y') (if b' && g then capped x' y' (Rmax tmin (Rmin tmax w)) else Rmax tmin (Rmin tmax w)) b', 0%Z).
  Proof.
    intros Hm Hf. pose proof (g_dn G) as Hdn. pose proof (g_in G) as Hin. unfold update_trial_interval. cbv zeta.
    assert (G1 : b && (nleb (n := Rnum) t (min2 (N := Rnum) x y) || nleb (n := Rnum) (max2 (N := Rnum) x y) t) = false).
    { destruct b; [|reflexivity]. rewrite min2_R, max2_R. un. cbn [andb]. apply orb_false_iff. 
      destruct (Hin eq_refl) as [I|I].
      - rewrite Rmin_left, Rmax_right by lra. split; apply Rleb_f; lra.
      - rewrite Rmin_right, Rmax_left by lra. split; apply Rleb_f; lra. }
    rewrite G1.
    assert (G2 : b && nleb (n := Rnum) nzero (nmul (n := Rnum) (k' x) (nsub (n := Rnum) t x)) = false).
    { unfold nzero. un. assert (E : Rleb 0 (k' x * (t - x)) = false) by (apply Rleb_f; exact Hdn). rewrite E. apply andb_false_r. }
    rewrite G2.
    assert (G3 : b && nltb (n := Rnum) tmax tmin = false).
    { un. destruct b; [|reflexivity]. specialize (Hm eq_refl). now ff Hm. }
    rewrite G3. rewrite (fsign_R _ _ dx0). un. fold mc mc2 mcy mq mq2. rewrite half_R. unfold codew, keep.
    destruct (Rlt_dec (k x) (k t)) as [H1|H1].
    { tt H1. rewrite clip_R, capped_R. cbn [andb].
      assert (E : (if Rltb (Rabs (mc - x)) (Rabs (mq - x)) then mc else mc + 1 / 2 * (mq - mc)) = if Rlt_dec (Rabs (mc - x)) (Rabs (mq - x)) then mc else (mc + mq) / 2).
      { rewrite ltb_dec. destruct Rlt_dec; [reflexivity|field]. }
      rewrite E. reflexivity. }
    apply Rnot_lt_le in H1. ff H1. destruct (Rlt_dec (k' t * k' x) 0) as [H2|H2].
    { rewrite clip_R. cbn [andb]. unfold farther. rewrite ltb_dec, (Rabs_minus_sym mq2), (Rabs_minus_sym mc). reflexivity. }
    destruct (Rlt_dec (Rabs (k' t)) (Rabs (k' x))) as [H3|H3].
    { tt H3. rewrite clip_R, capped_R. rewrite andb_true_r. unfold nearer, farther. rewrite !ltb_dec. reflexivity. }
    apply Rnot_lt_le in H3. ff H3. rewrite clip_R. rewrite andb_false_r. destruct b; [reflexivity|]. specialize (Hf eq_refl). now tt Hf.
  Qed.

  Lemma update_chooses (x' y' : R) (b' : bool) (u : R) : (b = true -> tmin <= tmax) -> (b = false -> x < t) ->
    chooses k k' x y b t tmin tmax x' y' b' u ->
    update_trial_interval (N := Rnum) (mkInterval (N := Rnum) x (k x) (k' x) y (k y) (k' y) t b) (k t) (k' t) tmin tmax =
    (mkInterval (N := Rnum) x' (k x') (k' x') y' (k y') (k' y') u b', 0%Z).
  Proof.
    intros Hm Hf (w & g & H1 & H2 & ->). rewrite update_code by assumption. apply pick_iff in H1. rewrite <- H1, H2. reflexivity.
  Qed.

  Lemma chooses_exists : exists x' y' b' u, chooses k k' x y b t tmin tmax x' y' b' u /\
    forall x2 y2 b2 u2, chooses k k' x y b t tmin tmax x2 y2 b2 u2 -> (x2, y2, b2, u2) = (x', y', b', u).
  Proof.
    destruct codew as [w g] eqn:E. destruct (keep k k' x y b t) as [[x' y'] b'] eqn:K.
    exists x', y', b', (if b' && g then capped x' y' (Rmax tmin (Rmin tmax w)) else Rmax tmin (Rmin tmax w)). split.
    - exists w, g. split; [apply pick_iff; now rewrite E|]. split; [exact K|reflexivity].
    - intros x2 y2 b2 u2 (w2 & g2 & P & K2 & ->). apply pick_iff in P. rewrite E in P. injection P as -> ->. rewrite K in K2. injection K2 as <- <- <-. reflexivity.
  Qed.
End Update.
