(** Where the next trial lies, and the evaluations of the first search (C118). *)
From Coq Require Import String ZArith List Bool Arith Reals Lra Lia Psatz.
From Verif Require Import Prelude Num Spec_Rescale Proofs_Rescale Model_Lbfgs Proofs_Poisson Spec_Lbfgs Spec_LbfgsBack Spec_LbfgsRules
  Proofs_Lbfgs Proofs_LbfgsTrace Proofs_LbfgsVec Proofs_LbfgsReal Proofs_LbfgsTop Proofs_LbfgsDir Proofs_LbfgsDescent
  Proofs_LbfgsCurv Proofs_LbfgsOpts Proofs_LbfgsQuad1 Proofs_LbfgsQuad2 Proofs_LbfgsQuad3 Proofs_LbfgsBack Proofs_LbfgsRules1 Proofs_LbfgsRules2 Proofs_LbfgsRules3 Proofs_LbfgsRules4.
Import ListNotations.
Local Open Scope R_scope.

(** ** Strictly between *)
Definition btw (x y w : R) : Prop := x < w < y \/ y < w < x.

Lemma btw_minmax x y w : btw x y w -> Rmin x y < w < Rmax x y.
Proof. intros [H|H]; [rewrite Rmin_left, Rmax_right by lra|rewrite Rmin_right, Rmax_left by lra]; lra. Qed.
Lemma btw_part x y r : x <> y -> 0 < r < 1 -> btw x y (x + r * (y - x)).
Proof. intros H R. unfold btw. destruct (Rdichotomy _ _ H); [left|right]; nra. Qed.
Lemma btw_sym x y w : btw x y w -> btw y x w.
Proof. unfold btw. tauto. Qed.
Lemma btw_capped x y w : x <> y -> btw x y w -> btw x y (capped x y w).
Proof.
  intros H B. pose proof (btw_part x y (66 / 100) H ltac:(lra)) as Q. unfold capped. destruct (Rlt_dec x y).
  - unfold Rmin. destruct Rle_dec; assumption.
  - unfold Rmax. destruct Rle_dec; assumption.
Qed.
(** From x towards y and not beyond it. *)
Lemma btw_capped2 x y w : (x < w <= y \/ y <= w < x) -> btw x y (capped x y w).
Proof.
  intro B. assert (H : x <> y) by lra. pose proof (btw_part x y (66 / 100) H ltac:(lra)) as Q. unfold capped, btw in *. destruct (Rlt_dec x y).
  - unfold Rmin. destruct Rle_dec; lra.
  - unfold Rmax. destruct Rle_dec; lra.
Qed.
Lemma clip_btw lo hi x y w : lo <= x <= hi -> lo <= y <= hi -> btw x y w -> Rmax lo (Rmin hi w) = w.
Proof. intros H1 H2 B. assert (lo <= w <= hi) by (unfold btw in B; lra). rewrite Rmin_right by lra. apply Rmax_right. lra. Qed.

Section Place.
  Variables k k' : R -> R.
  Variables x y : R.
  Variable b : bool.
  Variable t : R.
  Hypothesis G : good k k' x y b t.
  Hypothesis Hf : b = false -> x < t.
  Let lo := least x y b.
  Let hi := most x y b t.

  Lemma limits : lo <= x <= hi /\ lo <= t <= hi /\ (b = true -> lo <= y <= hi).
  Proof.
    pose proof (g_in _ _ _ _ _ _ G) as I. unfold lo, hi, least, most. destruct b.
    - destruct (I eq_refl); [rewrite Rmin_left, Rmax_right by lra|rewrite Rmin_right, Rmax_left by lra]; lra.
    - specialize (Hf eq_refl). repeat split; try lra; discriminate.
  Qed.

  Lemma place x' y' b' u : chooses k k' x y b t lo hi x' y' b' u -> b' = true -> k' t <> 0 ->
    (k t <= k x -> 0 <= k' t * k' x -> Rabs (k' t) < Rabs (k' x) -> exists e, lowest k k' x t e /\ beyond x t e) ->
    btw x' y' u.
  Proof.
    intros (w & g & Hp & Hk & ->) Hb' Ht Hs. pose proof (g_ne _ _ _ _ _ _ G) as Hne. pose proof (g_dn _ _ _ _ _ _ G) as Hdn.
    destruct limits as (L1 & L2 & L3). unfold keep in Hk.
    destruct Hp as [c q H1 H2 H3|c q H1 H2 H3 H4|c q H1 H2 H3 H4 H5|c H1 H2 H3 H4 H5|H1 H2 H3 H4].
    - destruct (Rlt_dec (k x) (k t)) as [_|N]; [|contradiction]. injection Hk as <- <- <-. cbn [andb].
      destruct (dips_all k k' x t Hne (dips_higher _ _ _ _ _ _ G H1)) as [D1 (r & D2 & D3)]. apply D1 in H2. rewrite D3 in H2.
      apply (vertex_is k k' x t Hne q Hdn H1) in H3. destruct (vertex_range k k' x t Hne Hdn H1) as (r' & V1 & V2). rewrite V2 in H3.
      set (w := if Rlt_dec (Rabs (c - x)) (Rabs (q - x)) then c else (c + q) / 2).
      assert (B : btw x t w).
      { unfold w. destruct Rlt_dec; [rewrite H2; apply btw_part; assumption|].
        replace ((c + q) / 2) with (x + (r + r') / 2 * (t - x)) by (rewrite H2, H3; field). apply btw_part; [exact Hne|lra]. }
      rewrite (clip_btw lo hi x t w L1 L2 B). apply btw_capped; assumption.
    - destruct (Rlt_dec (k x) (k t)) as [N|_]; [lra|]. destruct (Rlt_dec (k' t * k' x) 0) as [_|N]; [|contradiction]. injection Hk as <- <- <-. cbn [andb].
      destruct (dips_all k k' x t Hne (dips_across _ _ _ _ _ _ G H2)) as [D1 (r & D2 & D3)]. apply D1 in H3. rewrite D3 in H3.
      apply (secant_is k' x t Hne q (slopes_ne2 _ _ _ H2)) in H4.
      destruct (secant_between k' x t Hne Hdn (across_V _ _ _ _ _ _ G H2)) as (r' & V1 & V2). rewrite V2 in H4.
      assert (B : btw x t (farther t c q)) by (unfold farther; destruct Rlt_dec; [rewrite H3|rewrite H4]; apply btw_part; assumption).
      rewrite (clip_btw lo hi x t _ L1 L2 B). apply btw_sym, B.
    - destruct (Rlt_dec (k x) (k t)) as [N|_]; [lra|]. destruct (Rlt_dec (k' t * k' x) 0) as [N|_]; [lra|]. injection Hk as <- <- E.
      rewrite Hb' in *. rewrite E in *. cbn [andb].
      destruct (Hs H1 H2 H3) as (e & S1 & S2).
      assert (Hc : beyond x t c) by (destruct H4 as [[_ A]|[A _]]; [exact A|exfalso; exact (A e S1 S2)]).
      assert (Vn : k' t * (t - x) < 0).
      { pose proof (same_V _ _ _ _ _ _ G H2) as A. assert (k' t * (t - x) <> 0) by (apply Rmult_integral_contrapositive_currified; lra). lra. }
      apply (secant_is k' x t Hne q (slopes_ne _ _ _ H3)) in H5.
      destruct (secant_beyond k' x t Hne (flatter_UV _ _ _ _ _ _ G H2 H3) Vn) as (r & R1 & R2). rewrite R2 in H5.
      assert (Hq : beyond x t q) by (unfold beyond; rewrite H5; assert (0 < (t - x) * (t - x)) by (destruct (Rdichotomy _ _ Hne); nra); nra).
      assert (Hw : beyond x t (nearer t c q)) by (unfold nearer; destruct Rlt_dec; assumption).
      set (w := nearer t c q) in *. clearbody w. unfold beyond in Hw. apply btw_capped2.
      unfold lo, hi, least, most. rewrite E. destruct (g_in _ _ _ _ _ _ G eq_refl) as [I|I].
      + left. rewrite (Rmin_left x y), (Rmax_right x y) by lra. assert (t < w) by nra. split.
        * eapply Rlt_le_trans; [|apply Rmax_r]. apply Rmin_glb_lt; lra.
        * apply Rmax_lub; [lra|apply Rmin_l].
      + right. rewrite (Rmin_right x y), (Rmax_left x y) by lra. assert (w < t) by nra. split; [apply Rmax_l|]. apply Rmax_lub_lt; [lra|].
        eapply Rle_lt_trans; [apply Rmin_r|lra].
    - destruct (Rlt_dec (k x) (k t)) as [N|_]; [lra|]. destruct (Rlt_dec (k' t * k' x) 0) as [N|_]; [lra|]. injection Hk as <- <- E.
      rewrite andb_false_r. pose proof (ty _ _ _ _ _ _ G H4) as Hty.
      destruct (dips_all k k' t y Hty (dips_within _ _ _ _ _ _ G H4 H1 H2 H3)) as [D1 (r & D2 & D3)]. apply D1 in H5. rewrite D3 in H5.
      assert (B : btw t y c) by (rewrite H5; apply btw_part; assumption). rewrite (clip_btw lo hi t y c L2 (L3 H4) B). exact B.
    - exfalso. destruct (Rlt_dec (k x) (k t)) as [N|_]; [lra|]. destruct (Rlt_dec (k' t * k' x) 0) as [N|_]; [lra|]. injection Hk as <- <- E. congruence.
  Qed.
End Place.

Section Next.
  Variables mu eta xtol lo hi : R.
  Variables h h' : R -> R.
  Variable t0 : R.
  Hypothesis Hd : h' 0 < 0.
  Hypothesis Hmu : 0 <= mu < 1.
  Hypothesis Heta : 4 * mu <= eta.
  Hypothesis Hlo : 0 <= lo.
  Variables (ts : list R) (first : bool) (x y : R) (b : bool) (width old t : R).
  Hypothesis H : follows mu eta xtol lo hi h h' t0 ts first x y b width old t.
  Hypothesis Ht : lo < t < hi.
  Hypothesis Hr : ~ acceptable mu eta h h' t.
  Hypothesis Hw : downhill h' x b t.

  Lemma next_defined : exists first' x' y' b' u,
    let s := tilt mu h h' first' x t in
    (first' = true <-> first = true /\ ~ settled mu eta h h' t) /\
    chooses (fun r => h r - s * r) (fun r => h' r - s) x y b t (least x y b) (most x y b t) x' y' b' u /\
    forall x2 y2 b2 u2, chooses (fun r => h r - s * r) (fun r => h' r - s) x y b t (least x y b) (most x y b t) x2 y2 b2 u2 -> (x2, y2, b2, u2) = (x', y', b', u).
  Proof.
    set (first' := first && if settled_dec mu eta h h' Hmu t then false else true).
    assert (Hf : first' = true <-> first = true /\ ~ settled mu eta h h' t).
    { unfold first'. destruct settled_dec; rewrite andb_true_iff; intuition. }
    pose proof (follows_good mu eta xtol lo hi h h' t0 Hd Hmu Heta Hlo _ _ _ _ _ _ _ _ first' H Ht Hr Hw Hf) as G.
    destruct (chooses_exists _ _ _ _ _ _ (least x y b) (most x y b t) G) as (x' & y' & b' & u & C1 & C2).
    exists first', x', y', b', u. cbv zeta. split; [exact Hf|]. split; [exact C1|exact C2].
  Qed.

  Lemma next_inside first' x' y' u : let s := tilt mu h h' first' x t in
    (first' = true <-> first = true /\ ~ settled mu eta h h' t) ->
    chooses (fun r => h r - s * r) (fun r => h' r - s) x y b t (least x y b) (most x y b t) x' y' true u ->
    h' t <> 0 -> (h t <= h x -> 0 <= h' t * h' x -> Rabs (h' t) < Rabs (h' x) -> exists e, lowest h h' x t e /\ beyond x t e) ->
    Rmin x' y' < halved x' y' true old u < Rmax x' y'.
  Proof.
    cbv zeta. intros Hf Hc H0 Hs. pose proof (follows_good mu eta xtol lo hi h h' t0 Hd Hmu Heta Hlo _ _ _ _ _ _ _ _ first' H Ht Hr Hw Hf) as G.
    destruct (follows_sound mu eta xtol lo hi h h' t0 Hd Hmu Heta Hlo _ _ _ _ _ _ _ _ H) as (S & I & _).
    assert (Hx : b = false -> x < t) by (intros E; unfold downhill in Hw; rewrite E in Hw; exact Hw).
    assert (B : btw x' y' u).
    { assert (C : tilt mu h h' first' x t = 0 \/ (tilt mu h h' first' x t = mu * h' 0 /\ first = true /\ enough mu h h' t < h t)).
      { unfold tilt. destruct first'; [|now left]. destruct (Rlt_dec (enough mu h h' t) (h t)); [|now left]. destruct (Rle_dec (h t) (h x)); [|now left].
        right. repeat split; try assumption. now apply Hf. }
      destruct C as [Es|(Es & E1 & E2)].
      - rewrite Es in Hc, G. eapply place; [exact G|exact Hx|exact Hc|reflexivity|lra|].
        intros K1 K2 K3. cbv beta in K1, K2, K3. rewrite !Rmult_0_l, !Rminus_0_r in K1. rewrite !Rminus_0_r in K2, K3. destruct (Hs K1 K2 K3) as (e & L1 & L2). exists e. split; [|exact L2].
        destruct L1 as (a1 & b1 & L1). exists a1, b1. rewrite !Rmult_0_l, !Rminus_0_r. exact L1.
      - rewrite Es in Hc, G. rewrite E1 in S. cbn [sound] in S. destruct S as (S1 & S2 & S3 & _).
        assert (Hh : (fun r => h r - mu * h' 0 * r) x < (fun r => h r - mu * h' 0 * r) t) by (unfold enough in *; cbv beta; lra).
        destruct Hc as (w & g & Hp & Hk & Eu). 
        assert (Et : h' t - mu * h' 0 = 0 \/ h' t - mu * h' 0 <> 0) by (destruct (Req_dec (h' t - mu * h' 0) 0); tauto).
        destruct Et as [Et|Et].
        + destruct Hp as [c q H1 H2 H3|c q H1 H2 H3 H4|c q H1 H2 H3 H4 H5|c H1 H2 H3 H4 H5|H1 H2 H3 H4]; try (exfalso; lra).
          set (k := fun r => h r - mu * h' 0 * r) in *. set (k' := fun r => h' r - mu * h' 0) in *.
          pose proof (g_ne _ _ _ _ _ _ G) as Hne. pose proof (g_dn _ _ _ _ _ _ G) as Hdn. destruct (limits _ _ _ _ _ _ G Hx) as (L1 & L2 & L3).
          unfold keep in Hk. destruct (Rlt_dec (k x) (k t)) as [_|N]; [|contradiction]. injection Hk as <- <-. cbn [andb] in Eu.
          destruct (dips_all k k' x t Hne (dips_higher _ _ _ _ _ _ G H1)) as [D1 (r & D2 & D3)]. apply D1 in H2. rewrite D3 in H2.
          apply (vertex_is k k' x t Hne q Hdn H1) in H3. destruct (vertex_range k k' x t Hne Hdn H1) as (r' & V1 & V2). rewrite V2 in H3.
          assert (B : btw x t (if Rlt_dec (Rabs (c - x)) (Rabs (q - x)) then c else (c + q) / 2)).
          { destruct Rlt_dec; [rewrite H2; apply btw_part; assumption|].
            replace ((c + q) / 2) with (x + (r + r') / 2 * (t - x)) by (rewrite H2, H3; field). apply btw_part; [exact Hne|lra]. }
          rewrite Eu, (clip_btw _ _ x t _ L1 L2 B). apply btw_capped; assumption.
        + eapply place; [exact G|exact Hx|exists w, g; split; [exact Hp|split; [exact Hk|exact Eu]]|reflexivity|exact Et|].
          intros K1 _ _. exfalso. lra. }
    unfold halved. destruct Rle_dec; [|now apply btw_minmax]. apply btw_minmax. unfold btw in *. lra.
  Qed.
End Next.

Lemma vecadd_steepest n (x0 g : list R) t : length x0 = n -> length g = n -> steepest n x0 g t (vecadd (N := Rnum) x0 (vecncpy (N := Rnum) g) t).
Proof.
  intros Hx Hg. assert (Hl : length (vecncpy (N := Rnum) g) = n) by now apply length_vecncpy. split; [now apply length_vecadd|].
  intros i Hi. rewrite (entry_vecadd n), (entry_vecncpy n) by assumption. ring.
Qed.

Lemma run_see_end {N : NumOps} {St} (P : params N) (f : objective N St) b e s l en : (0 < p_max_linesearch P)%Z -> run P (see f) None b e s l en ->
  exists r fuel more, run_line_search P (see f) fuel b e s = Some r /\ snd (end_state en) = snd (pt_st (s_pt r)) ++ more /\
    ((s_ret r < 0)%Z -> more = [] /\ en = Done (pt_st (s_pt r)) (pt_x (l_pt s)) (s_ret r)).
Proof.
  intros HM H. destruct H as [fuel s r E Hr | fuel s r en E Hr Ea | fuel s r s' l en E Hr Ea H]; exists r, fuel.
  - exists []. split; [exact E|]. cbn [end_state]. rewrite app_nil_r. split; [reflexivity|]. intros _. split; reflexivity.
  - exists []. split; [exact E|]. apply after_step_exit in Ea. destruct Ea as (gn & Ea & _ & _). rewrite Ea, app_nil_r. split; [reflexivity|]. lia.
  - apply run_see in H; [|exact HM]. destruct H as (r' & fuel' & more & E' & H). apply search_end in E'; [|exact HM]. destruct E' as (k & E' & _).
    apply evals_see in E'. destruct E' as [l' E']. apply after_step_next in Ea. destruct Ea as (st & pg & Est & _ & -> & _).
    cbn [next_state l_pt pt_st] in E'. exists (l' ++ more). split; [exact E|]. split; [rewrite H, E', Est, <- app_assoc; reflexivity|]. lia.
Qed.

(** If the cubic has no minimum beyond t and the slopes suggest none, the step chosen is the old best one. *)
Lemma back_choice (k k' : R -> R) (x y t : R) x' y' b' u : btw x y t -> deceptive k k' x t ->
  chooses k k' x y true t (least x y true) (most x y true t) x' y' b' u -> x' = t /\ y' = y /\ b' = true /\ u = x.
Proof.
  intros B (H1 & H2 & H3 & H4 & H5) (w & g & Hp & Hk & Eu). unfold keep in Hk.
  destruct (Rlt_dec (k x) (k t)) as [N|_]; [lra|]. destruct (Rlt_dec (k' t * k' x) 0) as [N|_]; [lra|]. injection Hk as <- <- <-.
  split; [reflexivity|]. split; [reflexivity|]. split; [reflexivity|].
  destruct Hp as [c q P1 P2 P3|c q P1 P2 P3 P4|c q P1 P2 P3 P4 P5|c P1 P2 P3 P4 P5|P1 P2 P3 P4]; try (exfalso; lra). cbn [andb] in Eu.
  assert (Ec : c = x).
  { destruct P4 as [[A1 A2]|[_ A]]; [exfalso; exact (H4 c A1 A2)|]. rewrite A. unfold least, most. destruct (Rlt_dec x t) as [L|L].
    - destruct Rlt_dec as [M|M]; [lra|]. apply Rmin_left. unfold btw in B. lra.
    - destruct Rlt_dec as [M|M]; [|lra]. apply Rmax_left. unfold btw in B. lra. }
  assert (Hne : x <> t) by (unfold btw in B; lra). assert (Hk0 : k' x <> k' t) by (intro Z; rewrite Z in H3; lra).
  apply (secant_is k' x t Hne q Hk0) in P5. unfold quard_minimizer2 in P5. cbv zeta in P5. un.
  assert (Eq : t - q = k' t / (k' t - k' x) * (t - x)) by (rewrite P5; ring).
  assert (Ew : nearer t c q = x).
  { unfold nearer. destruct (Rlt_dec (Rabs (t - c)) (Rabs (t - q))) as [M|M]; [exact Ec|]. exfalso. apply M. rewrite Ec, Eq, Rabs_mult. rewrite <- (Rmult_1_l (Rabs (t - x))) at 1.
    apply Rmult_lt_compat_r; [apply Rabs_pos_lt; lra|]. unfold Rdiv. rewrite Rabs_mult. rewrite Rbasic_fun.Rabs_inv.
    assert (Hp : 0 < Rabs (k' t - k' x)) by (apply Rabs_pos_lt; lra). apply (Rmult_lt_reg_r (Rabs (k' t - k' x))); [exact Hp|].
    rewrite Rmult_assoc, Rinv_l, Rmult_1_r, Rmult_1_l by lra.
    assert (Rabs (k' t - k' x) = Rabs (k' x) - Rabs (k' t)).
    { destruct (Rlt_dec (k' x) 0) as [S|S].
      - assert (k' t < 0) by nra. rewrite (Rabs_left (k' x)), (Rabs_left (k' t)) in * by lra. rewrite Rabs_right by lra. ring.
      - assert (0 < k' t) by nra. rewrite (Rabs_right (k' x)), (Rabs_right (k' t)) in * by lra. rewrite Rabs_left by lra. ring. }
    lra. }
  rewrite Ew in Eu. rewrite Eu. unfold least, most, capped, btw in *. destruct B as [B|B].
  - rewrite (Rmin_left x y), (Rmax_right x y) by lra. rewrite (Rmin_right y x), (Rmax_left x x) by lra. destruct (Rlt_dec t y); [|lra]. rewrite Rmin_right by lra. reflexivity.
  - rewrite (Rmin_right x y), (Rmax_left x y) by lra. rewrite (Rmin_left x x), (Rmax_right y x) by lra. destruct (Rlt_dec t y); [lra|]. rewrite Rmax_right by lra. reflexivity.
Qed.

(** ** From the call *)
Section Top.
  Context {St : Type}.
  Variables (n : nat) (z : nat -> bool) (O : options Rnum).
  Variable f : objective Rnum St.
  Variables (F : list R -> R) (G : list R -> list R).
  Variables (fuel lsfuel : nat) (st : St) (x0 : list R).
  Variables h h' : R -> R.
  Hypothesis Hf : computes n z f F G.
  Hypothesis Hx : length x0 = n.
  Hypothesis Hz : vanishes z x0.
  Hypothesis Hs : searches O MoreThuente.
  Hypothesis Hd : documented O MoreThuente n.
  Hypothesis Hm : (0 <= o_m O)%Z.
  Hypothesis Hft : o_ftol O < 1.
  Hypothesis Hgt : 4 * o_ftol O <= o_gtol O.
  Hypothesis Hnc : o_epsilon O * Rmax 1 (norm n x0) < norm n (G x0).
  Hypothesis Hh : descent_line n F G x0 h h'.
  Let t0 := 1 / norm n (G x0).
  Let d : list R := vecncpy (N := Rnum) (G x0).
  Let P := to_params O MoreThuente.

  Lemma top_search st' seen out : fmin_lbfgs O (see f) None fuel lsfuel (st, []) x0 = Some ((st', seen), out) ->
    exists (pt : point Rnum (St * list (list R))) r lf more, pt_x pt = x0 /\ (pt_f pt : R) = h 0 /\ (vecdot (N := Rnum) (pt_g pt) d : R) = h' 0 /\ snd (pt_st pt) = [x0] /\
      h' 0 < 0 /\ 0 < t0 /\ length (G x0) = n /\
      (forall t st g, let q := call_eval (see f) st (vecadd (N := Rnum) x0 d t) g in (vecdot (N := Rnum) (pt_g q) d : R) = h' t /\ (pt_f q : R) = h t) /\
      line_search_morethuente P (see f) lf pt d t0 = Some r /\ seen = snd (pt_st (s_pt r)) ++ more /\
      ((s_ret r < 0)%Z -> more = [] /\ out = conclude x0 (s_ret r)).
  Proof.
    intros H. assert (Hc : (o_c O : R) = 0) by (destruct Hs as [[_ C]|[C _]]; [discriminate|exact C]).
    pose proof (see_computes n z f F G Hf) as Hf'. rewrite (fmin_unfold O MoreThuente) in H by exact Hs.
    apply minimize_start in H. destruct H as [(code & Ec & H & Ho)|(b' & e & Hck & H)].
    { exfalso. rewrite <- Hx in Hd. apply (checked_documented O MoreThuente _ Hs) in Hd. destruct Hd as (b' & e & C). apply check_ok in C. rr. congruence. }
    rr. rewrite Hx in Hck. destruct H as [(Hm' & _)|(_ & H)]; [exfalso; change (p_m (to_params O MoreThuente)) with (o_m O) in Hm'; lia|].
    cbv zeta in H. fold P in H, Hck. set (s := init_state P (see f) b' e (st, []) x0) in *.
    assert (Eo : owl P = false) by exact (not_owl n O MoreThuente b' e Hck Hc). rewrite Eo in H.
    assert (Hi : inv n z P F G b' e s) by (apply init_inv; [exact Hf'|exact (kf_c n O MoreThuente b' e Hck)|split; assumption]).
    assert (Ex : pt_x (l_pt s) = x0).
    { destruct (eval_at n z (see f) F G Hf' (st, []) x0 (repeat nzero (length x0)) (conj Hx Hz)) as (E & _). exact E. }
    pose proof (inv_g _ _ _ _ _ _ _ _ Hi) as Eg. rewrite Ex in Eg. destruct (inv_gf _ _ _ _ _ _ _ _ Hi) as [Ig Igz]. rewrite Eg in Ig, Igz.
    pose proof (inv_f _ _ _ _ _ _ _ _ Hi) as Ef. rewrite Ex in Ef.
    assert (Pn : 0 < norm n (G x0)).
    { pose proof (ck_epsilon _ _ _ _ Hck) as E. unfold nzero in E. rnin E. apply Rltb_f in E. change (p_epsilon P) with (o_epsilon O) in E.
      pose proof (Rmax_l 1 (norm n x0)). rr. nra. }
    set (a := dot n (G x0) (G x0)).
    assert (Pa : 0 < a).
    { unfold a. destruct (Rle_lt_dec (dot n (G x0) (G x0)) 0) as [Q|Q]; [|exact Q]. unfold norm in Pn. rewrite sqrt_neg_0 in Pn by exact Q. lra. }
    destruct H as [(Hv & _)|(_ & l & en & Hr & H & Hout)].
    { exfalso. change (converged P (vec2norm (N := Rnum) (pt_x (l_pt s) : list R)) (vec2norm (N := Rnum) (pt_g (l_pt s) : list R)) = true) in Hv.
      apply (converged_le n) in Hv; [|rewrite Ex; exact Hx|rewrite Eg; exact Ig]. rewrite Ex, Eg in Hv. rr. lra. }
    apply run_see_end in Hr; [|exact (kf_ls n O MoreThuente b' e Hck)]. destruct Hr as (r & lf & more & Er & Em & En).
    assert (Em' : seen = snd (pt_st (s_pt r)) ++ more) by exact (eq_trans (f_equal snd H) Em).
    pose proof (first_step_norm n z O (see f) F G b' e (st, []) x0 Hf' Hck Hc Hx Hz) as Est. fold P s t0 in Est.
    assert (Ed : l_d s = d).
    { pose proof (h_d _ _ _ _ _ _ (init_hist O MoreThuente (see f) b' e (st, []) x0)) as Ed. fold P s in Ed. rewrite Ed. cbn [differences]. rewrite firstn_nil. unfold dir_of.
      fold P. rewrite Eo, Eg. reflexivity. }
    assert (Esn : snd (pt_st (l_pt s)) = [x0]) by reflexivity.
    unfold run_line_search in Er. rewrite Eo in Er. change (p_linesearch P) with MoreThuente in Er. cbv iota in Er.
    assert (Hld : length d = n) by (apply length_vecncpy; exact Ig).
    assert (Edg : forall v, length v = n -> (vecdot (N := Rnum) v d : R) = - dot n v (G x0)).
    { intros v Hv. rewrite (vecdot_dot n) by assumption. rewrite dot_comm. unfold d. rewrite dot_ncpy_l by assumption. rewrite dot_comm. ring. }
    assert (Er' : line_search_morethuente P (see f) lf (l_pt s) (l_d s) (l_step s) = Some r) by exact Er.
    rewrite Ed, Est in Er'.
    assert (Efy : fine n z d) by (apply fine_vecncpy; split; assumption).
    assert (Pt : 0 < t0) by (apply Rdiv_lt_0_compat; lra).
    assert (Hst : forall u, steepest n x0 (G x0) u (vecadd (N := Rnum) x0 d u)) by (intro u; apply vecadd_steepest; assumption).
    assert (Hh0 : h 0 = F x0 /\ h' 0 = - a) by (apply Hh; split; [exact Hx|]; intros i _; ring).
    destruct Hh0 as [H0 H0'].
    assert (Epf : (pt_f (l_pt s) : R) = F x0) by (rewrite Ef; unfold F1; change (p_c P) with (o_c O); rr; rewrite Hc; ring).
    exists (l_pt s), r, lf, more. split; [exact Ex|]. split; [exact (eq_trans Epf (eq_sym H0))|].
    split; [refine (eq_trans (f_equal (fun v => vecdot (N := Rnum) v d : R) Eg) _); rewrite H0'; apply Edg; exact Ig|].
    split; [exact Esn|]. split; [rewrite H0'; lra|]. split; [exact Pt|]. split; [exact Ig|]. split.
    { intros t1 st1 g1. cbv zeta. assert (Hyf : fine n z (vecadd (N := Rnum) x0 d t1)) by (apply fine_vecadd; [split; assumption|exact Efy]).
      destruct (eval_at n z (see f) F G Hf' st1 _ g1 Hyf) as (_ & Q2 & Q3 & Q4). destruct (Hh t1 _ (Hst t1)) as [W1 W2]. rewrite W1, W2. split.
      + refine (eq_trans (f_equal (fun v => vecdot (N := Rnum) v d : R) Q2) _). apply Edg. apply Q4.
      + exact Q3. }
    split; [exact Er'|]. split; [exact Em'|]. intro Hneg. destruct (En Hneg) as [N1 N2]. split; [exact N1|]. rewrite N2 in Hout. rewrite Hout. exact (f_equal (fun v => conclude v (s_ret r)) Ex).
  Qed.

  Lemma points ts ys : length (G x0) = n -> Forall2 (steepest n x0 (G x0)) ts ys -> ys = map (fun t => vecadd (N := Rnum) x0 d t) ts.
  Proof.
    intros Ig Hys. induction Hys as [|u w ts' ws Hu Hr IH]; [reflexivity|]. cbn [map]. rewrite <- IH.
    exact (f_equal (fun v => v :: ws) (steepest_vecadd n x0 Hx (G x0) u w Ig Hu)).
  Qed.

  Notation mu := (o_ftol O). Notation eta := (o_gtol O). Notation lo := (o_min_step O). Notation hi := (o_max_step O).

  Lemma rules_seen st' seen out ts ys first x y b W PW t :
    follows mu eta (o_xtol O) lo hi h h' t0 ts first x y b W PW t -> (Z.of_nat (length ts) < o_max_linesearch O)%Z ->
    Forall2 (steepest n x0 (G x0)) ts ys ->
    fmin_lbfgs O (see f) None fuel lsfuel (st, []) x0 = Some ((st', seen), out) ->
    exists rest, seen = x0 :: ys ++ rest.
  Proof.
    intros Hb Hl Hys H. destruct (top_search st' seen out H) as (pt & r & lf & more & E1 & E2 & E3 & E4 & E5 & E6 & E7 & E8 & E9 & E10 & _).
    destruct Hd as (_ & _ & _ & _ & (D1 & D1') & D2 & _). destruct pt as [pst px pg pf]. cbn [pt_st pt_x pt_f pt_g] in E1, E2, E3, E4. subst px.
    destruct (search_rules P (see f) snd (fun _ _ _ => eq_refl) (mkPoint (N := Rnum) pst x0 pg pf) d t0 h h' E3 E2 E8 E5 (conj D2 Hft) Hgt D1 D1' E6 lf r ts first x y b W PW t Hb Hl E9) as [more' Es].
    cbn [pt_x pt_st] in Es. exists (more' ++ more). rewrite E10, Es. rr. rewrite E4, (points ts ys E7 Hys), <- !app_assoc. reflexivity.
  Qed.

  Lemma rules_outside st' seen out ts ys first x y b W PW t first' x' y' u' z' :
    follows mu eta (o_xtol O) lo hi h h' t0 ts first x y b W PW t -> (Z.of_nat (length ts) + 1 < o_max_linesearch O)%Z ->
    lo < t < hi -> ~ acceptable mu eta h h' t -> downhill h' x b t ->
    (first' = true <-> first = true /\ ~ settled mu eta h h' t) ->
    chooses (fun r => h r - tilt mu h h' first' x t * r) (fun r => h' r - tilt mu h h' first' x t) x y b t (least x y b) (most x y b t) x' y' true u' ->
    ~ (Rmin x' y' < Rmin hi (Rmax lo (halved x' y' true PW u')) < Rmax x' y') ->
    Forall2 (steepest n x0 (G x0)) ts ys -> steepest n x0 (G x0) x' z' ->
    fmin_lbfgs O (see f) None fuel lsfuel (st, []) x0 = Some ((st', seen), out) ->
    seen = x0 :: ys ++ [z'] /\ out = Returned x0 (Some LBFGSERR_ROUNDING_ERROR).
  Proof.
    intros Hb Hl Ht Hr Hw Hff Hc Ho Hys Hz' H. destruct (top_search st' seen out H) as (pt & r & lf & more & E1 & E2 & E3 & E4 & E5 & E6 & E7 & E8 & E9 & E10 & E11).
    destruct Hd as (_ & _ & _ & _ & (D1 & D1') & D2 & _). destruct pt as [pst px pg pf]. cbn [pt_st pt_x pt_f pt_g] in E1, E2, E3, E4. subst px.
    destruct (search_outside P (see f) snd (fun _ _ _ => eq_refl) (mkPoint (N := Rnum) pst x0 pg pf) d t0 h h' E3 E2 E8 E5 (conj D2 Hft) Hgt D1 D1' E6 lf r ts first x y b W PW t first' x' y' u' Hb Hl Ht Hr Hw Hff Hc Ho E9) as [R1 Es].
    cbn [pt_x pt_st] in Es. destruct E11 as [M1 M2]; [rewrite R1; reflexivity|]. split; [|rewrite M2, R1; reflexivity].
    rewrite E10, M1, app_nil_r, Es. rr. rewrite E4, (points ts ys E7 Hys). rewrite (steepest_vecadd n x0 Hx (G x0) x' z' E7 Hz'). reflexivity.
  Qed.

  Lemma rules_back st' seen out ts ys first x y W PW t z' :
    follows mu eta (o_xtol O) lo hi h h' t0 ts first x y true W PW t -> (Z.of_nat (length ts) + 1 < o_max_linesearch O)%Z ->
    lo < t < hi -> ~ acceptable mu eta h h' t -> (first = false \/ h t <= enough mu h h' t) ->
    deceptive h h' x t -> Rabs (y - t) < 66 / 100 * PW ->
    Forall2 (steepest n x0 (G x0)) ts ys -> steepest n x0 (G x0) t z' ->
    fmin_lbfgs O (see f) None fuel lsfuel (st, []) x0 = Some ((st', seen), out) ->
    seen = x0 :: ys ++ [z'] /\ out = Returned x0 (Some LBFGSERR_ROUNDING_ERROR).
  Proof.
    intros Hb Hl Ht Hr Hst Hde Hpw Hys Hz' H. pose proof Hd as Hdoc. destruct Hdoc as (_ & _ & _ & _ & (D1 & D1') & D2 & _).
    destruct (top_search st' seen out H) as (pt & r & lf & more & _ & _ & _ & _ & Hd0 & _).
    assert (Hw : downhill h' x true t) by (unfold downhill; destruct Hde as (_ & Q & _); intro Z; rewrite Z in Q; lra).
    destruct (follows_sound mu eta (o_xtol O) lo hi h h' t0 Hd0 (conj D2 Hft) Hgt D1 _ _ _ _ _ _ _ _ Hb) as (_ & I & _). destruct (I eq_refl) as [I' _].
    assert (B : btw x y t) by (unfold Rmin, Rmax in I'; unfold btw; destruct (Rle_dec x y); lra).
    destruct (next_defined mu eta (o_xtol O) lo hi h h' t0 Hd0 (conj D2 Hft) Hgt D1 ts first x y true W PW t Hb Ht Hr Hw) as (first' & x' & y' & b' & u & Q1 & Q2 & _).
    assert (Et : tilt mu h h' first' x t = 0).
    { unfold tilt. destruct first'; [|reflexivity]. destruct Hst as [Q|Q]; [destruct Q1 as [Q1 _]; destruct (Q1 eq_refl); congruence|].
      destruct (Rlt_dec (enough mu h h' t) (h t)); [lra|reflexivity]. }
    assert (Hde' : deceptive (fun r => h r - tilt mu h h' first' x t * r) (fun r => h' r - tilt mu h h' first' x t) x t).
    { rewrite Et. destruct Hde as (P1 & P2 & P3 & P4 & P5). unfold deceptive. rewrite !Rmult_0_l, !Rminus_0_r. repeat split; try tauto.
      intros e (a1 & b1 & L) Be. refine (P4 e _ Be). exists a1, b1. rewrite !Rmult_0_l, !Rminus_0_r in L. exact L. }
    destruct (back_choice _ _ x y t x' y' b' u B Hde' Q2) as (-> & -> & -> & ->).
    apply (rules_outside st' seen out ts ys first x y true W PW t first' t y x z' Hb Hl Ht Hr Hw Q1 Q2); try assumption.
    unfold halved. destruct (Rle_dec (66 / 100 * PW) (Rabs (y - t))) as [N|_]; [lra|]. destruct B as [B|B].
    - rewrite (Rmin_left t y) by lra. assert (Rmin hi (Rmax lo x) < t); [|lra]. eapply Rle_lt_trans; [apply Rmin_r|]. apply Rmax_lub_lt; lra.
    - rewrite (Rmax_left t y) by lra. assert (t < Rmin hi (Rmax lo x)); [|lra]. apply Rmin_glb_lt; [lra|]. eapply Rlt_le_trans; [|apply Rmax_r]. lra.
  Qed.
End Top.

(** ** Derivatives of polynomials, for the example *)
Lemma slope_lin a b x : derivable_pt_lim (fun x => a * x + b) x a.
Proof.
  intros e He. exists (mkposreal 1 Rlt_0_1). intros h Hh _. replace ((a * (x + h) + b - (a * x + b)) / h - a) with 0 by (field; exact Hh).
  rewrite Rabs_R0. exact He.
Qed.
Lemma slope_mul f g f' g' x : derivable_pt_lim f x f' -> derivable_pt_lim g x g' -> derivable_pt_lim (fun x => f x * g x) x (f' * g x + f x * g').
Proof. exact (derivable_pt_lim_mult f g x f' g'). Qed.
Lemma slope_add f g f' g' x : derivable_pt_lim f x f' -> derivable_pt_lim g x g' -> derivable_pt_lim (fun x => f x + g x) x (f' + g').
Proof. exact (derivable_pt_lim_plus f g x f' g'). Qed.
Lemma slope_ext f g x l l' : (forall x, f x = g x) -> l = l' -> derivable_pt_lim f x l -> derivable_pt_lim g x l'.
Proof. intros E <- H e He. destruct (H e He) as [d Hd]. exists d. intros h H1 H2. rewrite <- !E. now apply Hd. Qed.
