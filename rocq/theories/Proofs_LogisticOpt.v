(** The L1 branch in real arithmetic: what the optimizer sees, masked coefficients and
    near-optimality of the result (C38, C91). *)
From Coq Require Import ZArith List Bool Arith Reals Lra Lia.
From Verif Require Import Prelude Num Model_Mpi Model_Rescale Spec_Rescale Model_Poisson Spec_Poisson
  Model_Logistic Spec_Logistic Model_Lbfgs Spec_Lbfgs Model_LogisticFit Spec_LogisticFit
  Proofs_Intersection Proofs_Rescale Proofs_Poisson Proofs_PoissonOpt Proofs_PoissonMore
  Proofs_Logistic Proofs_LogisticGrad Proofs_LogisticGrid Proofs_Multinomial Proofs_MultiGrid Proofs_LogisticIntercept Proofs_LogisticMain
  Proofs_Lbfgs Proofs_LbfgsVec Proofs_LbfgsReal Proofs_LbfgsTrace Proofs_LbfgsMain Proofs_LogisticAbandon Proofs_LogisticConvex Proofs_LogisticFit.
Import ListNotations.
Local Open Scope R_scope.

(** ** The solver *)
Lemma l1_returned {N : NumOps} k size (C tol : N) mi f fuel lsfuel w0 x c :
  l1_solve k size C tol mi f fuel lsfuel w0 = Some (Returned x c) ->
  (exists st', fmin_lbfgs (l1_options C tol mi size) f (Some (zero_coef k)) fuel lsfuel 0%nat w0 = Some (st', Returned x c)) \/
  (c = None /\ x = map (fun v => nmul v nzero) w0).
Proof.
  unfold l1_solve. destruct (fmin_lbfgs _ f _ _ _ _ _) as [[st out]|]; [|discriminate].
  destruct out as [x' c'|ex|]; [|destruct ex; try discriminate|discriminate]; intros H.
  - left. exists st. congruence.
  - right. injection H as <- <-. split; reflexivity.
Qed.

Lemma zero_coef_says {N : NumOps} k : never_says (N := N) LBFGS_ALREADY_MINIMIZED (Some (zero_coef k)).
Proof.
  intros h st q E. injection E as <-. unfold zero_coef. cbn [snd]. destruct (Nat.ltb _ _); discriminate.
Qed.

(** ** Two classes *)
Section Mask.
  Variables (p : nat) (mask : option (list R)).

  Definition zb (i : nat) : bool := match mask with Some m => Nat.ltb i p && Reqb (entry m i) 0 | None => false end.

  Lemma zb_true i : zb i = true -> exists m, mask = Some m /\ (i < p)%nat /\ entry m i = 0.
  Proof.
    unfold zb. destruct mask as [m|]; [|discriminate]. intros H. apply andb_true_iff in H. destruct H as [H1 H2].
    apply Nat.ltb_lt in H1. apply Reqb_t in H2. now exists m.
  Qed.
  Lemma zb_true_of m i : mask = Some m -> (i < p)%nat -> entry m i = 0 -> zb i = true.
  Proof. intros Em H1 H2. unfold zb. rewrite Em. apply andb_true_iff. split; [now apply Nat.ltb_lt|now apply Reqb_t]. Qed.

  Hypothesis Hm : match mask with Some m => zero_one p m | None => True end.
  Let Hl : match mask with Some m => length m = p | None => True end.
  Proof. destruct mask; [apply Hm|exact Logic.I]. Qed.

  Lemma mask_fixes (w : list R) : (p <= length w)%nat -> vanishes zb w -> rmask p mask w = w.
  Proof.
    intros Lw V. apply nth_ext with (d := 0) (d' := 0).
    - now apply rmask_length.
    - intros j Hj. change (entry (rmask p mask w) j = entry w j). rewrite rmask_entry by assumption. unfold mkf.
      destruct mask as [m|] eqn:Em; [|ring]. destruct (Nat.ltb_spec j p) as [Hjp|Hjp]; [|ring].
      destruct Hm as [_ H01]. destruct (H01 j Hjp) as [E|E]; rewrite E; [|ring].
      rewrite (V j); [ring|]. now apply (zb_true_of m).
  Qed.

  Lemma mask_vanishes (w : list R) : (p <= length w)%nat -> vanishes zb (rmask p mask w).
  Proof.
    intros Lw i Hz. apply zb_true in Hz. destruct Hz as (m & Em & Hi & E). rewrite rmask_entry by assumption. unfold mkf. rewrite Em.
    destruct (Nat.ltb_spec i p); [|lia]. rewrite E. ring.
  Qed.
End Mask.

Section Binary.
  Variables (n p : nat) (X : list (list R)) (y : list R) (mask : option (list R)) (sw : list R).
  Hypothesis HX : matrix n p X.
  Hypothesis Hn : (0 < n)%nat.
  Hypothesis Hy : length y = n.
  Hypothesis Hm : match mask with Some m => zero_one p m | None => True end.
  Hypothesis Hsw : length sw = n.
  Notation L := (llg p X y 0 mask (Some sw)).

  Notation zb := (zb p mask).
  Let Hl : match mask with Some m => length m = p | None => True end.
  Proof. destruct mask; [apply Hm|exact Logic.I]. Qed.

  Lemma binary_computes {St} q : q = p \/ q = S p ->
    computes (St := St) q zb (binary_objective (N := Rnum) p X y mask sw) (fun w => fst (snd (L w))) (fun w => snd (snd (L w))).
  Proof.
    intros Hq st x g Lx Vx. assert (Hw : length x = p \/ length x = S p) by lia.
    destruct (bgrad_shape n p X y 0 mask (Some sw) HX Hn Hy Hl Hsw x Hw) as (g0 & Lg & Es & Hg).
    split; [|split].
    - unfold binary_objective. cbn [snd].
      assert (E1 : fst (L x) = rmask p mask x) by (exact (f_equal fst (llg_R n p X y 0 mask (Some sw) HX Hn Hy Hsw x))).
      rewrite (mask_fixes p mask Hm x) in E1 by (assumption || lia). 
      exact (f_equal (fun v => (v, snd (snd (L x)), Value (N := Rnum) (fst (snd (L x))))) E1).
    - rewrite Es. destruct (Nat.eqb_spec (length x) (S p)); [rewrite app_length; cbn|]; lia.
    - intros i Hz. apply zb_true in Hz. destruct Hz as (m & Em & Hi & E). rewrite Es.
      assert (E0 : entry g0 i = 0).
      { rewrite (Hg i Hi). unfold mkf. rewrite Em. destruct (Nat.ltb_spec i p); [|lia]. rewrite E. ring. }
      destruct (Nat.eqb _ _); [|exact E0]. unfold entry. rewrite app_nth1 by lia. exact E0.
  Qed.

  Lemma binary_value (c : list R) b : length c = p -> obeys p mask c ->
    fst (snd (L c)) = logistic_loss n p X y sw 0 c 0 /\ fst (snd (L (c ++ [b]))) = logistic_loss n p X y sw 0 c b.
  Proof.
    intros Lc Ho. destruct (logistic_loss_parts n p X y 0 mask (Some sw) c b HX Hn Hy Hl Hsw Lc) as [E1 E2].
    assert (Ec : match mask with Some m => map2 Rmult c m | None => c end = c).
    { destruct mask as [m|] eqn:Em; [|reflexivity]. apply nth_ext with (d := 0) (d' := 0).
      - rewrite map2_length. destruct Hm; lia.
      - intros j Hj. rewrite map2_length in Hj. destruct Hm as [Lm H01]. rewrite (map2_nth Rmult c m j 0 0 0) by lia.
        assert (Hjp : (j < p)%nat) by lia. destruct (H01 j Hjp) as [E|E]; change (nth j m 0) with (entry m j); rewrite E; [|ring].
        change (nth j c 0) with (entry c j). rewrite (Ho m eq_refl j Hjp E). ring. }
    rewrite Ec in E1, E2. split; [exact E1|exact E2].
  Qed.
End Binary.

Lemma binary_start_R (has : bool) p mask coef (w0 : list R) :
  match mask with Some m => zero_one p m | None => True end ->
  binary_start (N := Rnum) has p mask coef = Ok w0 ->
  length w0 = (p + if has then 1 else 0)%nat /\ vanishes (zb p mask) w0.
Proof.
  intros Hm H. assert (Hl : match mask with Some m => length m = p | None => True end) by (destruct mask; [apply Hm|exact Logic.I]).
  assert (E : exists v, w0 = rmask p mask v /\ length v = (p + if has then 1 else 0)%nat).
  { unfold binary_start in H. cbv zeta in H. destruct coef as [c|].
    - match type of H with (if ?c then _ else _) = _ => destruct c eqn:Ec; [|discriminate] end. injection H as <-.
      eexists. split; [reflexivity|]. rewrite repeat_length in Ec. rewrite app_length, skipn_length, repeat_length.
      apply orb_true_iff in Ec. destruct Ec as [Ec|Ec]; apply Nat.eqb_eq in Ec; rr; lia.
    - injection H as <-. eexists. split; [reflexivity|]. apply repeat_length. }
  destruct E as (v & -> & Lv). split; [rewrite rmask_length by (assumption || lia); exact Lv|].
  apply mask_vanishes; [exact Hm|lia].
Qed.

(** Shapes of what fit returns. *)
Lemma split_shape {N : NumOps} (has : bool) p q k (rows : list (list N)) wn cf b w : q = (p + if has then 1 else 0)%nat ->
  length rows = k -> Forall (fun r => length r = q) rows -> split_rows has p rows wn = Fitted cf b w ->
  w = wn /\ length b = k /\ grid k p cf /\
  forall c, (c < k)%nat -> nth c rows [] = nth c cf [] ++ (if has then [nth c b nzero] else []) /\ (has = false -> nth c b nzero = nzero).
Proof.
  intros -> Lr Fr H. unfold split_rows in H. destruct has; injection H; clear H; intros <- <- <-.
  - split; [reflexivity|]. split; [now rewrite map_length|]. split.
    + split; [now rewrite map_length|]. apply Forall_forall. intros r Hr. apply in_map_iff in Hr. destruct Hr as (r0 & <- & Hr).
      rewrite Forall_forall in Fr. rewrite firstn_length, (Fr r0 Hr). lia.
    + intros c Hc. split; [|discriminate]. rewrite (nth_mapd (firstn p) rows c []) by lia.
      rewrite (nth_mapd (fun r => nth p r nzero) rows c []) by lia.
      assert (L : length (nth c rows []) = S p) by (rewrite (nth_len (p + 1) rows c Fr) by lia; lia).
      set (r := nth c rows []) in *. clearbody r. clear - L. rewrite <- (firstn_skipn p r) at 1. f_equal.
      assert (Ls : length (skipn p r) = 1%nat) by (rewrite skipn_length; lia).
      rewrite <- (firstn_skipn p r) at 2. rewrite app_nth2 by (rewrite firstn_length; lia).
      rewrite firstn_length. replace (p - Nat.min p (length r))%nat with 0%nat by lia.
      destruct (skipn p r) as [|v [|? ?]]; cbn in *; try lia. reflexivity.
  - split; [reflexivity|]. split; [now rewrite map_length|]. split.
    + split; [exact Lr|]. rewrite Nat.add_0_r in Fr. exact Fr.
    + intros c Hc. rewrite app_nil_r. split; [reflexivity|]. intros _.
      rewrite (nth_mapd (fun _ => nzero) rows c []) by lia. reflexivity.
Qed.

(** Norm and distance do not change when zero intercepts are appended. *)
Lemma entry_app1 (a b : list R) i : (i < length a)%nat -> entry (a ++ b) i = entry a i.
Proof. intros H. unfold entry. now rewrite app_nth1. Qed.
Lemma entry_app2 (a : list R) v : entry (a ++ [v]) (length a) = v.
Proof. unfold entry. rewrite app_nth2, Nat.sub_diag by lia. reflexivity. Qed.

Lemma norm_pad p (c : list R) : length c = p -> norm p c = norm (S p) (c ++ [0]).
Proof.
  intros L. unfold norm, dot. f_equal. rewrite Sum_S.
  assert (E : entry (c ++ [0]) p = 0) by (rewrite <- L; apply entry_app2). rewrite E.
  rewrite (Sum_ext p (fun i => entry (c ++ [0]) i * _) (fun i => entry c i * entry c i))
    by (intros i Hi; rewrite entry_app1 by lia; reflexivity). ring.
Qed.
Lemma distance_pad p (c d : list R) : length c = p -> length d = p -> distance p c d = distance (S p) (c ++ [0]) (d ++ [0]).
Proof.
  intros L L'. unfold distance. f_equal. rewrite Sum_S.
  assert (E : entry (c ++ [0]) p = 0) by (rewrite <- L; apply entry_app2).
  assert (E' : entry (d ++ [0]) p = 0) by (rewrite <- L'; apply entry_app2). rewrite E, E'.
  rewrite (Sum_ext p (fun i => (entry (d ++ [0]) i - entry (c ++ [0]) i) * _) (fun i => (entry d i - entry c i) * (entry d i - entry c i)))
    by (intros i Hi; rewrite !entry_app1 by lia; reflexivity). ring.
Qed.

(** C91, two classes *)
Lemma binary_gap n p (has : bool) (C tol : R) mi X y (sw : list R) mask coef opt fuel lsfuel (c : list R) (b : R) :
  matrix n p X -> (0 < n)%nat -> length y = n -> length sw = n -> (forall i, (i < n)%nat -> 0 <= entry sw i) ->
  match mask with Some m => zero_one p m | None => True end ->
  fit_binary (N := Rnum) false has p C tol mi X y sw mask coef opt fuel lsfuel = Some (Fitted (N := Rnum) [c] [b] None) ->
  (exists j, (j < p)%nat /\ entry c j <> 0) ->
  forall (c' : list R) (b' : R), length c' = p -> obeys p mask c' -> (has = false -> b' = 0) ->
  l1_loss n p X (signs y) sw (1 / C) c b - l1_loss n p X (signs y) sw (1 / C) c' b'
    <= tol * Rmax 1 (norm (S p) (c ++ [b])) * distance (S p) (c ++ [b]) (c' ++ [b']).
Proof.
  intros HX Hn Hy Hsw Hpos Hm H Hnz c' b' Lc' Ho' Hb'. unfold fit_binary in H. cbv zeta in H.
  set (q := (p + if has then 1 else 0)%nat).
  destruct (binary_start (N := Rnum) has p mask coef) as [w0|ex] eqn:Es; [|discriminate].
  destruct (binary_start_R has p mask coef w0 Hm Es) as [L0 V0]. fold q in L0.
  assert (Ey : label_signs (N := Rnum) y = signs y) by reflexivity.
  assert (Ls : length (signs y) = n) by (unfold signs; now rewrite map_length).
  assert (Hq : q = p \/ q = S p) by (unfold q; destruct has; lia).
  assert (Hl : match mask with Some m => length m = p | None => True end) by (destruct mask; [apply Hm|exact Logic.I]).
  (* all zero coefficients are excluded *)
  assert (Zero : forall x wn, length x = q -> (forall j, (j < p)%nat -> entry x j = 0) ->
    split_rows (N := Rnum) has p [x] wn <> Fitted (N := Rnum) [c] [b] None).
  { intros x wn Lx Zx E. destruct (split_shape (N := Rnum) has p q 1 [x] wn [c] [b] None eq_refl eq_refl (Forall_cons _ Lx (Forall_nil _)) E) as (_ & _ & _ & K).
    destruct (K 0%nat ltac:(lia)) as [K1 _]. cbn [nth] in K1. destruct Hnz as (j & Hj & Hne). apply Hne. 
    rewrite <- (Zx j Hj). rewrite K1. unfold entry. destruct (split_shape (N := Rnum) has p q 1 [x] wn [c] [b] None eq_refl eq_refl (Forall_cons _ Lx (Forall_nil _)) E) as (_ & _ & [_ G] & _).
    inversion G as [|? ? Gc _]; subst. rewrite app_nth1; [reflexivity|]. rewrite Gc. exact Hj. }
  destruct (negb (to_optimize (N := Rnum) mask)) eqn:Eo.
  { (* the mask sums to zero: every coefficient is masked *)
    exfalso. injection H as H. destruct mask as [m|]; [|discriminate Eo]. cbn [to_optimize] in Eo.
    apply (Zero w0 None L0); [|exact H]. intros j Hj. apply V0. apply (zb_true_of p (Some m) m j eq_refl Hj).
    destruct Hm as [Lm H01].
    apply negb_true_iff in Eo. unfold nnonzero in Eo. apply negb_false_iff in Eo. apply Reqb_t in Eo.
    assert (Es' : Sum p (entry m) = 0). { exact (eq_trans (eq_sym (rsum_Sum p m Lm)) Eo). }
    destruct (H01 j Hj) as [E|E]; [exact E|]. exfalso.
    assert (T : entry m j <= Sum p (entry m)). { apply (Sum_term p (entry m) j); [|exact Hj]. intros i Hi. destruct (H01 i Hi) as [->| ->]; lra. }
    lra. }
  rewrite Ey in H.
  destruct (l1_solve 1 p C tol mi (binary_objective p X (signs y) mask sw) fuel lsfuel w0) as [[x wn|ex|]|] eqn:Er; try discriminate.
  injection H as H.
  apply l1_returned in Er. destruct Er as [(st' & Er)|[_ ->]].
  2:{ exfalso. apply (Zero (map (fun v => v * 0) w0) wn); [now rewrite map_length| |exact H].
      intros j Hj. unfold entry. rewrite (nth_mapd (fun v => v * 0) w0 j 0); [ring|]. rewrite L0. unfold q. lia. }
  pose proof (binary_computes (St := nat) n p X (signs y) mask sw HX Hn Ls Hm Hsw q Hq) as Hf.
  set (F := fun w => fst (snd (llg p X (signs y) 0 mask (Some sw) w))) in *.
  set (G := fun w => snd (snd (llg p X (signs y) 0 mask (Some sw) w))) in *.
  assert (Lx : length x = q /\ vanishes (zb p mask) x).
  { destruct (recorded_of (l1_options (N := Rnum) C tol mi p) _ _ _ _ _ _ _ _ Er) as (log & Hlog).
    destruct (stays_zero q (zb p mask) _ _ _ F G _ _ _ _ Hf L0 V0 _ _ _ Hlog) as (_ & _ & K). destruct (K x wn eq_refl) as (K1 & K2 & _).
    split; assumption. }
  destruct Lx as [Lx Vx].
  destruct (split_shape (N := Rnum) has p q 1 [x] wn [c] [b] None eq_refl eq_refl (Forall_cons _ Lx (Forall_nil _)) H) as (Ew & _ & [_ Gc] & K).
  destruct (K 0%nat ltac:(lia)) as [K1 K2]. cbn [nth] in K1, K2. assert (Lc : length c = p) by (inversion Gc; assumption). subst x wn. clear K Gc.
  assert (Tan : above_tangents q F G).
  { intros u v Lu Lv. apply (binary_tangent n p X (signs y) mask sw HX Hn Ls Hl Hsw Hpos u v q Hq Lu Lv). }
  set (w := c' ++ if has then [b'] else []).
  assert (Lw : length w = q) by (unfold w, q; rewrite app_length, Lc'; destruct has; reflexivity).
  pose proof (returned_gap q (zb p mask) (l1_options (N := Rnum) C tol mi p) _ (Some (zero_coef 1)) F G fuel lsfuel 0%nat w0 Hf L0 V0 st' _ w (zero_coef_says 1) Tan Lw Er) as Gap.
  assert (Oc : obeys p mask c).
  { intros m Em j Hj E. rewrite <- (Vx j) by (now apply (zb_true_of p mask m)). unfold entry. rewrite app_nth1; [reflexivity|]. rr. lia. }
  assert (P : forall (d : list R) v, length d = p -> obeys p mask d -> (has = false -> v = 0) ->
    penalized (l1_options (N := Rnum) C tol mi p) q F (d ++ if has then [v] else []) = l1_loss n p X (signs y) sw (1 / C) d v).
  { intros d v Ld Od Hv. destruct (binary_value n p X (signs y) mask sw HX Hn Ls Hm Hsw d v Ld Od) as [V1 V2].
    unfold penalized, l1_loss. f_equal.
    - unfold F. destruct has; [exact V2|]. rewrite app_nil_r, (Hv eq_refl). exact V1.
    - f_equal. unfold l1, range_start, range_end. cbn [l1_options o_start o_end default_options].
      destruct (Z.ltb_spec (Z.of_nat p) 0); [lia|]. rewrite Nat2Z.id. change (Z.to_nat 0) with 0%nat. rewrite Nat.sub_0_r.
      apply Sum_ext. intros i Hi. rewrite entry_app1 by lia. reflexivity. }
  change (penalized (l1_options (N := Rnum) C tol mi p) q F (c ++ (if has then [b] else []) : list R) -
    penalized (l1_options (N := Rnum) C tol mi p) q F (c' ++ (if has then [b'] else []) : list R) <=
    tol * Rmax 1 (norm q (c ++ (if has then [b] else []) : list R)) *
    distance q (c ++ (if has then [b] else []) : list R) (c' ++ (if has then [b'] else []) : list R)) in Gap.
  rewrite (P c b Lc Oc K2), (P c' b' Lc' Ho' Hb') in Gap.
  destruct has.
  - unfold q in Gap. rewrite Nat.add_1_r in Gap. exact Gap.
  - unfold q in Gap. rewrite !app_nil_r, Nat.add_0_r in Gap. rewrite (K2 eq_refl), (Hb' eq_refl) in *.
    change (@nzero Rnum) with 0 in *. rewrite <- norm_pad, <- distance_pad by assumption. exact Gap.
Qed.
