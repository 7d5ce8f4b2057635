(** Proofs about the number of selection bootstraps (C114). *)
From Coq Require Import ZArith List Bool Arith Lia.
From Verif Require Import Prelude F64 Model_Intersection Model_Thresholds Model_Mpi Model_Fit Spec_Intersection Spec_Mpi Spec_Fit Spec_Boots
  Proofs_Intersection Proofs_Thresholds Proofs_FitDist Proofs_FitProps Proofs_FitFind.
Import ListNotations.

Lemma drawn_prefix {Rng} (draw : bool -> Rng -> result (split * Rng)) sel r sps1 r1 : drawn draw sel r sps1 r1 ->
  forall sps2 r2, drawn draw sel r sps2 r2 -> forall b x, b < length sps1 -> b < length sps2 -> nth b sps1 x = nth b sps2 x.
Proof.
  induction 1 as [r|r sp r' sps r'' E H IH]; intros sps2 r2 H2 b x L1 L2; [cbn in L1; lia|].
  destruct H2 as [|r0 sp0 r0' sps0 r0'' E0 H0]; [cbn in L2; lia|]. rewrite E in E0. injection E0 as <- <-.
  destruct b as [|b]; [reflexivity|]. cbn in *. apply (IH _ _ H0); lia.
Qed.

Lemma intersect_single d c : out_dim d = 1 -> intersect d c = intersection c (Some (thresholds d)).
Proof. intro H. unfold intersect, glm_intersect, linear_intersect. destruct (glm d); [|reflexivity]. destruct (intersection _ _); [cbn [bind]; rewrite H; reflexivity|reflexivity]. Qed.

(** Counting over a longer list of bootstraps. *)
Lemma filter_len {A} (f : A -> bool) l : length (filter f l) <= length l.
Proof. induction l as [|a l IH]; cbn; [lia|]. destruct (f a); cbn; lia. Qed.
Lemma times_more c1 c2 r j : length (c_data c1) <= length (c_data c2) ->
  (forall b, b < length (c_data c1) -> nth b (c_data c1) [] = nth b (c_data c2) []) ->
  times_selected c1 r j <= times_selected c2 r j <= times_selected c1 r j + (length (c_data c2) - length (c_data c1)).
Proof.
  intros L E. unfold times_selected. generalize (eq_refl (length (c_data c2))). generalize (length (c_data c2)) at 1 3 4 as n2.
  intros n2 E2. set (n1 := length (c_data c1)) in *. assert (n2 = n1 + (n2 - n1)) as -> by lia. rewrite seq_app, filter_app, app_length.
  rewrite (filter_ext_in (fun b => nonzero64 (coef_at c2 b r j)) (fun b => nonzero64 (coef_at c1 b r j)) (seq 0 n1)).
  - pose proof (filter_len (fun b => nonzero64 (coef_at c2 b r j)) (seq (0 + n1) (n2 - n1))) as H. rewrite seq_length in H. lia.
  - intros b Hb. apply in_seq in Hb. unfold coef_at. rewrite (E b) by lia. reflexivity.
Qed.

(** The mask of a threshold and a parameter. *)
Definition mask_of (c : coefs3) (t : Z) (r : nat) : list bool := map (fun j => (t <=? Z.of_nat (times_selected c r j))%Z) (seq 0 (c_feat c)).
Lemma mask_of_nth c t r j : j < c_feat c -> nth j (mask_of c t r) false = (t <=? Z.of_nat (times_selected c r j))%Z.
Proof. intro H. unfold mask_of. rewrite (nth_indep _ false ((fun j => (t <=? Z.of_nat (times_selected c r j))%Z) 0)) by (rewrite map_length, seq_length; exact H). rewrite (map_nth (fun j => (t <=? Z.of_nat (times_selected c r j))%Z)), seq_nth by exact H. reflexivity. Qed.
Lemma mask_of_support c t r : is_support c t r (mask_of c t r).
Proof. split; [unfold mask_of; now rewrite map_length, seq_length|]. intros j Hj. rewrite mask_of_nth by exact Hj. apply Z.leb_le. Qed.
Lemma support_true c t r m j : is_support c t r m -> nth j m false = true -> j < c_feat c /\ (t <= Z.of_nat (times_selected c r j))%Z.
Proof.
  intros [L S] H. destruct (le_lt_dec (c_feat c) j) as [C|C]; [rewrite nth_overflow in H by lia; discriminate|]. split; [exact C|]. now apply S.
Qed.

Definition all_bootstraps (d : dims) : Prop := thresholds d = [Z.of_nat (n_boots_sel d)].
Lemma asks_all d : 1 <= n_boots_sel d -> asks (PyFloat fone) d -> all_bootstraps d.
Proof. intros H [L A]. rewrite one_is_all in A by lia. now injection A. Qed.
Lemma asks_counts ss d1 d2 : counts ss -> asks ss d1 -> asks ss d2 -> thresholds d1 = thresholds d2 /\ thresholds d1 <> [].
Proof.
  intros C [_ A1] [_ A2]. unfold stability_selection_to_threshold in *.
  assert (E : exists r, (forall n, raw_thresholds ss n = r) /\ r <> Ok []).
  { destruct C as [z|z l|z l].
    - exists (mapM astype_int_of_Z [z]). split; [reflexivity|]. cbn. destruct (astype_int_of_Z z); discriminate.
    - exists (mapM astype_int_of_Z (ints_of (map Model_Thresholds.PyInt (z :: l)))). split.
      + intro n. unfold raw_thresholds. change (forallb isinstance_float (map Model_Thresholds.PyInt (z :: l))) with false.
        assert (forallb isinstance_int (map Model_Thresholds.PyInt (z :: l)) = true) as -> by (apply forallb_forall; intros x Hx; apply in_map_iff in Hx as (y & <- & _); reflexivity). reflexivity.
      + cbn. destruct (astype_int_of_Z z); cbn [bind]; [|discriminate]. destruct (mapM _ _); discriminate.
    - exists (Ok (z :: l)). split; [reflexivity|discriminate]. }
  destruct E as (r & E & Nr). rewrite E in A1, A2. destruct r as [ts|e]; [|discriminate]. cbn [bind] in A1, A2.
  destruct (forallb _ ts && _) in A1; [|discriminate]. destruct (forallb _ ts && _) in A2; [|discriminate]. injection A1 as <-. injection A2 as <-. split; [reflexivity|congruence].
Qed.

Section Boots.
  Context {S E Rng : Type}.
  Variables (env : np_env) (d1 d2 : dims) (sol : solver S E) (draw : bool -> Rng -> result (split * Rng)).
  Variables (post1 post2 : nd -> nd -> result (nd * nd)) (Inv : S -> Prop) (G : list nat -> result (list (list f64))).
  Variables (n1 n2 : nat) (R1 R2 : nat -> Rng) (s1 s2 : nat -> S) (F1 F2 : fitted).
  Hypotheses (M : more_boots d1 d2) (Sh1 : shapes_ok d1 sol) (Sh2 : shapes_ok d2 sol) (Pr : preserved sol Inv) (Fr : from_reset d1 sol Inv G).
  Hypotheses (N1 : 1 <= n1 <= n_boots_sel d1) (N2 : 1 <= n2 <= n_boots_sel d2) (I1 : forall i, Inv (s1 i)) (I2 : forall i, Inv (s2 i)) (ER : R1 0 = R2 0).
  Hypotheses (T1 : thresholds d1 <> []) (T2 : thresholds d2 <> []).
  Hypotheses (Rt1 : returned env d1 (fun _ => sol) draw post1 n1 false R1 s1 F1) (Rt2 : returned env d2 (fun _ => sol) draw post2 n2 false R2 s2 F2).

  Lemma both : exists c1 c2 rows1 rows2, has_supports F1 rows1 /\ has_supports F2 rows2 /\
    (forall m, In m rows1 <-> exists t r, In t (thresholds d1) /\ r < n_reg d1 /\ is_support c1 t r m) /\
    (forall m, In m rows2 <-> exists t r, In t (thresholds d2) /\ r < n_reg d1 /\ is_support c2 t r m) /\
    c_feat c1 = n_feat d1 /\ c_feat c2 = n_feat d1 /\
    (forall r j, times_selected c1 r j <= times_selected c2 r j <= times_selected c1 r j + (n_boots_sel d2 - n_boots_sel d1)).
  Proof.
    destruct M as (Ef & O1 & O2 & Er & Hf & Hr & Hb & Hbb).
    assert (Fr2 : from_reset d2 sol Inv G) by (unfold from_reset in *; rewrite <- Er; exact Fr).
    destruct (boots_independent env d1 sol draw post1 Hb Sh1 Inv Pr n1 R1 s1 F1 G (proj1 N1) (proj2 N1) Fr I1 Rt1) as (sel1 & sps1 & q1 & c1 & Es1 & D1 & L1 & X1 & Lc1 & Cr1 & Cf1 & G1).
    destruct (boots_independent env d2 sol draw post2 ltac:(lia) Sh2 Inv Pr n2 R2 s2 F2 G (proj1 N2) (proj2 N2) Fr2 I2 Rt2) as (sel2 & sps2 & q2 & c2 & Es2 & D2 & L2 & X2 & Lc2 & Cr2 & Cf2 & G2).
    assert (P1 : 1 <= length (thresholds d1)) by (destruct (thresholds d1); [easy|cbn; lia]). assert (P2 : 1 <= length (thresholds d2)) by (destruct (thresholds d2); [easy|cbn; lia]).
    unfold n_coef in Cf1, Cf2. rewrite O1, Nat.mul_1_r in Cf1. rewrite O2, Nat.mul_1_r in Cf2. rewrite <- Ef in Cf2. rewrite <- Er in Cr2.
    rewrite intersect_single in X1 by exact O1. rewrite intersect_single in X2 by exact O2.
    destruct (intersection_exact c1 (thresholds d1)) as (rows1 & Y1 & Z1 & _); [rewrite Cr1; nia|lia|].
    destruct (intersection_exact c2 (thresholds d2)) as (rows2 & Y2 & Z2 & _); [rewrite Cr2; nia|lia|].
    rewrite Y1 in X1. rewrite Y2 in X2. injection X1 as X1. injection X2 as X2. rewrite Cr1 in Z1. rewrite Cr2 in Z2.
    exists c1, c2, rows1, rows2. split; [exists sel1, (c_feat c1); auto|]. split; [exists sel2, (c_feat c2); auto|]. split; [exact Z1|]. split; [exact Z2|]. split; [exact Cf1|]. split; [exact Cf2|].
    intros r j. rewrite <- Lc1, <- Lc2. apply times_more; [lia|]. intros b Hb'. rewrite Lc1 in Hb'.
    pose proof (G1 b Hb') as Q1. pose proof (G2 b ltac:(lia)) as Q2. rewrite ER in D1. rewrite (drawn_prefix draw true (R2 0) sps1 q1 D1 sps2 q2 D2 b ([], []) ltac:(lia) ltac:(lia)) in Q1. rewrite Q1 in Q2. now injection Q2.
  Qed.
  Lemma same_supports F rows rows' : has_supports F rows -> has_supports F rows' -> rows = rows'.
  Proof. intros (s & p & A & B) (s' & p' & A' & B'). rewrite A in A'. injection A' as <-. rewrite B in B'. now injection B'. Qed.

  Lemma shrink rows1 rows2 : all_bootstraps d1 -> all_bootstraps d2 -> has_supports F1 rows1 -> has_supports F2 rows2 ->
    (forall m2, In m2 rows2 -> exists m1, In m1 rows1 /\ within m2 m1) /\ (forall m1, In m1 rows1 -> exists m2, In m2 rows2 /\ within m2 m1).
  Proof.
    intros A1 A2 H1 H2. destruct both as (c1 & c2 & rows1' & rows2' & H1' & H2' & Z1 & Z2 & Cf1 & Cf2 & T).
    rewrite (same_supports F1 rows1 rows1' H1 H1'), (same_supports F2 rows2 rows2' H2 H2'). unfold all_bootstraps in *. rewrite A1 in Z1. rewrite A2 in Z2.
    destruct M as (_ & _ & _ & _ & _ & _ & _ & Hbb).
    assert (W : forall r m1 m2, is_support c1 (Z.of_nat (n_boots_sel d1)) r m1 -> is_support c2 (Z.of_nat (n_boots_sel d2)) r m2 -> within m2 m1).
    { intros r m1 m2 S1 S2 j Hj. destruct (support_true _ _ _ _ _ S2 Hj) as [Hf Hc]. apply (proj2 S1); [lia|]. specialize (T r j). lia. }
    split.
    - intros m2 I. apply Z2 in I as (t & r & [<-|[]] & Hr & S2). exists (mask_of c1 (Z.of_nat (n_boots_sel d1)) r). split; [apply Z1; exists (Z.of_nat (n_boots_sel d1)), r; split; [now left|split; [exact Hr|apply mask_of_support]]|]. exact (W r _ _ (mask_of_support _ _ _) S2).
    - intros m1 I. apply Z1 in I as (t & r & [<-|[]] & Hr & S1). exists (mask_of c2 (Z.of_nat (n_boots_sel d2)) r). split; [apply Z2; exists (Z.of_nat (n_boots_sel d2)), r; split; [now left|split; [exact Hr|apply mask_of_support]]|]. exact (W r _ _ S1 (mask_of_support _ _ _)).
  Qed.
  Lemma grow rows1 rows2 : thresholds d1 = thresholds d2 -> has_supports F1 rows1 -> has_supports F2 rows2 ->
    (forall m1, In m1 rows1 -> exists m2, In m2 rows2 /\ within m1 m2) /\ (forall m2, In m2 rows2 -> exists m1, In m1 rows1 /\ within m1 m2).
  Proof.
    intros A H1 H2. destruct both as (c1 & c2 & rows1' & rows2' & H1' & H2' & Z1 & Z2 & Cf1 & Cf2 & T).
    rewrite (same_supports F1 rows1 rows1' H1 H1'), (same_supports F2 rows2 rows2' H2 H2'). rewrite <- A in Z2.
    assert (W : forall t r m1 m2, is_support c1 t r m1 -> is_support c2 t r m2 -> within m1 m2).
    { intros t r m1 m2 S1 S2 j Hj. destruct (support_true _ _ _ _ _ S1 Hj) as [Hf Hc]. apply (proj2 S2); [lia|]. specialize (T r j). lia. }
    split.
    - intros m1 I. apply Z1 in I as (t & r & It & Hr & S1). exists (mask_of c2 t r). split; [apply Z2; exists t, r; split; [exact It|split; [exact Hr|apply mask_of_support]]|]. exact (W t r _ _ S1 (mask_of_support _ _ _)).
    - intros m2 I. apply Z2 in I as (t & r & It & Hr & S2). exists (mask_of c1 t r). split; [apply Z1; exists t, r; split; [exact It|split; [exact Hr|apply mask_of_support]]|]. exact (W t r _ _ (mask_of_support _ _ _) S2).
  Qed.
  Lemma never_again rows1 k : all_bootstraps d1 -> all_bootstraps d2 -> keeps_zeros post2 -> (shared d2 = true \/ respects_mask d2 sol) -> 1 <= n_boots_est d2 ->
    has_supports F1 rows1 -> k < n_feat d1 -> (forall m, In m rows1 -> nth k m false = false) ->
    nonzero64 (num (nth k (nd_data (f_coef F2)) (SFlt fzero))) = false.
  Proof.
    intros A1 A2 K Q Hest H1 Hk Out. destruct (nonzero64 _) eqn:Nz; [exfalso|reflexivity].
    destruct both as (c1 & c2 & rows1' & rows2 & H1' & H2 & Z1 & Z2 & Cf1 & Cf2 & T).
    destruct (shrink rows1 rows2 A1 A2 H1 H2) as [W _]. pose proof M as (Ef & O1 & O2 & Er & Hf & Hr & Hb & Hbb).
    assert (Len : length (thresholds d2) = 1) by (unfold all_bootstraps in A2; now rewrite A2).
    assert (Ec : n_coef d2 = n_feat d1) by (unfold n_coef; rewrite O2; lia).
    destruct (nonzero_stable env d2 (fun _ => sol) draw post2 ltac:(lia) (fun _ => Sh2) n2 R2 s2 F2 k K ltac:(destruct Q; [now left|right; auto]) ltac:(nia) ltac:(lia) Hest Rt2 ltac:(lia) Nz)
      as (sel & p & rows & sps & r1 & c & Es & Sup & _ & _ & _ & (b & Hbe & Cv) & _).
    assert (rows = rows2) as -> by (apply (same_supports F2); [exists sel, p; auto|exact H2]).
    unfold covers in Cv. assert (Kk : (if shared d2 then k mod n_feat d2 else k) = k) by (destruct (shared d2); [apply Nat.mod_small; lia|reflexivity]). rewrite Kk in Cv.
    set (m2 := nth (index_at (s_rp_max_idx sel) b) rows2 []) in *.
    assert (I : In m2 rows2). { unfold m2. apply nth_In. destruct (le_lt_dec (length rows2) (index_at (s_rp_max_idx sel) b)) as [C|C]; [|exact C]. unfold m2 in Cv. rewrite (nth_overflow rows2) in Cv by exact C. destruct k; discriminate. }
    destruct (W m2 I) as (m1 & I1' & Wm). specialize (Wm k Cv). rewrite (Out m1 I1') in Wm. discriminate.
  Qed.
End Boots.

(** ** Examples *)
Definition bt_dims (b : nat) (ts : list Z) : dims := mkDims 2 1 b 2 2 ts true false.
(** The first feature is selected in the first three bootstraps (with parameter 1: in all), the
    second one in the first bootstrap and, with parameter 1, in the third one. *)
Definition bt_row (r : nat) (train : list nat) : list f64 :=
  [if (hd 0 train <? 3) || (r =? 1) then fone else fzero; if (hd 0 train =? 0) || ((r =? 1) && (hd 0 train =? 2)) then fone else fzero].
(** The second feature is selected in the first bootstrap only, the first one in the third and
    the fourth. *)
Definition sw_row (r : nat) (train : list nat) : list f64 :=
  [if 2 <=? hd 0 train then fone else fzero; if hd 0 train =? 0 then fone else fzero].
Definition row_solver (row : nat -> list nat -> list f64) : solver unit (list f64) :=
  mkSolver _ _ (fun s => s) (fun s regs train => Ok (s, map (fun r => row r train) regs))
    (est_fit ex_solver) (est_coef ex_solver) (null_fit ex_solver) (score ex_solver) (null_score ex_solver) (fit_int ex_solver).
Lemma row_shapes row b ts : (forall r tr, length (row r tr) = 2) -> shapes_ok (bt_dims b ts) (row_solver row).
Proof.
  intro L. split.
  - simpl. intros s regs train s' rows H. injection H as <- <-. rewrite map_length. split; [reflexivity|].
    apply Forall_forall. intros x Hx. apply in_map_iff in Hx as (r & <- & _). rewrite L. reflexivity.
  - simpl. intros c a H. injection H as <-. repeat split. discriminate.
Qed.
Lemma row_preserved row : preserved (row_solver row) (fun _ => True).
Proof. split; auto. Qed.
Lemma row_reset row b ts : from_reset (bt_dims b ts) (row_solver row) (fun _ => True) (fun tr => Ok (map (fun r => row r tr) (seq 0 2))).
Proof. intros s tr _. reflexivity. Qed.
Definition bt_fit row b ts : fitted := ok_fit (fit ex_np (bt_dims b ts) (row_solver row) ex_draw ex_post 1 0 false 0 tt).
Definition supports_of (F : fitted) : list (list bool) :=
  match f_sel F with Some sel => match s_supports sel with Arr2 _ rows => rows | _ => [] end | None => [] end.
