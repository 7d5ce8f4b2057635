(** Proofs about bootstraps that do not contain every class (C115). *)
From Coq Require Import ZArith List Bool Arith Lia Permutation.
From Verif Require Import Prelude F64 Model_Intersection Model_Mpi Model_Fit Model_Labels Model_Classes Spec_Intersection Spec_Mpi Spec_Fit Spec_Labels
  Spec_Classes Proofs_Intersection Proofs_FitDist Proofs_FitProps Proofs_Labels.
Import ListNotations.

Lemma boot_number y tr : boot_classes y tr = length (unique_labels (boot_labels y tr)).
Proof. unfold boot_classes. rewrite masked_numbers. apply numbers_length. Qed.
Lemma boot_incl y tr : Forall (fun i => i < length y) tr -> incl (unique_labels (boot_labels y tr)) (numbers (length (unique_labels y))).
Proof.
  intros V l H. apply (proj1 (unique_In _ _)) in H. apply in_map_iff in H as (i & <- & Hi). apply numbers_In. rewrite Forall_forall in V.
  exists (nth i (codes y) 0). split; [apply codes_lt; apply nth_In; rewrite length_codes; now apply V|reflexivity].
Qed.
Lemma boot_le y tr : Forall (fun i => i < length y) tr -> boot_classes y tr <= length (unique_labels y).
Proof. intro V. rewrite boot_number, <- (numbers_length (length (unique_labels y))). apply NoDup_incl_length; [apply unique_NoDup|now apply boot_incl]. Qed.
Lemma boot_all y tr : Forall (fun i => i < length y) tr -> boot_classes y tr = length (unique_labels y) -> sees_all y tr.
Proof.
  intros V H l Hl. rewrite boot_number in H.
  assert (I : incl (numbers (length (unique_labels y))) (unique_labels (boot_labels y tr))).
  { apply NoDup_length_incl; [apply unique_NoDup|rewrite numbers_length; lia|now apply boot_incl]. }
  apply (proj2 (unique_In _ _)) in Hl. apply In_nth_error in Hl as (c & Hc).
  assert (Lc : c < length (unique_labels y)) by (apply nth_error_Some; congruence).
  assert (J : In (LInt (Z.of_nat c)) (boot_labels y tr)) by (apply (proj1 (unique_In _ _)), I, numbers_In; exists c; split; [exact Lc|reflexivity]).
  apply in_map_iff in J as (i & Ei & Hi). injection Ei as Ei. apply Nat2Z.inj in Ei. exists i. split; [exact Hi|].
  rewrite Forall_forall in V. rewrite <- codes_label by now apply V. now rewrite Ei.
Qed.
Lemma boot_two y tr : Forall (fun i => i < length y) tr -> boot_classes y tr = 2 -> sees_two y tr.
Proof.
  intros V H. rewrite boot_number in H. pose proof (unique_NoDup (boot_labels y tr)) as Nd. pose proof (unique_In (boot_labels y tr)) as In1.
  destruct (unique_labels (boot_labels y tr)) as [|u [|v [|]]]; try discriminate. clear H. rewrite Forall_forall in V.
  assert (P : forall w, In w [u; v] -> exists i l, In i tr /\ w = of_code (nth i (codes y) 0) /\ nth_error y i = Some l).
  { intros w Hw. apply In1 in Hw. apply in_map_iff in Hw as (i & <- & Hi). destruct (nth_error y i) as [l|] eqn:E; [exists i, l; auto|]. apply nth_error_None in E. specialize (V i Hi). lia. }
  destruct (P u) as (i & a & Hi & -> & Ea); [now left|]. destruct (P v) as (j & b & Hj & -> & Eb); [right; now left|].
  exists a, b. split; [|split; [exists i; auto|split; [exists j; auto|]]].
  - intros ->. inversion Nd as [|x r Nx _]; subst. apply Nx. left.
    assert (nth j (codes y) 0 = nth i (codes y) 0) as ->; [|reflexivity].
    apply (proj1 (NoDup_nth_error (unique_labels y)) (unique_NoDup y)); [apply codes_lt, nth_In; rewrite length_codes; now apply V|]. rewrite !codes_label by now apply V. congruence.
  - intros q Hq. assert (Q : In (of_code (nth q (codes y) 0)) [of_code (nth i (codes y) 0); of_code (nth j (codes y) 0)]) by (apply In1; apply in_map_iff; exists q; auto).
    destruct Q as [Q|[Q|[]]]; injection Q as Q; apply Nat2Z.inj in Q; [left|right];
      rewrite <- (codes_label y q) by (now apply V); rewrite <- Q, codes_label by (now apply V); assumption.
Qed.

(** Numbers of rows. *)
Lemma rows_match multi k k' w : 1 <= w -> 2 <= k' -> k' <= k -> output_dim multi k' * w = output_dim multi k * w -> k' = k.
Proof.
  intros W K2 K H. apply Nat.mul_cancel_r in H; [|lia]. unfold output_dim in H.
  destruct (Nat.ltb_spec 2 k'), (Nat.ltb_spec 2 k); destruct multi; lia.
Qed.
Lemma rows_one multi k' w : 2 <= k' -> output_dim multi k' * w = 1 -> k' = 2 /\ multi = false /\ w = 1.
Proof. intros K H. apply Nat.eq_mul_1 in H as [H ->]. unfold output_dim in H. destruct (Nat.ltb_spec 2 k'), multi; repeat split; lia. Qed.

Section Fit.
  Context {S E Rng : Type}.
  Variables (env : np_env) (d : dims) (search : nat -> S -> nat -> list nat -> nat -> result (S * list f64))
    (search_est : nat -> list bool -> list nat -> nat -> result E) (multi : bool) (y : list label) (base : nat -> solver S E).
  Variables (draw : bool -> Rng -> result (split * Rng)) (post : nd -> nd -> result (nd * nd)).
  Notation sol := (fun i => logistic_solver (search i) (search_est i) multi d y (base i)).
  Notation K := (length (uoi_classes y)).
  Hypotheses (HB : 1 <= n_boots_sel d) (HO : out_dim d = output_dim multi K) (HR : 1 <= n_reg d).
  Hypothesis HI : forall i c a, fit_int (base i) c = Ok a -> wf_nd a /\ np2mpi (nd_dtype a) = true /\ nd_shape a <> [].
  Hypotheses (RN : forall i, right_number (search i)) (RE : forall i, right_number_est (search_est i) (est_coef (base i))) (VR : valid_rows draw (length y)).

  Lemma lm_rows i s regs tr s' rows : base_sweep (logistic_lm (search i) multi d y) s regs tr = Ok (s', rows) ->
    length rows = length regs /\ Forall (fun r => length r = n_coef d) rows /\
    (regs <> [] -> 2 <= boot_classes y tr /\ (output_dim multi (boot_classes y tr) * n_feat d = n_coef d \/ output_dim multi (boot_classes y tr) * n_feat d = 1)).
  Proof.
    revert s s' rows. induction regs as [|r regs IH]; intros s s' rows H.
    - injection H as <- <-. split; [reflexivity|]. split; [constructor|easy].
    - cbn [base_sweep] in H. destruct (logistic_lm _ _ _ _ s r tr) as [[s1 v]|] eqn:L; [|discriminate]. cbn [bind fst snd] in H.
      destruct (base_sweep _ s1 regs tr) as [[s2 vs]|] eqn:B; [|discriminate]. cbn [bind fst snd] in H. injection H as <- <-.
      destruct (IH _ _ _ B) as (A1 & A2 & _). split; [cbn; lia|].
      unfold logistic_lm in L. unfold inner_rows in L. destruct (boot_classes y tr <? 2) eqn:B2; [discriminate|]. apply Nat.ltb_ge in B2. cbn [bind] in L.
      destruct (search i s r tr _) as [[s3 w]|] eqn:Se; [|discriminate]. cbn [bind fst snd] in L. pose proof (RN i _ _ _ _ _ _ Se) as Lw.
      unfold assign_row in L. destruct (length w =? n_coef d) eqn:W1.
      + cbn [bind] in L. injection L as <- <-. apply Nat.eqb_eq in W1. split; [constructor; assumption|]. intros _. split; [exact B2|left; lia].
      + destruct (length w =? 1) eqn:W2; [|discriminate]. cbn [bind] in L. injection L as <- <-. apply Nat.eqb_eq in W2. split; [constructor; [apply repeat_length|assumption]|]. intros _. split; [exact B2|right; lia].
  Qed.
  Lemma class_shapes i : shapes_ok d (sol i).
  Proof.
    split.
    - intros s regs tr s' rows H. cbn in H. destruct (lm_rows i _ _ _ _ _ H) as (A & B & _). auto.
    - intros c a H. exact (HI i c a H).
  Qed.
  Lemma drawn_valid sel r sps r1 : drawn draw sel r sps r1 -> forall b, b < length sps -> Forall (fun i => i < length y) (fst (nth b sps ([], []))).
  Proof. induction 1 as [r|r sp r' sps r'' Dr H IH]; intros b L; [cbn in L; lia|]. destruct b as [|b]; [exact (VR _ _ _ _ Dr)|]. apply IH. cbn in L. lia. Qed.

  Lemma selection_sees_all n R s0 F : 2 <= n_feat d -> returned env d sol draw post n false R s0 F ->
    exists sps r1, drawn draw true (R 0) sps r1 /\ length sps = n_boots_sel d /\ forall b, b < n_boots_sel d -> sees_all y (fst (nth b sps ([], []))).
  Proof.
    intros HP H. destruct (returned_step env d sol draw post HB class_shapes _ _ _ _ H)
      as (sel & ns & coef & ic & _ & _ & _ & _ & _ & _ & _ & _ & _ & sps & r1 & c & sps2 & r2 & D1 & _ & L1 & (_ & _ & _ & C) & _).
    exists sps, r1. split; [exact D1|]. split; [exact L1|]. intros b Hb. destruct (C b 0 Hb ltac:(lia)) as (i & s & regs & s' & rows & q & _ & Sw & Hq & _).
    pose proof (drawn_valid _ _ _ _ D1 b ltac:(lia)) as V. destruct (lm_rows i _ _ _ _ _ Sw) as (_ & _ & T). destruct T as [B2 [T|T]]; [intros ->; cbn in Hq; lia| |].
    - apply boot_all; [exact V|]. unfold n_coef in T. rewrite HO, (Nat.mul_comm (n_feat d)) in T. apply (rows_match multi _ _ (n_feat d)); [lia|exact B2|now apply boot_le|exact T].
    - destruct (rows_one _ _ _ B2 T) as (_ & _ & ?). lia.
  Qed.

  Lemma count_app' {A} (f : A -> bool) l m : count f (l ++ m) = count f l + count f m.
  Proof. induction l as [|x l IH]; cbn; [reflexivity|]. destruct (f x); lia. Qed.
  Lemma count_tile (mask : list bool) k : count (fun b => b) (concat (repeat mask k)) = k * count (fun b => b) mask.
  Proof. induction k as [|k IH]; [reflexivity|]. cbn [repeat concat]. rewrite count_app', IH. reflexivity. Qed.
  Lemma scatter_const mask v m k : count (fun b => b) mask <= m -> k < length mask -> nth k (scatter mask (repeat v m)) fnan = if nth k mask false then v else fzero.
  Proof.
    revert m k. induction mask as [|[] mask IH]; intros m k L H; cbn [length] in H; [lia| |].
    - destruct m as [|m]; [cbn in L; lia|]. cbn [scatter repeat]. destruct k as [|k]; [reflexivity|]. cbn [nth]. apply IH; cbn in L; lia.
    - cbn [scatter]. destruct k as [|k]; [reflexivity|]. cbn [nth]. apply IH; cbn in L; lia.
  Qed.
  Lemma count_le {A} (f : A -> bool) l : count f l <= length l.
  Proof. induction l as [|x l IH]; cbn; [lia|]. destruct (f x); lia. Qed.
  Lemma nth_tile (mask : list bool) p k q : length mask = p -> q < k * p -> nth q (concat (repeat mask k)) false = nth (q mod p) mask false.
  Proof. intros <- H. apply concat_repeat_nth; lia. Qed.

  Lemma estimation_classes n R s0 F : 2 <= length (thresholds d) * n_reg d -> 2 <= n_coef d -> returned env d sol draw post n false R s0 F ->
    exists sel p rows sps r1 sps2 r2,
      f_sel F = Some sel /\ s_supports sel = Arr2 p rows /\ drawn draw true (R 0) sps r1 /\ length sps = n_boots_sel d /\ drawn draw false r1 sps2 r2 /\
      forall b j, b < n_boots_est d -> j < length rows -> (exists k, nth k (nth j rows []) false = true) ->
        sees_all y (fst (nth b sps2 ([], []))) \/
        (multi = false /\ 3 <= K /\ sees_two y (fst (nth b sps2 ([], []))) /\
         (if shared d then count (fun b => b) (nth j rows []) = 1 else n_feat d = 1) /\
         exists v, forall k, k < n_coef d -> at3 (s_estimates sel) b j k = if (if shared d then nth (k mod n_feat d) (nth j rows []) false else true) then v else fzero).
  Proof.
    intros H1 H2 H. destruct (returned_step env d sol draw post HB class_shapes _ _ _ _ H)
      as (sel & ns & coef & ic & H0 & _ & _ & _ & _ & _ & _ & _ & _ & sps & r1 & c & sps2 & r2 & Hd1 & Hd2 & Hls & Hc & Hi & Hns & Ht).
    destruct Hc as (Hc1 & Hc2 & _).
    destruct (intersect_rank2 d c _ Hc1 Hc2 H1 H2 Hi) as (p & rows & Hsup).
    rewrite Hsup in *. cbn in Hns. injection Hns as Hns.
    exists sel, p, rows, sps, r1, sps2, r2. split; [exact H0|]. split; [exact Hsup|]. split; [exact Hd1|]. split; [exact Hls|]. split; [exact Hd2|].
    intros b j Hb Hj (k0 & Hk0). pose proof Hj as Hj'. rewrite Hns in Hj'. destruct (Ht b j Hb Hj') as (i & boots & row & Hin & Hlk & He & Ha).
    unfold est_task in He. rewrite Nat.add_comm, Nat.div_add, Nat.div_small in He by lia.
    change (0 + b) with b in He. rewrite Hlk in He. cbn [bind] in He. rewrite Nat.mod_add, Nat.mod_small in He by lia.
    set (mask := nth j rows []) in *. set (sp := nth b sps2 ([], [])) in *. assert (V : Forall (fun i => i < length y) (fst sp)) by (destruct (le_lt_dec (length sps2) b); [unfold sp; rewrite nth_overflow by assumption; constructor|now apply (drawn_valid _ _ _ _ Hd2)]).
    assert (Lk : k0 < length mask) by (destruct (le_lt_dec (length mask) k0); [rewrite nth_overflow in Hk0 by lia; discriminate|assumption]).
    assert (Ex : existsb (fun b => b) mask = true) by (apply existsb_exists; exists true; split; [rewrite <- Hk0; now apply nth_In|reflexivity]).
    rewrite Ex in He. unfold est_masked in He. cbn [est_fit est_coef logistic_solver] in He.
    destruct (logistic_est (search_est i) multi d y mask (fst sp)) as [e|] eqn:Ee; cbn [bind] in He; [|discriminate].
    assert (Hrow : (if shared d then assign_masked (n_coef d) (concat (repeat mask (out_dim d))) (est_coef (base i) e)
         else assign_row (n_coef d) (est_coef (base i) e)) = Ok row).
    { destruct (if shared d then _ else _) as [r|] in He |- *; cbn [bind] in He; [|discriminate].
      destruct (score _ e mask sp) as [x|]; cbn [bind] in He; [|discriminate]. injection He as -> _. reflexivity. }
    unfold logistic_est, inner_rows in Ee. destruct (boot_classes y (fst sp) <? 2) eqn:B2; [discriminate|]. apply Nat.ltb_ge in B2. cbn [bind] in Ee.
    apply RE in Ee. pose proof (boot_le _ _ V) as Ble.
    assert (C1 : 1 <= count (fun b => b) mask).
    { clear - Ex. induction mask as [|[] m IH]; [discriminate|cbn; lia|cbn in *; auto]. }
    destruct (shared d) eqn:Sh.
    - unfold assign_masked in Hrow. destruct (length (concat (repeat mask (out_dim d))) =? n_coef d) eqn:El; [|discriminate]. cbn [negb] in Hrow. apply Nat.eqb_eq in El.
      rewrite count_tile in Hrow. destruct (length (est_coef (base i) e) =? out_dim d * count (fun b => b) mask) eqn:W1.
      + left. apply Nat.eqb_eq in W1. apply boot_all; [exact V|]. apply (rows_match multi _ _ (count (fun b => b) mask)); [lia|exact B2|exact Ble|]. rewrite <- Ee, W1, HO. reflexivity.
      + destruct (length (est_coef (base i) e) =? 1) eqn:W2; [|discriminate]. apply Nat.eqb_eq in W2. rewrite W2 in Ee. symmetry in Ee. destruct (rows_one _ _ _ B2 Ee) as (K2 & Em & Ec).
        right. split; [exact Em|]. split.
        { apply Nat.eqb_neq in W1. rewrite W2, HO, Ec in W1. unfold output_dim in W1. destruct (Nat.ltb_spec 2 K) as [C|C]; [exact C|]. rewrite Em in W1. lia. }
        split; [now apply boot_two|]. split; [exact Ec|]. exists (hd fzero (est_coef (base i) e)). intros k Hk. rewrite Ha by exact Hk. injection Hrow as <-.
        assert (Hlm : length mask = n_feat d).
        { rewrite concat_repeat_length in El. unfold n_coef in El, Hk. assert (out_dim d <> 0) by (intro Z; rewrite Z in Hk; lia). apply (Nat.mul_cancel_l _ _ (out_dim d)); lia. }
        rewrite scatter_const; [|rewrite <- El; apply count_le|lia]. rewrite (nth_tile mask (n_feat d)); [reflexivity|exact Hlm|unfold n_coef in Hk; lia].
    - unfold assign_row in Hrow. destruct (length (est_coef (base i) e) =? n_coef d) eqn:W1.
      + left. apply Nat.eqb_eq in W1. apply boot_all; [exact V|]. unfold n_coef in W1. rewrite HO in W1. apply (rows_match multi _ _ (n_feat d)); [unfold n_coef in H2; destruct (n_feat d); lia|exact B2|exact Ble|]. rewrite <- Ee, W1. apply Nat.mul_comm.
      + destruct (length (est_coef (base i) e) =? 1) eqn:W2; [|discriminate]. apply Nat.eqb_eq in W2. rewrite W2 in Ee. symmetry in Ee. destruct (rows_one _ _ _ B2 Ee) as (K2 & Em & Ec).
        right. split; [exact Em|]. split.
        { apply Nat.eqb_neq in W1. unfold n_coef in W1. rewrite W2, HO, Ec in W1. unfold output_dim in W1. destruct (Nat.ltb_spec 2 K) as [C|C]; [exact C|]. rewrite Em in W1. lia. }
        split; [now apply boot_two|]. split; [exact Ec|]. exists (hd fzero (est_coef (base i) e)). intros k Hk. rewrite Ha by exact Hk. injection Hrow as <-.
        rewrite nth_indep with (d' := hd fzero (est_coef (base i) e)) by (now rewrite repeat_length). apply nth_repeat.
  Qed.
End Fit.

(** ** Stratified bootstraps *)
From Coq Require Import Reals Lra.
From Flocq Require Import Core BinarySingleNaN.
From Verif Require Import F64Facts Proofs_Split.
Section Stratified.
  Local Open Scope R_scope.
  Lemma fdiv_correct x y : valid64 x = true -> valid64 y = true -> is_finite64 x = true -> is_finite64 y = true -> rval y <> 0 ->
    Rabs (rnd64 (rval x / rval y)) < fmax64 -> rval (fdiv x y) = rnd64 (rval x / rval y) /\ is_finite64 (fdiv x y) = true.
  Proof.
    intros Hx Hy Fx Fy Ny Hlt. lift64 x Hx. lift64 y Hy. rewrite fdiv_B2SF, !rval_B2SF, !is_finite64_B2SF in *.
    generalize (Bdiv_correct prec64 emax64 _ _ mode_NE b b0 Ny). unfold rnd64, fmax64 in *. simpl round_mode. rewrite Rlt_bool_true by exact Hlt.
    intros (H1 & H2 & _). rewrite H1, H2, Fx. now split.
  Qed.
  Lemma fmax_big z : (Z.abs z <= 2 ^ 53)%Z -> Rabs (IZR z) < fmax64.
  Proof.
    intro H. rewrite <- abs_IZR. apply Rle_lt_trans with (IZR (2 ^ 53)); [now apply IZR_le|]. unfold fmax64. change (IZR (2 ^ 53)) with (bpow radix2 53). apply bpow_lt. reflexivity.
  Qed.
  Lemma bounded_round a z : (0 <= z <= 2 ^ 53)%Z -> 0 <= a <= IZR z -> 0 <= rnd64 a <= IZR z /\ Rabs (rnd64 a) < fmax64.
  Proof.
    intros Hz Ha. assert (B : 0 <= rnd64 a <= IZR z).
    { split; [rewrite <- (rnd64_IZR 0) by lia; apply rnd64_le; lra|]. rewrite <- (rnd64_IZR z) by lia. apply rnd64_le. lra. }
    split; [exact B|]. apply Rle_lt_trans with (Rabs (IZR z)); [|apply fmax_big; lia]. rewrite !Rabs_pos_eq by lra. lra.
  Qed.
  Lemma draws_one df total n_train c extra : (1 <= c <= total)%Z -> (1 <= n_train <= total)%Z -> (total * total <= 2 ^ 53)%Z -> (total < n_train * c)%Z ->
    exists k, class_draws df total n_train c extra = Ok k /\ (1 <= k)%nat.
  Proof.
    intros Hc Hn Ht H. assert (Ht1 : (total <= 2 ^ 53)%Z) by nia. assert (Hp : (n_train * c <= 2 ^ 53)%Z) by nia.
    destruct (f64_of_Z_correct c ltac:(lia)) as [Ec Fc]. destruct (f64_of_Z_correct total ltac:(lia)) as [Et Ft]. destruct (f64_of_Z_correct n_train ltac:(lia)) as [En Fn].
    destruct (f64_of_Z_correct (n_train * c) ltac:(lia)) as [Ep Fp].
    assert (Rt : 1 <= IZR total) by (apply (IZR_le 1); lia). assert (Rc : 1 <= IZR c <= IZR total) by (split; [apply (IZR_le 1)|apply IZR_le]; lia).
    assert (Rn : 1 <= IZR n_train <= IZR total) by (split; [apply (IZR_le 1)|apply IZR_le]; lia).
    assert (Rp : IZR total + 1 <= IZR n_train * IZR c) by (rewrite <- mult_IZR, <- (plus_IZR total 1); apply IZR_le; lia).
    assert (Q : is_finite64 (expected_draws df total n_train c) = true /\ 1 <= rval (expected_draws df total n_train c)).
    { unfold expected_draws. destruct df.
      - assert (D0 : 0 <= IZR c / IZR total <= 1) by (split; [apply Rmult_le_pos; [lra|left; apply Rinv_0_lt_compat; lra]|apply (Rmult_le_reg_r (IZR total)); [lra|]; unfold Rdiv; rewrite Rmult_assoc, Rinv_l by lra; lra]).
        destruct (bounded_round _ 1 ltac:(lia) D0) as [D1 D2]. rewrite <- Ec, <- Et in D2.
        destruct (fdiv_correct (f64_of_Z c) (f64_of_Z total) (f64_of_Z_valid _) (f64_of_Z_valid _) Fc Ft ltac:(rewrite Et; lra) D2) as [V F]. rewrite Ec, Et in V.
        assert (Er : IZR c / IZR total * (1 - bpow radix2 (-53)) <= rnd64 (IZR c / IZR total)).
        { assert (I53 : bpow radix2 (-53) <= / IZR total).
          { change (bpow radix2 (-53)) with (/ IZR (2 ^ 53)). apply Rinv_le; [lra|]. apply IZR_le. lia. }
          pose proof (product_error (/ IZR total) (IZR c) I53 (proj1 Rc)) as P. apply Rabs_le_inv in P. unfold Rdiv. rewrite (Rmult_comm (IZR c)). lra. }
        set (u := bpow radix2 (-53)) in *. assert (Up : 0 < u) by apply bpow_gt_0.
        assert (Ut : u * (IZR total + 1) <= 1).
        { assert (IZR total + 1 <= IZR (2 ^ 53)) by (rewrite <- (plus_IZR total 1); apply IZR_le; nia). assert (E : u * IZR (2 ^ 53) = 1) by (unfold u; change (bpow radix2 (-53)) with (/ IZR (2 ^ 53)); apply Rinv_l; apply not_0_IZR; discriminate).
          rewrite <- E. apply Rmult_le_compat_l; lra. }
        assert (G1 : 1 <= rnd64 (IZR c / IZR total) * IZR n_train).
        { apply Rle_trans with (IZR c / IZR total * (1 - u) * IZR n_train); [|apply Rmult_le_compat_r; lra].
          replace (IZR c / IZR total * (1 - u) * IZR n_train) with (IZR n_train * IZR c * (1 - u) / IZR total) by (field; lra).
          apply (Rmult_le_reg_r (IZR total)); [lra|]. unfold Rdiv. rewrite Rmult_assoc, Rinv_l, Rmult_1_l, Rmult_1_r by lra.
          apply Rle_trans with ((IZR total + 1) * (1 - u)); [nra|]. apply Rmult_le_compat_r; [|lra]. assert (u * 1 <= u * (IZR total + 1)) by (apply Rmult_le_compat_l; lra). lra. }
        assert (G2 : 0 <= rnd64 (IZR c / IZR total) * IZR n_train <= IZR n_train) by (split; [lra|]; apply Rle_trans with (1 * IZR n_train); [apply Rmult_le_compat_r; lra|lra]).
        destruct (bounded_round _ n_train ltac:(lia) G2) as [_ G3]. rewrite <- V, <- En in G3.
        destruct (fmul_correct _ (f64_of_Z n_train) (fdiv_valid _ _ (f64_of_Z_valid c) (f64_of_Z_valid total)) (f64_of_Z_valid _) F Fn G3) as [W1 W2].
        split; [exact W2|]. rewrite W1, V, En. rewrite <- (rnd64_IZR 1) by lia. apply rnd64_le. exact G1.
      - assert (D1 : 1 <= IZR (n_train * c) / IZR total) by (apply (Rmult_le_reg_r (IZR total)); [lra|]; unfold Rdiv; rewrite Rmult_assoc, Rinv_l, mult_IZR by lra; lra).
        assert (D0 : 0 <= IZR (n_train * c) / IZR total <= IZR (n_train * c)).
        { split; [lra|]. apply (Rmult_le_reg_r (IZR total)); [lra|]. unfold Rdiv. rewrite Rmult_assoc, Rinv_l, mult_IZR by lra. assert (IZR n_train * IZR c * 1 <= IZR n_train * IZR c * IZR total) by (apply Rmult_le_compat_l; lra). lra. }
        destruct (bounded_round _ (n_train * c) ltac:(lia) D0) as [_ D2]. rewrite <- Ep, <- Et in D2.
        destruct (fdiv_correct (f64_of_Z (n_train * c)) (f64_of_Z total) (f64_of_Z_valid _) (f64_of_Z_valid _) Fp Ft ltac:(rewrite Et; lra) D2) as [V F]. rewrite Ep, Et in V.
        split; [exact F|]. rewrite V, <- (rnd64_IZR 1) by lia. now apply rnd64_le. }
    destruct Q as [Q1 Q2]. unfold class_draws. rewrite (ftrunc_correct _ Q1). eexists. split; [reflexivity|].
    assert (1 <= Ztrunc (rval (expected_draws df total n_train c)))%Z by (rewrite <- (Ztrunc_IZR 1); now apply Ztrunc_le). lia.
  Qed.
End Stratified.

Lemma mapM_all {A B} (f : A -> result B) l out : mapM f l = Ok out -> forall a, In a l -> exists b, f a = Ok b /\ In b out.
Proof.
  revert out. induction l as [|x l IH]; intros out H a Ha; [destruct Ha|]. cbn in H. destruct (f x) as [b|] eqn:E; [|discriminate]. cbn [bind] in H.
  destruct (mapM f l) as [bs|]; [|discriminate]. injection H as <-. destruct Ha as [<-|Ha]; [exists b; split; [exact E|now left]|].
  destruct (IH bs eq_refl a Ha) as (b' & E' & I'). exists b'. split; [exact E'|now right].
Qed.
Lemma length_concat_ge {A} (l : list (list A)) c : In c l -> length c <= length (concat l).
Proof. induction l as [|x l IH]; intro H; [destruct H|]. cbn. rewrite app_length. destruct H as [->|H]; [lia|]. specialize (IH H). lia. Qed.

Lemma stratified_sees df n_train extra perm shuffle rows train y :
  grouped y rows -> (forall i, i < length rows -> Permutation (perm i) (nth i rows [])) -> (forall l, Permutation (shuffle l) l) ->
  (Z.of_nat (length (concat rows)) < 2 * n_train)%Z -> (n_train <= Z.of_nat (length (concat rows)))%Z ->
  (Z.of_nat (length (concat rows)) * Z.of_nat (length (concat rows)) <= 2 ^ 53)%Z ->
  stratified_train df n_train extra perm shuffle rows = Ok train -> sees_all y train.
Proof.
  intros G Pm Ps H2 Hn Hs H l Hl. destruct (G l Hl) as (c & Hc & Lc). unfold stratified_train in H.
  destruct (existsb _ rows) eqn:E2; [discriminate|]. destruct (n_train <? _)%Z; [discriminate|].
  destruct (mapM _ (seq 0 (length rows))) as [parts|] eqn:M; [|discriminate]. cbn [bind] in H. injection H as <-.
  assert (C2 : 2 <= length c). { destruct (le_lt_dec 2 (length c)) as [L|L]; [exact L|]. exfalso. assert (existsb (fun c => length c <? 2) rows = true) by (apply existsb_exists; exists c; split; [exact Hc|now apply Nat.ltb_lt]). congruence. }
  pose proof (length_concat_ge rows c Hc) as Lt. apply (In_nth _ _ []) in Hc as (i & Hi & Ei).
  destruct (mapM_all _ _ _ M i ltac:(apply in_seq; lia)) as (b & Eb & Ib). rewrite Ei in Eb.
  destruct (draws_one df (Z.of_nat (length (concat rows))) n_train (Z.of_nat (length c)) (extra i) ltac:(lia) ltac:(lia) Hs ltac:(nia)) as (k & Ek & Hk).
  rewrite Ek in Eb. cbn [bind] in Eb. injection Eb as <-.
  specialize (Pm i Hi). rewrite Ei in Pm. pose proof (Permutation_length Pm) as Lp. destruct (perm i) as [|a r] eqn:Epm; [cbn in Lp; lia|].
  exists a. split; [|apply Lc; apply (Permutation_in _ Pm); now left].
  apply (Permutation_in _ (Permutation_sym (Ps _))). apply in_concat. exists (firstn k (a :: r)). split; [exact Ib|]. destruct k as [|k]; [lia|]. now left.
Qed.

(** ** Examples *)
Definition cl_y : list label := [LInt 5; LInt 7; LInt 9; LInt 5; LInt 7; LInt 9].
Definition cl_dims : dims := mkDims 2 3 2 2 2 [2%Z] true true.
(** The first feature is selected for every class. *)
Definition cl_search (s : unit) (r : nat) (tr : list nat) (m : nat) : result (unit * list f64) :=
  Ok (s, map (fun k => if Nat.even k then fone else fzero) (seq 0 m)).
Definition cl_est (mask : list bool) (tr : list nat) (m : nat) : result (list f64) := Ok (repeat fone m).
Definition cl_solver : solver unit (list f64) :=
  logistic_solver cl_search cl_est false cl_dims cl_y
    (mkSolver _ _ (fun s => s) (fun s _ _ => Ok (s, [])) (fun _ _ => Ok []) (fun e => e) (fun _ => Ok []) (fun _ _ _ => Ok fone) (fun _ _ => Ok fzero)
       (fun _ => Ok (nd_of_floats [3] [fone; fone; fone]))).
(** The selection bootstraps have all classes; the first estimation bootstrap lacks class 9. *)
Definition cl_draw (sel : bool) (r : nat) : result (Model_Fit.split * nat) :=
  Ok (((if sel then [0; 4; 5] else if r =? 2 then [0; 1; 4] else [3; 1; 2]), [2]), Datatypes.S r).
Definition cl_post (c ic : nd) : result (nd * nd) := Ok (c, ic).
Definition cl_env : np_env := mkEnv (fun _ => SFlt fnan) (Raise TypeError).
Definition cl_fitted : fitted :=
  match fit cl_env cl_dims cl_solver cl_draw cl_post 1 0 false 0 tt with Done (Ok F) => F | _ => mkFitted None (nd_of_floats [0] []) (nd_of_floats [0] []) end.
