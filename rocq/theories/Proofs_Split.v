(** Proofs about the sizes of bootstrap samples (C113). *)
From Coq Require Import ZArith Reals List Bool Lia Lra Floats.SpecFloat.
From Flocq Require Import Core BinarySingleNaN Relative Sterbenz.
From Verif Require Import Prelude F64 F64Facts Model_Split.
Local Open Scope Z_scope.

Ltac lift64 x H := destruct (valid64_B2SF x H) as [?b <-]; clear H.

Lemma fsub_correct x y :
  valid64 x = true -> valid64 y = true -> is_finite64 x = true -> is_finite64 y = true ->
  (Rabs (rnd64 (rval x - rval y)) < fmax64)%R ->
  rval (fsub x y) = rnd64 (rval x - rval y) /\ is_finite64 (fsub x y) = true.
Proof.
  intros Hx Hy Fx Fy Hlt. lift64 x Hx. lift64 y Hy.
  rewrite fsub_B2SF, !rval_B2SF, !is_finite64_B2SF in *.
  generalize (Bminus_correct prec64 emax64 _ _ mode_NE b b0 Fx Fy).
  unfold rnd64, fmax64 in *. simpl round_mode.
  rewrite Rlt_bool_true by exact Hlt.
  intros (H1 & H2 & _). rewrite H1, H2. now split.
Qed.

Lemma fceil_correct x : is_finite64 x = true -> fceil x = Ok (Zceil (rval x)).
Proof.
  destruct x as [s|s| |s m e]; try discriminate; intros _; unfold rval, fceil; simpl SF2R.
  - change 0%R with (IZR 0). now rewrite Zceil_IZR.
  - f_equal. unfold F2R. simpl. set (z := cond_Zopp s (Z.pos m)).
    replace (if s then Z.neg m else Z.pos m) with z by (now destruct s). clearbody z.
    destruct (Z.leb_spec 0 e).
    + rewrite <- (IZR_Zpower radix2) by exact H. rewrite <- mult_IZR, Zceil_IZR. reflexivity.
    + unfold Zceil. f_equal. rewrite Ropp_mult_distr_l, <- opp_IZR.
      assert (Hb : bpow radix2 e = (/ IZR (2 ^ (- e)))%R).
      { rewrite (IZR_Zpower radix2) by lia. rewrite <- bpow_opp. f_equal. lia. }
      rewrite Hb. symmetry. apply Zfloor_div. apply Z.pow_nonzero; lia.
Qed.

Local Open Scope R_scope.
Lemma fone_value : rval fone = 1 /\ is_finite64 fone = true /\ valid64 fone = true.
Proof. destruct (f64_of_Z_correct 1 ltac:(lia)) as [A B]. split; [exact A|]. split; [exact B|]. apply f64_of_Z_valid. Qed.

(** Largest double below 1. *)
Lemma below_one x : valid64 x = true -> / 2 <= rval x < 1 -> rval x <= 1 - bpow radix2 (-53).
Proof.
  intros V [L U]. assert (G : generic_format radix2 fexp64 (rval x)).
  { destruct (valid64_B2SF x V) as [b <-]. rewrite rval_B2SF. apply generic_format_B2R. }
  assert (M : mag radix2 (rval x) = 0%Z :> Z) by (apply mag_unique_pos; cbn; split; lra).
  unfold generic_format, F2R, cexp in G. rewrite M in G. cbn [Fnum Fexp] in G. change (fexp64 0) with (-53)%Z in G.
  set (m := Ztrunc _) in G. rewrite G.
  assert (B : bpow radix2 (-53) * IZR (2 ^ 53) = 1) by (rewrite (IZR_Zpower radix2) by lia; rewrite <- bpow_plus; reflexivity).
  assert (P : 0 < bpow radix2 (-53)) by apply bpow_gt_0.
  assert (H : (m < 2 ^ 53)%Z).
  { apply lt_IZR. apply Rmult_lt_reg_r with (bpow radix2 (-53)); [exact P|]. rewrite <- G. lra. }
  assert (H' : IZR m <= IZR (2 ^ 53) - 1) by (rewrite <- minus_IZR; apply IZR_le; lia).
  apply Rmult_le_compat_r with (r := bpow radix2 (-53)) in H'; [|lra]. lra.
Qed.

Lemma rnd_half : rnd64 (/ 2) = / 2.
Proof. unfold rnd64. apply round_generic; [typeclasses eauto|]. change (/ 2) with (bpow radix2 (-1)). apply generic_format_bpow. unfold SpecFloat.fexp, SpecFloat.emin, prec64, emax64. lia. Qed.
Lemma rnd_tiny : rnd64 (bpow radix2 (-53)) = bpow radix2 (-53).
Proof. unfold rnd64. apply round_generic; [typeclasses eauto|]. apply generic_format_bpow. unfold SpecFloat.fexp, SpecFloat.emin, prec64, emax64. lia. Qed.

(** 1 - x: exact from 1/2 on, otherwise off by at most 2^-54. *)
Lemma complement x : valid64 x = true -> is_finite64 x = true -> 0 < rval x < 1 ->
  let t := fsub fone x in valid64 t = true /\ is_finite64 t = true /\ rval t = rnd64 (1 - rval x) /\
    bpow radix2 (-53) <= rval t <= 1 /\ (/ 2 <= rval x -> rval t = 1 - rval x) /\ (Rabs (rval t - (1 - rval x)) <= bpow radix2 (-54)).
Proof.
  intros V F [P L] t. destruct fone_value as (E1 & F1 & V1).
  assert (B : 0 <= rnd64 (1 - rval x) <= 1).
  { split; [rewrite <- rnd64_0; apply rnd64_le; lra|]. apply Rle_trans with (rnd64 1); [apply rnd64_le; lra|apply Req_le, (rnd64_IZR 1); lia]. }
  assert (Q : rval t = rnd64 (1 - rval x) /\ is_finite64 t = true).
  { unfold t. rewrite <- E1. apply fsub_correct; try assumption. rewrite E1, Rabs_pos_eq by apply B. eapply Rle_lt_trans; [apply B|]. change 1 with (bpow radix2 0). apply bpow_lt. reflexivity. }
  destruct Q as [Q Ft]. assert (Vt : valid64 t = true) by (now apply fsub_valid).
  assert (S : / 2 <= rval x -> rval t = 1 - rval x).
  { intro H. rewrite Q. unfold rnd64. apply round_generic; [typeclasses eauto|].
    assert (Gx : generic_format radix2 fexp64 (rval x)) by (destruct (valid64_B2SF x V) as [b <-]; rewrite rval_B2SF; apply generic_format_B2R).
    assert (G1 : generic_format radix2 fexp64 1) by (apply (format_small_Z 1); lia).
    apply sterbenz; try typeclasses eauto; try assumption. lra. }
  split; [exact Vt|]. split; [exact Ft|]. split; [exact Q|]. split.
  - split; [|rewrite Q; apply B]. destruct (Rle_lt_dec (/ 2) (rval x)) as [H|H].
    + rewrite (S H). pose proof (below_one x V (conj H L)). lra.
    + rewrite Q. apply Rle_trans with (rnd64 (/ 2)); [rewrite rnd_half; change (/ 2) with (bpow radix2 (-1)); apply bpow_le; lia|apply rnd64_le; lra].
  - split; [exact S|]. destruct (Rle_lt_dec (/ 2) (rval x)) as [H|H].
    + rewrite (S H), Rminus_diag_eq, Rabs_R0 by reflexivity. apply bpow_ge_0.
    + rewrite Q. eapply Rle_trans; [apply error_le_half_ulp; typeclasses eauto|].
      assert (M : mag radix2 (1 - rval x) = 0%Z :> Z) by (apply mag_unique_pos; cbn; split; lra).
      rewrite ulp_neq_0 by lra. unfold cexp. rewrite M. change (fexp64 0) with (-53)%Z. change (bpow radix2 (-53)) with (bpow radix2 (1 + -54)). rewrite bpow_plus. cbn [bpow]. simpl (IZR (Z.pow_pos _ _)). pose proof (bpow_ge_0 radix2 (-54)). cbn in *. lra.
Qed.

(** The rounded product and its ceiling. *)
Lemma product_error t n : bpow radix2 (-53) <= t -> 1 <= n -> Rabs (rnd64 (t * n) - t * n) <= bpow radix2 (-53) * (t * n).
Proof.
  intros Ht Hn. assert (P : bpow radix2 (-53) <= t * n). { pose proof (bpow_gt_0 radix2 (-53)). apply Rle_trans with (t * 1); [lra|]. apply Rmult_le_compat_l; lra. }
  pose proof (bpow_gt_0 radix2 (-53)) as P0.
  pose proof (relative_error_N_FLT radix2 (SpecFloat.emin prec64 emax64) prec64 eq_refl (fun x => negb (Z.even x)) (t * n)) as H.
  rewrite (Rabs_pos_eq (t * n)) in H by lra.
  specialize (H (Rle_trans _ _ _ (bpow_le radix2 (SpecFloat.emin prec64 emax64 + prec64 - 1) (-53) ltac:(cbv; discriminate)) P)).
  eapply Rle_trans; [exact H|]. apply Req_le. change (- prec64 + 1)%Z with (1 + -53)%Z. rewrite bpow_plus. change (bpow radix2 1) with 2. field.
Qed.

Section Sizes.
  Variables (x : f64) (n : Z).
  Hypotheses (V : valid64 x = true) (F : is_finite64 x = true) (Hx : 0 < rval x < 1) (Hn : (1 <= n <= 2 ^ 53)%Z).
  Let t := fsub fone x.
  Lemma product_value : rval (fmul t (f64_of_Z n)) = rnd64 (rval t * IZR n) /\ is_finite64 (fmul t (f64_of_Z n)) = true /\ valid64 (fmul t (f64_of_Z n)) = true /\ 0 < rnd64 (rval t * IZR n) <= IZR n.
  Proof.
    destruct (complement x V F Hx) as (Vt & Ft & _ & Bt & _). fold t in Vt, Ft, Bt.
    destruct (f64_of_Z_correct n ltac:(lia)) as [En Fn]. pose proof (f64_of_Z_valid n) as Vn.
    assert (Hn' : 1 <= IZR n) by (apply (IZR_le 1); lia). pose proof (bpow_gt_0 radix2 (-53)) as P0.
    assert (B : bpow radix2 (-53) <= rnd64 (rval t * IZR n) <= IZR n).
    { split.
      - rewrite <- rnd_tiny. apply rnd64_le. apply Rle_trans with (rval t * 1); [lra|]. apply Rmult_le_compat_l; lra.
      - rewrite <- (rnd64_IZR n) by lia. apply rnd64_le. rewrite (rnd64_IZR n) by lia. apply Rle_trans with (1 * IZR n); [apply Rmult_le_compat_r; lra|lra]. }
    destruct (fmul_correct t (f64_of_Z n) Vt Vn Ft Fn) as [A A'].
    - rewrite En, Rabs_pos_eq by lra. eapply Rle_lt_trans; [apply B|]. pose proof (IZR_lt_fmax64 n ltac:(lia)) as Q. rewrite Rabs_pos_eq in Q by lra. exact Q.
    - rewrite En in A. split; [exact A|]. split; [exact A'|]. split; [now apply fmul_valid|]. lra.
  Qed.
  Lemma sizes_value : fltb t fone = true -> let T := Zceil (rnd64 (rval t * IZR n)) in
    bootstrap_sizes n (FFloat x) = (if (n - T =? 0)%Z then Raise ValueError else Ok (n - T, T)%Z) /\ (1 <= T <= n)%Z.
  Proof.
    intros Lt T. destruct (complement x V F Hx) as (Vt & Ft & _ & Bt & _). fold t in Vt, Ft, Bt. destruct product_value as (E & Fp & Vp & Bp).
    destruct fone_value as (E1 & F1 & V1). pose proof (bpow_gt_0 radix2 (-53)) as P0.
    split.
    - unfold bootstrap_sizes, one_minus, shuffle_split. fold t.
      assert (C1 : fleb t fzero = false).
      { destruct (fleb t fzero) eqn:C; [|reflexivity]. apply fleb_correct in C; [|assumption|reflexivity|assumption|reflexivity]. change (rval fzero) with 0 in C. lra. }
      assert (C2 : fleb fone t = false).
      { destruct (fleb fone t) eqn:C; [|reflexivity]. apply fleb_correct in C; [|assumption..]. apply fltb_correct in Lt; [|assumption..]. lra. }
      rewrite C1, C2. cbn [orb]. rewrite (fceil_correct _ Fp), E. reflexivity.
    - split.
      + assert (0 < T)%Z; [|lia]. apply lt_IZR. eapply Rlt_le_trans; [apply Bp|apply Zceil_ub].
      + unfold T. apply Zceil_glb. apply Bp.
  Qed.
End Sizes.

Lemma complement_below x : valid64 x = true -> is_finite64 x = true -> / 2 <= rval x < 1 -> fltb (fsub fone x) fone = true.
Proof.
  intros V F [L U]. destruct (complement x V F ltac:(lra)) as (Vt & Ft & _ & _ & S & _). destruct fone_value as (E1 & F1 & V1).
  apply fltb_correct; try assumption. rewrite E1, (S L). lra.
Qed.

Lemma sizes_half x n : valid64 x = true -> is_finite64 x = true -> / 2 <= rval x < 1 -> (2 <= n <= 2 ^ 53)%Z ->
  exists train test k, bootstrap_sizes n (FFloat x) = Ok (train, test) /\ (train + test = n)%Z /\ (1 <= train)%Z /\ (1 <= test)%Z /\
    IZR k <= rval x * IZR n < IZR k + 1 /\ (train = k \/ train = (k + 1)%Z /\ IZR k + 1 - rval x * IZR n <= bpow radix2 (-53) * ((1 - rval x) * IZR n)).
Proof.
  intros V F [L U] Hn. assert (Hx : 0 < rval x < 1) by lra.
  destruct (complement x V F Hx) as (_ & _ & _ & Bt & S & _). specialize (S L).
  destruct (sizes_value x n V F Hx ltac:(lia) (complement_below x V F (conj L U))) as [E B].
  set (t := rval (fsub fone x)) in *. set (T := Zceil (rnd64 (t * IZR n))) in *.
  assert (Hn' : 2 <= IZR n) by (apply (IZR_le 2); lia).
  assert (TN : (T <= n - 1)%Z).
  { apply Zceil_glb. rewrite <- (rnd64_IZR (n - 1)) by lia. apply rnd64_le. rewrite minus_IZR. rewrite S. apply Rle_trans with (/ 2 * IZR n); [apply Rmult_le_compat_r; lra|lra]. }
  set (k := Zfloor (rval x * IZR n)). pose proof (Zfloor_lb (rval x * IZR n)) as K1. pose proof (Zfloor_ub (rval x * IZR n)) as K2. fold k in K1, K2.
  assert (Kr : (0 <= k < n)%Z).
  { split; [apply Zfloor_lub; apply Rmult_le_pos; lra|]. apply lt_IZR. eapply Rle_lt_trans; [exact K1|]. apply Rlt_le_trans with (1 * IZR n); [apply Rmult_lt_compat_r; lra|lra]. }
  assert (Et : t * IZR n = IZR n - rval x * IZR n) by (rewrite S; ring).
  assert (T1 : (T <= n - k)%Z).
  { apply Zceil_glb. rewrite <- (rnd64_IZR (n - k)) by lia. apply rnd64_le. rewrite minus_IZR. lra. }
  assert (R2 : IZR (n - k - 1) <= rnd64 (t * IZR n)).
  { rewrite <- (rnd64_IZR (n - k - 1)) by lia. apply rnd64_le. rewrite !minus_IZR. lra. }
  assert (T2 : (n - k - 1 <= T)%Z) by (apply le_IZR; eapply Rle_trans; [exact R2|apply Zceil_ub]).
  exists (n - T)%Z, T, k. destruct (Z.eqb_spec (n - T) 0); [lia|]. split; [exact E|]. split; [lia|]. split; [lia|]. split; [lia|]. split; [lra|].
  destruct (Z.eq_dec T (n - k)) as [Q|Q]; [left; lia|right]. split; [lia|]. assert (QT : T = (n - k - 1)%Z) by lia.
  assert (R1 : rnd64 (t * IZR n) <= IZR (n - k - 1)) by (rewrite <- QT; apply Zceil_ub).
  pose proof (product_error t (IZR n) (proj1 Bt) ltac:(lra)) as Er. rewrite !minus_IZR in *. rewrite <- S.
  apply Rabs_le_inv in Er. lra.
Qed.

(** ** Any fraction *)
Lemma fsub_one_overflow x : valid64 x = true -> is_finite64 x = true -> fmax64 <= Rabs (rnd64 (1 - rval x)) -> fsub fone x = finf.
Proof.
  intros V F O. destruct fone_value as (E1 & F1 & V1). destruct (valid64_B2SF fone V1) as [b1 B1]. lift64 x V. rewrite <- B1 in *.
  rewrite fsub_B2SF, !rval_B2SF, !is_finite64_B2SF in *. pose proof (Bminus_correct prec64 emax64 _ _ mode_NE b1 b F1 F) as H.
  unfold rnd64, fmax64 in O. simpl round_mode in H. rewrite E1 in H. rewrite Rlt_bool_false in H by exact O. destruct H as [H _]. rewrite H.
  assert (S : Bsign b1 = false) by (destruct b1 as [[]|[]| |[] ? ? ?]; try reflexivity; discriminate B1). rewrite S. reflexivity.
Qed.
Lemma sizes_refused x n : valid64 x = true -> (is_finite64 x = false \/ 1 <= rval x \/ rval x <= bpow radix2 (-54)) -> bootstrap_sizes n (FFloat x) = Raise ValueError.
Proof.
  intros V H. destruct fone_value as (E1 & F1 & V1).
  enough (fleb (fsub fone x) fzero = true \/ fleb fone (fsub fone x) = true \/ fsub fone x = fnan) as C.
  { unfold bootstrap_sizes, one_minus, shuffle_split. destruct C as [-> | [-> | ->]]; [reflexivity|rewrite orb_true_r; reflexivity|reflexivity]. }
  destruct (is_finite64 x) eqn:F.
  2:{ destruct x as [s|[]| |s m e]; try discriminate F; [right; left; reflexivity|left; reflexivity|right; right; reflexivity]. }
  assert (Vt : valid64 (fsub fone x) = true) by (now apply fsub_valid).
  destruct (Rlt_le_dec (Rabs (rnd64 (1 - rval x))) fmax64) as [B|B].
  2:{ right. left. rewrite (fsub_one_overflow x V F B). reflexivity. }
  destruct (fsub_correct fone x V1 V F1 F ltac:(rewrite E1; exact B)) as [E Ft]. rewrite E1 in E.
  destruct H as [H|[H|H]]; [discriminate| |].
  - left. apply fleb_correct; try assumption; try reflexivity. rewrite E. change (rval fzero) with 0. rewrite <- rnd64_0. apply rnd64_le. lra.
  - right. left. apply fleb_correct; try assumption. rewrite E, E1.
    set (c := S754_finite false 4503599627370496 (-106)). assert (Vc : valid64 c = true) by reflexivity.
    assert (Ec : rval c = bpow radix2 (-54)) by (unfold rval, c, SF2R, F2R; cbn; lra).
    assert (C : fsub fone c = fone) by reflexivity.
    assert (Q : rnd64 (1 - bpow radix2 (-54)) = 1).
    { rewrite <- Ec. destruct (fsub_correct fone c V1 Vc F1 eq_refl) as [Q _].
      - rewrite E1. apply Rle_lt_trans with 1; [|change 1 with (bpow radix2 0); apply bpow_lt; reflexivity]. apply Rabs_le. split.
        + apply Rle_trans with (rnd64 0); [rewrite rnd64_0; lra|]. apply rnd64_le. rewrite Ec. pose proof (bpow_le radix2 (-54) 0 ltac:(lia)) as G. cbn in G |- *. lra.
        + apply Rle_trans with (rnd64 1); [apply rnd64_le; rewrite Ec; pose proof (bpow_ge_0 radix2 (-54)); lra|apply Req_le, (rnd64_IZR 1); lia].
      - rewrite C, E1 in Q. symmetry. exact Q. }
    rewrite <- Q. apply rnd64_le. lra.
Qed.
Lemma complement_below_any x : valid64 x = true -> is_finite64 x = true -> bpow radix2 (-54) < rval x < 1 -> fltb (fsub fone x) fone = true.
Proof.
  intros V F [L U]. pose proof (bpow_gt_0 radix2 (-54)). destruct (complement x V F ltac:(lra)) as (Vt & Ft & _ & _ & _ & A). destruct fone_value as (E1 & F1 & V1).
  apply fltb_correct; try assumption. rewrite E1. apply Rabs_le_inv in A. lra.
Qed.
Lemma sizes_any x n : valid64 x = true -> is_finite64 x = true -> bpow radix2 (-54) < rval x < 1 -> (1 <= n <= 2 ^ 53)%Z ->
  (exists train test, bootstrap_sizes n (FFloat x) = Ok (train, test) /\ (train + test = n)%Z /\ (1 <= train)%Z /\ (1 <= test)%Z /\
     rval x * IZR n - 1 - bpow radix2 (-52) * IZR n < IZR train <= rval x * IZR n + bpow radix2 (-52) * IZR n) \/
  (bootstrap_sizes n (FFloat x) = Raise ValueError /\ rval x * IZR n < 1 + bpow radix2 (-52) * IZR n).
Proof.
  intros V F [L U] Hn. pose proof (bpow_gt_0 radix2 (-54)) as P54. assert (Hx : 0 < rval x < 1) by lra.
  destruct (complement x V F Hx) as (_ & _ & _ & Bt & _ & A).
  destruct (sizes_value x n V F Hx Hn (complement_below_any x V F (conj L U))) as [E B].
  set (t := rval (fsub fone x)) in *. set (T := Zceil (rnd64 (t * IZR n))) in *. assert (Hn' : 1 <= IZR n) by (apply (IZR_le 1); lia).
  pose proof (product_error t (IZR n) (proj1 Bt) Hn') as Er. apply Rabs_le_inv in Er. apply Rabs_le_inv in A.
  assert (E53 : bpow radix2 (-53) = / 2 * bpow radix2 (-52)) by (change (-52)%Z with (1 + -53)%Z; rewrite bpow_plus; change (bpow radix2 1) with 2; field).
  assert (E54 : bpow radix2 (-54) = / 4 * bpow radix2 (-52)) by (change (-52)%Z with (2 + -54)%Z; rewrite bpow_plus; change (bpow radix2 2) with 4; field).
  assert (tn : t * IZR n <= IZR n) by (apply Rle_trans with (1 * IZR n); [apply Rmult_le_compat_r; lra|lra]).
  pose proof (bpow_gt_0 radix2 (-52)) as P52.
  assert (tn' : bpow radix2 (-53) * (t * IZR n) <= bpow radix2 (-53) * IZR n) by (apply Rmult_le_compat_l; [lra|exact tn]).
  assert (A1 : (t - (1 - rval x)) * IZR n <= bpow radix2 (-54) * IZR n) by (apply Rmult_le_compat_r; lra).
  assert (A2 : - bpow radix2 (-54) * IZR n <= (t - (1 - rval x)) * IZR n) by (apply Rmult_le_compat_r; lra).
  assert (Pn : 0 < bpow radix2 (-52) * IZR n) by (apply Rmult_lt_0_compat; lra).
  pose proof (Zceil_ub (rnd64 (t * IZR n))) as C1. fold T in C1. pose proof (Zceil_lb (rnd64 (t * IZR n))) as C2. fold T in C2.
  rewrite E53 in *. rewrite E54 in *.
  destruct (Z.eqb_spec (n - T) 0) as [Q|Q].
  - right. split; [exact E|]. replace T with n in * by lia. lra.
  - left. exists (n - T)%Z, T. split; [exact E|]. split; [lia|]. split; [lia|]. split; [lia|]. rewrite minus_IZR. lra.
Qed.

(** ** 0.7 and 0.9 *)
Definition seven_tenths : f64 := fdiv (f64_of_Z 7) (f64_of_Z 10).
Definition nine_tenths : f64 := fdiv (f64_of_Z 9) (f64_of_Z 10).
Lemma seven_value : rval seven_tenths = IZR 6305039478318694 * bpow radix2 (-53).
Proof. assert (E : seven_tenths = S754_finite false 6305039478318694 (-53)) by (vm_compute; reflexivity). rewrite E. reflexivity. Qed.
Lemma nine_value : rval nine_tenths = IZR 8106479329266893 * bpow radix2 (-53).
Proof. assert (E : nine_tenths = S754_finite false 8106479329266893 (-53)) by (vm_compute; reflexivity). rewrite E. reflexivity. Qed.
Lemma unit_53 : IZR 9007199254740992 * bpow radix2 (-53) = 1.
Proof. replace (IZR 9007199254740992) with (bpow radix2 53) by reflexivity. rewrite <- bpow_plus. reflexivity. Qed.

Lemma sizes_seven m : (1 <= m)%Z -> (10 * m <= 2 ^ 53)%Z -> bootstrap_sizes (10 * m) (FFloat seven_tenths) = Ok (7 * m - 1, 3 * m + 1)%Z.
Proof.
  intros H1 H2. assert (V : valid64 seven_tenths = true) by (vm_compute; reflexivity). assert (F : is_finite64 seven_tenths = true) by (vm_compute; reflexivity).
  pose proof seven_value as E7. pose proof unit_53 as U. set (u := bpow radix2 (-53)) in *. assert (P : 0 < u) by apply bpow_gt_0.
  assert (B : / 2 <= rval seven_tenths < 1) by (rewrite E7; split; lra). assert (Hx : 0 < rval seven_tenths < 1) by lra.
  destruct (complement _ V F Hx) as (_ & _ & _ & Bt & S & _). specialize (S (proj1 B)).
  destruct (sizes_value _ (10 * m) V F Hx ltac:(lia) (complement_below _ V F B)) as [E _].
  set (t := rval (fsub fone seven_tenths)) in *. assert (Hm : 1 <= IZR m) by (apply (IZR_le 1); lia).
  assert (Hm2 : 10 * IZR m <= IZR 9007199254740992) by (rewrite <- (mult_IZR 10); apply IZR_le; exact H2).
  assert (tn : t * IZR (10 * m) = 3 * IZR m + 4 * IZR m * u) by (rewrite S, E7, mult_IZR, <- U; ring_simplify; rewrite <- (Rmult_1_r (3 * IZR m)), <- U; ring).
  pose proof (product_error t (IZR (10 * m)) (proj1 Bt) ltac:(rewrite mult_IZR; lra)) as Er. apply Rabs_le_inv in Er. fold u in Er. rewrite tn in Er.
  assert (um : IZR m * u <= / 10) by (apply Rmult_le_compat_r with (r := u) in Hm2; lra).
  assert (uu : u * (IZR m * u) <= u * / 10) by (apply Rmult_le_compat_l; lra).
  assert (ub : u * 1 <= u * IZR m) by (apply Rmult_le_compat_l; lra).
  assert (T : Zceil (rnd64 (t * IZR (10 * m))) = (3 * m + 1)%Z).
  { apply Zceil_imp. split; [rewrite !minus_IZR, plus_IZR, mult_IZR; rewrite tn; lra|].
    rewrite <- (rnd64_IZR (3 * m + 1)) by lia. apply rnd64_le. rewrite tn, plus_IZR, mult_IZR. lra. }
  rewrite T in E. destruct (Z.eqb_spec (10 * m - (3 * m + 1)) 0); [lia|]. rewrite E. do 2 f_equal. lia.
Qed.
Lemma sizes_nine m : (1 <= m)%Z -> (10 * m <= 2 ^ 53)%Z -> bootstrap_sizes (10 * m) (FFloat nine_tenths) = Ok (9 * m, m)%Z.
Proof.
  intros H1 H2. assert (V : valid64 nine_tenths = true) by (vm_compute; reflexivity). assert (F : is_finite64 nine_tenths = true) by (vm_compute; reflexivity).
  pose proof nine_value as E9. pose proof unit_53 as U. set (u := bpow radix2 (-53)) in *. assert (P : 0 < u) by apply bpow_gt_0.
  assert (B : / 2 <= rval nine_tenths < 1) by (rewrite E9; split; lra). assert (Hx : 0 < rval nine_tenths < 1) by lra.
  destruct (complement _ V F Hx) as (_ & _ & _ & Bt & S & _). specialize (S (proj1 B)).
  destruct (sizes_value _ (10 * m) V F Hx ltac:(lia) (complement_below _ V F B)) as [E _].
  set (t := rval (fsub fone nine_tenths)) in *. assert (Hm : 1 <= IZR m) by (apply (IZR_le 1); lia).
  assert (Hm2 : 10 * IZR m <= IZR 9007199254740992) by (rewrite <- (mult_IZR 10); apply IZR_le; exact H2).
  assert (tn : t * IZR (10 * m) = IZR m - 2 * IZR m * u) by (rewrite S, E9, mult_IZR; transitivity (IZR m * (IZR 9007199254740992 * u) - 2 * IZR m * u + 10 * IZR m * (1 - IZR 9007199254740992 * u)); [ring|rewrite U; ring]).
  pose proof (product_error t (IZR (10 * m)) (proj1 Bt) ltac:(rewrite mult_IZR; lra)) as Er. apply Rabs_le_inv in Er. fold u in Er. rewrite tn in Er.
  assert (um : IZR m * u <= / 10) by (apply Rmult_le_compat_r with (r := u) in Hm2; lra).
  assert (uu : 0 <= u * (IZR m * u)) by (apply Rmult_le_pos; [lra|apply Rmult_le_pos; lra]).
  assert (T : Zceil (rnd64 (t * IZR (10 * m))) = m).
  { apply Zceil_imp. split; [rewrite !minus_IZR; rewrite tn; lra|].
    apply Rle_trans with (rnd64 (IZR m)); [|apply Req_le, rnd64_IZR; lia]. apply rnd64_le. rewrite tn. assert (0 <= IZR m * u) by (apply Rmult_le_pos; lra). lra. }
  rewrite T in E. destruct (Z.eqb_spec (10 * m - m) 0); [lia|]. rewrite E. do 2 f_equal. lia.
Qed.

Lemma sizes_any_tenth : rval (fdiv (f64_of_Z 1) (f64_of_Z 10)) = IZR 7205759403792794 * bpow radix2 (-56) /\ / IZR (2 ^ 54) < IZR 7205759403792794 * bpow radix2 (-56) < 1.
Proof.
  split.
  - assert (E : fdiv (f64_of_Z 1) (f64_of_Z 10) = S754_finite false 7205759403792794 (-56)) by (vm_compute; reflexivity). rewrite E. reflexivity.
  - change (/ IZR (2 ^ 54)) with (bpow radix2 (-54)). change (-54)%Z with (2 + -56)%Z. rewrite bpow_plus. change (bpow radix2 2) with 4.
    assert (U : IZR 72057594037927936 * bpow radix2 (-56) = 1) by (replace (IZR 72057594037927936) with (bpow radix2 56) by reflexivity; rewrite <- bpow_plus; reflexivity).
    pose proof (bpow_gt_0 radix2 (-56)). split; lra.
Qed.
Lemma cur_half x n : valid64 x = true -> is_finite64 x = true -> / 2 <= rval x < 1 -> (2 <= n <= 2 ^ 53)%Z ->
  exists rows, cur_rows n (FFloat x) = Ok rows /\ (1 <= rows < n)%Z /\ rval x * IZR n - 1 < IZR rows /\ IZR rows <= rval x * IZR n + bpow radix2 (-53) * IZR n.
Proof.
  intros V F B Hn. destruct (sizes_half x n V F B Hn) as (train & test & k & E & S & P1 & P2 & K & C).
  exists train. unfold cur_rows, is_one. assert (Ne : feqb x fone = false).
  { destruct (feqb x fone) eqn:Q; [|reflexivity]. destruct fone_value as (E1 & F1 & V1).
    destruct (valid64_B2SF fone V1) as [b1 B1]. rewrite <- B1 in *. lift64 x V. rewrite !is_finite64_B2SF, !rval_B2SF in *.
    change (feqb (B2SF b) (B2SF b1)) with (Beqb b b1) in Q. rewrite Beqb_correct in Q by assumption. destruct (Req_bool_spec (B2R b) (B2R b1)); [lra|discriminate]. }
  rewrite Ne, E. cbn [bind fst]. split; [reflexivity|]. split; [lia|]. assert (Pn : 2 <= IZR n) by (apply (IZR_le 2); lia). pose proof (bpow_gt_0 radix2 (-53)) as P.
  destruct C as [->|[-> C]].
  - split; [lra|]. assert (0 <= bpow radix2 (-53) * IZR n) by (apply Rmult_le_pos; lra). lra.
  - rewrite plus_IZR. split; [lra|]. assert (bpow radix2 (-53) * ((1 - rval x) * IZR n) <= bpow radix2 (-53) * IZR n); [|lra].
    apply Rmult_le_compat_l; [lra|]. apply Rle_trans with (1 * IZR n); [apply Rmult_le_compat_r; lra|lra].
Qed.
