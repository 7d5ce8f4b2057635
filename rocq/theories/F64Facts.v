(** Bridge between the executable binary64 operations and real arithmetic with
    rounding (Flocq). *)
From Coq Require Import ZArith Reals Bool List Lia Lra Floats.SpecFloat.
From Flocq Require Import Core.
From Flocq Require Import IEEE754.BinarySingleNaN.
From Verif Require Import F64.
Import ListNotations.
Local Open Scope Z_scope.

Lemma prec64_gt_0 : Prec_gt_0 prec64.
Proof. reflexivity. Qed.
Lemma prec64_lt_emax64 : Prec_lt_emax prec64 emax64.
Proof. reflexivity. Qed.

#[export] Existing Instance prec64_gt_0.
#[export] Existing Instance prec64_lt_emax64.

Notation bf := (binary_float prec64 emax64).
Notation fexp64 := (SpecFloat.fexp prec64 emax64).

(** Real value of a finite double (0 for infinities and NaN). *)
Definition rval (x : f64) : R := SF2R radix2 x.

(** Rounding to nearest even in binary64, without overflow. *)
Definition rnd64 (r : R) : R := round radix2 fexp64 ZnearestE r.

#[export] Instance fexp64_valid : Valid_exp fexp64 := FLT_exp_valid (SpecFloat.emin prec64 emax64) prec64.
#[export] Instance fexp64_mono : Monotone_exp fexp64 := FLT_exp_monotone (SpecFloat.emin prec64 emax64) prec64.

(** Overflow threshold: rounded values of this magnitude become infinite. *)
Definition fmax64 : R := bpow radix2 emax64.

Lemma round_nearest_even_equiv s m l :
  round_nearest_even m l = choice_mode mode_NE s m l.
Proof.
  case l; [reflexivity|intro c].
  case c; [ | reflexivity..].
  now simpl; unfold Round.cond_incr; case Z.even.
Qed.

Lemma binary_round_aux_equiv sx mx ex lx :
  SpecFloat.binary_round_aux prec64 emax64 sx mx ex lx
  = binary_round_aux prec64 emax64 mode_NE sx mx ex lx.
Proof.
  unfold SpecFloat.binary_round_aux, binary_round_aux.
  set (mrse' := shr_fexp _ _ _ _ _).
  case mrse'; intros mrs' e'; simpl.
  now rewrite (round_nearest_even_equiv sx).
Qed.

Lemma binary_round_equiv s m e :
  SpecFloat.binary_round prec64 emax64 s m e =
  binary_round prec64 emax64 mode_NE s m e.
Proof.
  unfold SpecFloat.binary_round, binary_round, shl_align_fexp.
  set (mez := shl_align _ _ _); case mez as [mz ez].
  apply binary_round_aux_equiv.
Qed.

Lemma binary_normalize_equiv m e szero :
  SpecFloat.binary_normalize prec64 emax64 m e szero
  = B2SF (binary_normalize prec64 emax64 _ _ mode_NE m e szero).
Proof.
  case m as [ | p | p].
  - now simpl.
  - simpl; rewrite B2SF_SF2B; apply binary_round_equiv.
  - simpl; rewrite B2SF_SF2B; apply binary_round_equiv.
Qed.

Lemma fmul_B2SF (x y : bf) : fmul (B2SF x) (B2SF y) = B2SF (Bmult mode_NE x y).
Proof.
  destruct x as [sx|sx| |sx mx ex Bx], y as [sy|sy| |sy my ey By];
    [now trivial.. | ].
  unfold fmul. simpl. rewrite B2SF_SF2B. apply binary_round_aux_equiv.
Qed.

Lemma fadd_B2SF (x y : bf) : fadd (B2SF x) (B2SF y) = B2SF (Bplus mode_NE x y).
Proof.
  destruct x as [sx|sx| |sx mx ex Bx], y as [sy|sy| |sy my ey By];
    [now (trivial || unfold fadd; simpl; case Bool.eqb) .. | ].
  apply binary_normalize_equiv.
Qed.

Lemma fsub_B2SF (x y : bf) : fsub (B2SF x) (B2SF y) = B2SF (Bminus mode_NE x y).
Proof.
  destruct x as [sx|sx| |sx mx ex Bx], y as [sy|sy| |sy my ey By];
    [now (trivial || unfold fsub; simpl; case Bool.eqb) .. | ].
  unfold fsub. simpl. unfold Zminus. rewrite <- cond_Zopp_negb.
  apply binary_normalize_equiv.
Qed.

Lemma fdiv_B2SF (x y : bf) : fdiv (B2SF x) (B2SF y) = B2SF (Bdiv mode_NE x y).
Proof.
  destruct x as [sx|sx| |sx mx ex Bx], y as [sy|sy| |sy my ey By];
    [now (trivial || unfold fdiv; simpl; case Bool.eqb) .. | ].
  unfold fdiv. simpl. rewrite B2SF_SF2B.
  set (melz := SFdiv_core_binary _ _ _ _ _ _).
  case melz as [[mz ez] lz].
  apply binary_round_aux_equiv.
Qed.

(** Every canonical double is the image of a Flocq number. *)
Lemma valid64_B2SF x : valid64 x = true -> exists b : bf, B2SF b = x.
Proof. intro H. exists (SF2B x H). apply B2SF_SF2B. Qed.

Lemma B2SF_valid64 (b : bf) : valid64 (B2SF b) = true.
Proof. apply valid_binary_B2SF. Qed.

Lemma rval_B2SF (b : bf) : rval (B2SF b) = B2R b.
Proof. apply SF2R_B2SF. Qed.

Lemma is_finite64_B2SF (b : bf) : is_finite64 (B2SF b) = is_finite b.
Proof. now destruct b. Qed.

Lemma is_nan64_B2SF (b : bf) : is_nan64 (B2SF b) = is_nan b.
Proof. now destruct b. Qed.

Ltac lift64 x H :=
  let b := fresh "b" in let E := fresh "E" in
  destruct (valid64_B2SF x H) as [b E]; subst x; clear H.

Lemma fmul_valid x y : valid64 x = true -> valid64 y = true ->
  valid64 (fmul x y) = true.
Proof. intros Hx Hy. lift64 x Hx. lift64 y Hy. rewrite fmul_B2SF. apply B2SF_valid64. Qed.
Lemma fadd_valid x y : valid64 x = true -> valid64 y = true ->
  valid64 (fadd x y) = true.
Proof. intros Hx Hy. lift64 x Hx. lift64 y Hy. rewrite fadd_B2SF. apply B2SF_valid64. Qed.
Lemma fsub_valid x y : valid64 x = true -> valid64 y = true ->
  valid64 (fsub x y) = true.
Proof. intros Hx Hy. lift64 x Hx. lift64 y Hy. rewrite fsub_B2SF. apply B2SF_valid64. Qed.
Lemma fdiv_valid x y : valid64 x = true -> valid64 y = true ->
  valid64 (fdiv x y) = true.
Proof. intros Hx Hy. lift64 x Hx. lift64 y Hy. rewrite fdiv_B2SF. apply B2SF_valid64. Qed.
Lemma f64_of_Z_valid z : valid64 (f64_of_Z z) = true.
Proof. unfold f64_of_Z. rewrite binary_normalize_equiv. apply B2SF_valid64. Qed.

(** Multiplication: correctly rounded, or an infinity on overflow. *)
Lemma fmul_correct x y :
  valid64 x = true -> valid64 y = true ->
  is_finite64 x = true -> is_finite64 y = true ->
  (Rabs (rnd64 (rval x * rval y)) < fmax64)%R ->
  rval (fmul x y) = rnd64 (rval x * rval y) /\ is_finite64 (fmul x y) = true.
Proof.
  intros Hx Hy Fx Fy Hlt. lift64 x Hx. lift64 y Hy.
  rewrite fmul_B2SF, !rval_B2SF, !is_finite64_B2SF in *.
  generalize (Bmult_correct prec64 emax64 _ _ mode_NE b b0).
  unfold rnd64, fmax64 in *. simpl round_mode.
  rewrite Rlt_bool_true by exact Hlt.
  intros (H1 & H2 & _). rewrite H1, H2, Fx, Fy. now split.
Qed.

Lemma fmul_overflow x y :
  valid64 x = true -> valid64 y = true ->
  (fmax64 <= Rabs (rnd64 (rval x * rval y)))%R ->
  exists s, fmul x y = S754_infinity s.
Proof.
  intros Hx Hy Hle. lift64 x Hx. lift64 y Hy.
  rewrite fmul_B2SF, !rval_B2SF in *.
  generalize (Bmult_correct prec64 emax64 _ _ mode_NE b b0).
  unfold rnd64, fmax64 in *. simpl round_mode.
  rewrite Rlt_bool_false by exact Hle.
  intros ->. unfold binary_overflow. simpl. eexists; reflexivity.
Qed.

Lemma fadd_correct x y :
  valid64 x = true -> valid64 y = true ->
  is_finite64 x = true -> is_finite64 y = true ->
  (Rabs (rnd64 (rval x + rval y)) < fmax64)%R ->
  rval (fadd x y) = rnd64 (rval x + rval y) /\ is_finite64 (fadd x y) = true.
Proof.
  intros Hx Hy Fx Fy Hlt. lift64 x Hx. lift64 y Hy.
  rewrite fadd_B2SF, !rval_B2SF, !is_finite64_B2SF in *.
  generalize (Bplus_correct prec64 emax64 _ _ mode_NE b b0 Fx Fy).
  unfold rnd64, fmax64 in *. simpl round_mode.
  rewrite Rlt_bool_true by exact Hlt.
  intros (H1 & H2 & _). rewrite H1, H2. now split.
Qed.

(** Values of doubles are fixed points of rounding. *)
Lemma rnd64_rval x : valid64 x = true -> rnd64 (rval x) = rval x.
Proof.
  intro Hx. lift64 x Hx. rewrite rval_B2SF. unfold rnd64.
  apply round_generic; [typeclasses eauto|]. apply generic_format_B2R.
Qed.

Lemma rnd64_le a b : (a <= b)%R -> (rnd64 a <= rnd64 b)%R.
Proof. intro H. unfold rnd64. apply round_le; try typeclasses eauto. exact H. Qed.

Lemma rnd64_0 : rnd64 0 = 0%R.
Proof. unfold rnd64. apply round_0. typeclasses eauto. Qed.

(** Integers up to 2^53 are exact. *)
Lemma format_small_Z z : Z.abs z <= 2 ^ 53 -> generic_format radix2 fexp64 (IZR z).
Proof.
  intro H.
  destruct (Z.eq_dec (Z.abs z) (2^53)) as [E|NE].
  - assert (G : generic_format radix2 fexp64 (bpow radix2 53)).
    { apply generic_format_bpow. unfold SpecFloat.fexp, SpecFloat.emin, prec64, emax64. lia. }
    assert (E2 : bpow radix2 53 = IZR (2^53)) by reflexivity.
    rewrite E2, <- E in G.
    destruct (Z.abs_eq_or_opp z) as [E1|E1]; rewrite E1 in G; [exact G|].
    rewrite opp_IZR in G. replace (IZR z) with (- - IZR z)%R by ring.
    now apply generic_format_opp.
  - replace fexp64 with (FLT_exp (SpecFloat.emin prec64 emax64) prec64) by reflexivity.
    apply generic_format_FLT.
    exists (Float radix2 z 0).
    + unfold F2R. simpl. ring.
    + simpl. unfold prec64. change (Z.pow_pos 2 53) with (2^53). lia.
    + simpl. unfold SpecFloat.emin, prec64, emax64. lia.
Qed.

Lemma rnd64_IZR z : Z.abs z <= 2 ^ 53 -> rnd64 (IZR z) = IZR z.
Proof.
  intro H. unfold rnd64. apply round_generic; [typeclasses eauto|].
  now apply format_small_Z.
Qed.

Lemma IZR_lt_fmax64 z : Z.abs z <= 2 ^ 53 -> (Rabs (IZR z) < fmax64)%R.
Proof.
  intro H. rewrite <- abs_IZR. unfold fmax64, emax64.
  apply Rle_lt_trans with (IZR (2^53)). { now apply IZR_le. }
  change (IZR (2^53)) with (bpow radix2 53). now apply bpow_lt.
Qed.

Lemma f64_of_Z_correct z : Z.abs z <= 2 ^ 53 ->
  rval (f64_of_Z z) = IZR z /\ is_finite64 (f64_of_Z z) = true.
Proof.
  intro H. unfold f64_of_Z. rewrite binary_normalize_equiv.
  rewrite rval_B2SF, is_finite64_B2SF.
  generalize (binary_normalize_correct prec64 emax64 _ _ mode_NE z 0 false).
  cbv zeta. simpl round_mode.
  assert (E : F2R (Float radix2 z 0) = IZR z) by (unfold F2R; simpl; ring).
  rewrite E. fold (rnd64 (IZR z)). rewrite rnd64_IZR by exact H.
  rewrite Rlt_bool_true by (now apply IZR_lt_fmax64).
  intros (H1 & H2 & _). now split.
Qed.

(** Truncation. *)
Lemma ftrunc_correct x : is_finite64 x = true ->
  ftrunc x = Some (Ztrunc (rval x)).
Proof.
  destruct x as [s|s| |s m e]; try discriminate; intros _; unfold rval; simpl.
  - now rewrite Ztrunc_IZR.
  - f_equal. unfold F2R. simpl.
    assert (K : forall a : Z, Ztrunc (IZR (cond_Zopp s a)) = if s then - a else a).
    { intro a. rewrite Ztrunc_IZR. now destruct s. }
    destruct (Z.leb_spec 0 e).
    + rewrite <- K. f_equal.
      replace (bpow radix2 e) with (IZR (2 ^ e)).
      * rewrite <- mult_IZR. f_equal. destruct s; unfold cond_Zopp; [|reflexivity].
        change (- (Z.pos m * 2 ^ e) = - Z.pos m * 2 ^ e). ring.
      * rewrite (IZR_Zpower radix2) by lia. reflexivity.
    + assert (Hb : bpow radix2 e = (/ IZR (2 ^ (- e)))%R).
      { rewrite (IZR_Zpower radix2) by lia. rewrite <- bpow_opp.
        f_equal. lia. }
      assert (Hpos : (0 < IZR (2 ^ - e))%R).
      { apply IZR_lt. apply Z.pow_pos_nonneg; lia. }
      assert (Q : Ztrunc (IZR (Z.pos m) * bpow radix2 e) = Z.pos m / 2 ^ (- e)).
      { rewrite Ztrunc_floor.
        - rewrite Hb. apply Zfloor_div. intro C. rewrite C in Hpos.
          now apply Rlt_irrefl in Hpos.
        - apply Rmult_le_pos; [now apply IZR_le|]. apply bpow_ge_0. }
      destruct s; simpl cond_Zopp.
      * change (Z.neg m) with (- Z.pos m). rewrite opp_IZR.
        rewrite Ropp_mult_distr_l_reverse, Ztrunc_opp, Q. reflexivity.
      * now rewrite Q.
Qed.

Lemma ftrunc_not_finite x : is_finite64 x = false -> ftrunc x = None.
Proof. destruct x; simpl; congruence. Qed.

(** Comparisons of finite doubles agree with the reals. *)
Lemma fleb_correct x y :
  valid64 x = true -> valid64 y = true ->
  is_finite64 x = true -> is_finite64 y = true ->
  fleb x y = true <-> (rval x <= rval y)%R.
Proof.
  intros Hx Hy Fx Fy. lift64 x Hx. lift64 y Hy.
  rewrite !rval_B2SF, !is_finite64_B2SF in *.
  change (fleb (B2SF b) (B2SF b0)) with (Bleb b b0).
  rewrite Bleb_correct by assumption.
  destruct (Rle_bool_spec (B2R b) (B2R b0)); split; intros; try easy; lra.
Qed.

Lemma fltb_correct x y :
  valid64 x = true -> valid64 y = true ->
  is_finite64 x = true -> is_finite64 y = true ->
  fltb x y = true <-> (rval x < rval y)%R.
Proof.
  intros Hx Hy Fx Fy. lift64 x Hx. lift64 y Hy.
  rewrite !rval_B2SF, !is_finite64_B2SF in *.
  change (fltb (B2SF b) (B2SF b0)) with (Bltb b b0).
  rewrite Bltb_correct by assumption.
  destruct (Rlt_bool_spec (B2R b) (B2R b0)); split; intros; try easy; lra.
Qed.

Lemma fmul_comm x y : fmul x y = fmul y x.
Proof.
  unfold fmul, SFmul.
  destruct x as [sx|sx| |sx mx ex], y as [sy|sy| |sy my ey]; try reflexivity;
    try (now rewrite xorb_comm).
  rewrite (xorb_comm sx sy), Pos.mul_comm, Z.add_comm. reflexivity.
Qed.
