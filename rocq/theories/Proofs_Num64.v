(** Signs and order under rounding. *)
From Coq Require Import ZArith Reals Bool List Lia Lra Floats.SpecFloat.
From Flocq Require Import Core IEEE754.BinarySingleNaN.
From Verif Require Import F64 F64Facts F64Order Num Num64.
Import ListNotations.

(** ** The operations of [Bnum] and of [Fnum] agree *)
Lemma fsqrt_B2SF (x : bf) : fsqrt (B2SF x) = B2SF (Bsqrt mode_NE x).
Proof.
  destruct x as [s|[]| |[] m e H]; try reflexivity.
  unfold fsqrt. simpl. rewrite B2SF_SF2B.
  set (melz := SFsqrt_core_binary _ _ _ _). case melz as [[mz ez] lz].
  apply binary_round_aux_equiv.
Qed.

Section Agree.
  Variables eb lb : bf -> bf.
  Variables ef lf : f64 -> f64.
  Notation BN := (Bnum eb lb).
  Notation FN := (Fnum ef lf).
  Lemma operations_agree (x y : bf) (z : Z) :
    B2SF (nadd (n := BN) x y) = nadd (n := FN) (B2SF x) (B2SF y) /\
    B2SF (nsub (n := BN) x y) = nsub (n := FN) (B2SF x) (B2SF y) /\
    B2SF (nmul (n := BN) x y) = nmul (n := FN) (B2SF x) (B2SF y) /\
    B2SF (ndiv (n := BN) x y) = ndiv (n := FN) (B2SF x) (B2SF y) /\
    B2SF (nopp (n := BN) x) = nopp (n := FN) (B2SF x) /\
    B2SF (nabs (n := BN) x) = nabs (n := FN) (B2SF x) /\
    B2SF (nsqrt (n := BN) x) = nsqrt (n := FN) (B2SF x) /\
    B2SF (nofZ (n := BN) z) = nofZ (n := FN) z /\
    nleb (n := BN) x y = nleb (n := FN) (B2SF x) (B2SF y) /\
    nltb (n := BN) x y = nltb (n := FN) (B2SF x) (B2SF y) /\
    neqb (n := BN) x y = neqb (n := FN) (B2SF x) (B2SF y).
  Proof.
    cbn [nadd nsub nmul ndiv nopp nabs nsqrt nofZ nleb nltb neqb Bnum Fnum].
    rewrite fadd_B2SF, fsub_B2SF, fmul_B2SF, fdiv_B2SF, fsqrt_B2SF.
    repeat split.
    - now destruct x.
    - now destruct x.
    - unfold f64_of_Z. now rewrite binary_normalize_equiv.
  Qed.
End Agree.

(** ** Signs.  NaN counts as both. *)
Definition nneg (x : bf) : bool :=
  match x with B754_infinity true | B754_finite true _ _ _ => false | _ => true end.
Definition npos (x : bf) : bool :=
  match x with B754_infinity false | B754_finite false _ _ _ => false | _ => true end.
(** [sg x]: not positive if [s], not negative otherwise. *)
Definition sgn (s : bool) (x : bf) : bool := if s then npos x else nneg x.

Definition rn (r : R) : R := round radix2 fexp64 ZnearestE r.
Lemma rn_le a b : (a <= b)%R -> (rn a <= rn b)%R.
Proof. exact (rnd64_le a b). Qed.
Lemma rn_0 : rn 0 = 0%R.
Proof. exact rnd64_0. Qed.
Lemma rn_B2R (x : bf) : rn (B2R x) = B2R x.
Proof. unfold rn. apply round_generic; [typeclasses eauto|apply generic_format_B2R]. Qed.

Lemma finite_neg m e : (F2R (Float radix2 (Z.neg m) e) < 0)%R.
Proof. now apply F2R_lt_0. Qed.
Lemma finite_pos m e : (0 < F2R (Float radix2 (Z.pos m) e))%R.
Proof. now apply F2R_gt_0. Qed.

Lemma nneg_value (x : bf) : is_finite x = true -> nneg x = true <-> (0 <= B2R x)%R.
Proof.
  destruct x as [s|s| |[] m e H]; try discriminate; intros _; cbn [nneg B2R].
  - split; intros; [lra|reflexivity].
  - split; [discriminate|]. intros Q. exfalso. pose proof (finite_neg m e) as K.
    cbn [cond_Zopp Z.opp] in Q. lra.
  - split; [|reflexivity]. intros _. left. apply finite_pos.
Qed.
Lemma npos_value (x : bf) : is_finite x = true -> npos x = true <-> (B2R x <= 0)%R.
Proof.
  destruct x as [s|s| |[] m e H]; try discriminate; intros _; cbn [npos B2R].
  - split; intros; [lra|reflexivity].
  - split; [|reflexivity]. intros _. left. apply finite_neg.
  - split; [discriminate|]. intros Q. exfalso. pose proof (finite_pos m e) as K.
    cbn [cond_Zopp] in Q. lra.
Qed.
Lemma sgn_value s (x : bf) : is_finite x = true -> sgn s x = true <-> (if s then (B2R x <= 0)%R else (0 <= B2R x)%R).
Proof. destruct s; [apply npos_value|apply nneg_value]. Qed.
Lemma sgn_inf s t : sgn s (B754_infinity t : bf) = Bool.eqb s t.
Proof. destruct s, t; reflexivity. Qed.
Lemma sgn_nan s (x : bf) : is_nan x = true -> sgn s x = true.
Proof. destruct x; try discriminate. destruct s; reflexivity. Qed.
Lemma sgn_zero s t : sgn s (B754_zero t : bf) = true.
Proof. destruct s; reflexivity. Qed.

Lemma B2SF_inf (x : bf) s : B2SF x = S754_infinity s -> x = B754_infinity s.
Proof. destruct x; try discriminate. cbn. congruence. Qed.

(** Products. *)
Lemma mul_sgn s t (a b : bf) : sgn s a = true -> sgn t b = true -> sgn (xorb s t) (Bmult mode_NE a b) = true.
Proof.
  intros Ha Hb.
  destruct (is_finite a) eqn:Fa.
  2:{ destruct a as [|sa| |]; try discriminate Fa; [|apply sgn_nan; now destruct b].
      rewrite sgn_inf in Ha. apply eqb_prop in Ha. subst sa.
      destruct b as [sb|sb| |sb m e H]; cbn [Bmult].
      - now apply sgn_nan.
      - rewrite sgn_inf in Hb. apply eqb_prop in Hb. subst sb. rewrite sgn_inf. apply eqb_reflx.
      - now apply sgn_nan.
      - assert (sb = t) as -> by (destruct t, sb; try reflexivity; discriminate Hb). rewrite sgn_inf. apply eqb_reflx. }
  destruct (is_finite b) eqn:Fb.
  2:{ destruct b as [|sb| |]; try discriminate Fb; [|apply sgn_nan; now destruct a].
      rewrite sgn_inf in Hb. apply eqb_prop in Hb. subst sb.
      destruct a as [sa|sa| |sa m e H]; try discriminate Fa; cbn [Bmult].
      - now apply sgn_nan.
      - assert (sa = s) as -> by (destruct s, sa; try reflexivity; discriminate Ha). rewrite sgn_inf. apply eqb_reflx. }
  pose proof (proj1 (sgn_value s a Fa) Ha) as Va. pose proof (proj1 (sgn_value t b Fb) Hb) as Vb.
  pose proof (Bmult_correct prec64 emax64 _ _ mode_NE a b) as C. simpl round_mode in C.
  destruct (Rlt_bool _ _) in C.
  - destruct C as (C1 & C2 & _). rewrite Fa, Fb in C2. cbn [andb] in C2.
    apply sgn_value; [exact C2|]. rewrite C1. fold (rn (B2R a * B2R b)). rewrite <- rn_0.
    destruct s, t; cbn [xorb] in *; apply rn_le; nra.
  - unfold binary_overflow in C. cbn in C. apply B2SF_inf in C. rewrite C, sgn_inf.
    destruct a as [sa|sa| |sa ma ea Hma]; try discriminate Fa; destruct b as [sb|sb| |sb mb eb Hmb]; try discriminate Fb; try discriminate C.
    cbn [Bsign]. assert (sa = s) as -> by (destruct s, sa; try reflexivity; discriminate Ha).
    assert (sb = t) as -> by (destruct t, sb; try reflexivity; discriminate Hb). apply eqb_reflx.
Qed.

(** Comparisons with values. *)
Lemma Bleb_value (x y : bf) : is_finite x = true -> is_finite y = true -> Bleb x y = true <-> (B2R x <= B2R y)%R.
Proof.
  intros Fx Fy. rewrite Bleb_correct by assumption. destruct (Rle_bool_spec (B2R x) (B2R y)); split; intros; try easy; lra.
Qed.
Lemma Bleb_trans (x y z : bf) : Bleb x y = true -> Bleb y z = true -> Bleb x z = true.
Proof. exact (fleb_trans (B2SF x) (B2SF y) (B2SF z)). Qed.
Lemma Bleb_not_nan (x y : bf) : Bleb x y = true -> is_nan x = false /\ is_nan y = false.
Proof. intros H. rewrite <- !is_nan64_B2SF. exact (fleb_not_nan (B2SF x) (B2SF y) H). Qed.
Lemma Bleb_refl (x : bf) : is_nan x = false -> Bleb x x = true.
Proof. intros H. rewrite <- is_nan64_B2SF in H. exact (fleb_refl (B2SF x) H). Qed.

(** Adding a number of known sign moves in the direction of the sign. *)
Definition moved (s : bool) (x y : bf) : Prop := is_nan y = true \/ (if s then Bleb y x else Bleb x y) = true.

Lemma inf_top (x : bf) : is_nan x = false -> Bleb x (B754_infinity false) = true.
Proof. destruct x as [[]|[]| |[] m e H]; try reflexivity; discriminate. Qed.
Lemma inf_bottom (x : bf) : is_nan x = false -> Bleb (B754_infinity true) x = true.
Proof. destruct x as [[]|[]| |[] m e H]; try reflexivity; discriminate. Qed.

Lemma add_moved s (a b : bf) : sgn s b = true -> moved s a (Bplus mode_NE a b).
Proof.
  intros Hb. unfold moved.
  destruct (is_nan (Bplus mode_NE a b)) eqn:Nn; [now left|right].
  destruct (is_finite a) eqn:Fa.
  2:{ destruct a as [|sa| |]; try discriminate Fa; [|destruct b; discriminate Nn].
      assert (E : Bplus mode_NE (B754_infinity sa) b = B754_infinity sa \/ is_nan (Bplus mode_NE (B754_infinity sa) b) = true).
      { destruct b as [sb|sb| |sb m e H]; cbn [Bplus]; auto. destruct (Bool.eqb sa sb); auto. }
      destruct E as [E|E]; [|congruence]. rewrite E. destruct s, sa; reflexivity. }
  destruct (is_finite b) eqn:Fb.
  2:{ destruct b as [|sb| |]; try discriminate Fb; [|destruct a; discriminate Nn].
      rewrite sgn_inf in Hb. apply eqb_prop in Hb. subst sb.
      assert (E : Bplus mode_NE a (B754_infinity s) = B754_infinity s) by (destruct a; try discriminate Fa; reflexivity).
      rewrite E. destruct s; [apply inf_bottom|apply inf_top]; now destruct a. }
  pose proof (proj1 (sgn_value s b Fb) Hb) as Vb.
  pose proof (Bplus_correct prec64 emax64 _ _ mode_NE a b Fa Fb) as C. simpl round_mode in C.
  destruct (Rlt_bool_spec (Rabs (round radix2 fexp64 ZnearestE (B2R a + B2R b))) (bpow radix2 emax64)) as [L|L].
  - destruct C as (C1 & C2 & _). fold (rn (B2R a + B2R b)) in C1.
    pose proof (rn_B2R a) as Ra.
    assert (V : if s then (rn (B2R a + B2R b) <= rn (B2R a))%R else (rn (B2R a) <= rn (B2R a + B2R b))%R)
      by (destruct s; apply rn_le; lra).
    destruct s; apply Bleb_value; auto; lra.
  - destruct C as [C1 C2]. unfold binary_overflow in C1. cbn in C1. apply B2SF_inf in C1. rewrite C1.
    destruct (Bool.bool_dec (Bsign a) s) as [E|E].
    + rewrite E. destruct s; [apply inf_bottom|apply inf_top]; now destruct a.
    + exfalso. assert (Zb : B2R b = 0%R).
      { destruct b as [sb|sb| |sb m e H]; try discriminate Fb; [reflexivity|]. exfalso. apply E. rewrite C2. cbn [Bsign].
        destruct s, sb; try reflexivity; discriminate Hb. }
      rewrite Zb, Rplus_0_r in L. fold (rn (B2R a)) in L. rewrite rn_B2R in L.
      pose proof (abs_B2R_lt_emax prec64 emax64 a). lra.
Qed.

(** Sums of two numbers with the same sign. *)
Lemma add_sgn s (a b : bf) : sgn s a = true -> sgn s b = true -> sgn s (Bplus mode_NE a b) = true.
Proof.
  intros Ha Hb. destruct (add_moved s a b Hb) as [N|M]; [now apply sgn_nan|].
  destruct (is_nan (Bplus mode_NE a b)) eqn:Nn; [now apply sgn_nan|].
  set (y := Bplus mode_NE a b) in *. clearbody y. clear Hb.
  destruct s; cbn [sgn] in *.
  - destruct a as [[]|[]| |[] m e H]; try discriminate Ha; destruct y as [[]|[]| |[] m' e' H']; try reflexivity; discriminate.
  - destruct a as [[]|[]| |[] m e H]; try discriminate Ha; destruct y as [[]|[]| |[] m' e' H']; try reflexivity; discriminate.
Qed.

(** Differences of ordered numbers. *)
Lemma sub_moved s (x y : bf) : moved s x y -> sgn s (Bminus mode_NE y x) = true.
Proof.
  intros [N|M]; [apply sgn_nan; destruct y; try discriminate N; now destruct x|].
  destruct (is_finite x) eqn:Fx.
  2:{ destruct x as [|sx| |]; try discriminate Fx.
      - destruct y as [sy|sy| |sy m e H]; cbn [Bminus].
        + rewrite sgn_inf. destruct s, sx, sy; try reflexivity; discriminate M.
        + destruct (Bool.eqb sy (negb sx)) eqn:E; [|now apply sgn_nan]. apply eqb_prop in E. subst sy. rewrite sgn_inf.
          destruct s, sx; try reflexivity; discriminate M.
        + now apply sgn_nan.
        + rewrite sgn_inf. destruct s, sx, sy; try reflexivity; discriminate M.
      - destruct s, y; discriminate M. }
  destruct (is_finite y) eqn:Fy.
  2:{ destruct y as [|sy| |]; try discriminate Fy.
      - assert (E : Bminus mode_NE (B754_infinity sy) x = B754_infinity sy) by (destruct x; try discriminate Fx; reflexivity).
        rewrite E, sgn_inf. destruct s, sy; try reflexivity; destruct x as [[]| | |[]]; try discriminate Fx; discriminate M.
      - destruct s, x; discriminate M. }
  pose proof (Bminus_correct prec64 emax64 _ _ mode_NE y x Fy Fx) as C. simpl round_mode in C.
  assert (V : if s then (B2R y - B2R x <= 0)%R else (0 <= B2R y - B2R x)%R).
  { destruct s; apply Bleb_value in M; auto; lra. }
  destruct (Rlt_bool_spec (Rabs (round radix2 fexp64 ZnearestE (B2R y - B2R x))) (bpow radix2 emax64)) as [L|L].
  - destruct C as (C1 & C2 & _). apply sgn_value; [exact C2|]. rewrite C1. fold (rn (B2R y - B2R x)).
    rewrite <- rn_0. destruct s; apply rn_le; exact V.
  - destruct C as [C1 C2]. unfold binary_overflow in C1. cbn in C1. apply B2SF_inf in C1. rewrite C1, sgn_inf.
    destruct (Bool.bool_dec (Bsign y) s) as [E|E]; [rewrite E; apply eqb_reflx|]. exfalso.
    assert (V2 : (if s then (0 <= B2R y /\ B2R x <= 0) else (B2R y <= 0 /\ 0 <= B2R x))%R).
    { assert (Ey : Bsign y = negb s) by (destruct s, (Bsign y); try reflexivity; congruence).
      assert (Ex : Bsign x = s) by (rewrite Ey in C2; destruct s, (Bsign x); try reflexivity; discriminate C2).
      destruct s; cbn [negb] in Ey; split.
      - apply nneg_value; [exact Fy|]. destruct y as [| | |[]]; try discriminate Fy; try reflexivity; discriminate Ey.
      - apply npos_value; [exact Fx|]. destruct x as [| | |[]]; try discriminate Fx; try reflexivity; discriminate Ex.
      - apply npos_value; [exact Fy|]. destruct y as [| | |[]]; try discriminate Fy; try reflexivity; discriminate Ey.
      - apply nneg_value; [exact Fx|]. destruct x as [| | |[]]; try discriminate Fx; try reflexivity; discriminate Ex. }
    assert (Z : (B2R y - B2R x = 0)%R) by (destruct s; lra).
    rewrite Z in L. fold (rn 0) in L. rewrite rn_0, Rabs_R0 in L. pose proof (bpow_gt_0 radix2 emax64). lra.
Qed.
