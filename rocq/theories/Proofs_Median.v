(** Proofs about the median of the bootstrap estimates (C103). *)
From Coq Require Import ZArith Reals List Bool Arith Lia Lra Permutation Floats.SpecFloat.
From Flocq Require Import Core Mult_error IEEE754.BinarySingleNaN.
From Verif Require Import Prelude F64 F64Facts F64Order Model_Mpi Spec_Mpi Model_Fit Spec_Fit
  Proofs_Fit Proofs_FitProps Proofs_FitFind Spec_Median.
Import ListNotations.

(** * Counting in sorted lists *)
Lemma howmany_perm {A} (p : A -> bool) l s : Permutation l s -> howmany p l = howmany p s.
Proof.
  unfold howmany. induction 1; simpl; auto; try congruence.
  - destruct (p x); simpl; congruence.
  - destruct (p x), (p y); reflexivity.
Qed.

Lemma howmany_le {A} (p q : A -> bool) l : (forall x, p x = true -> q x = true) ->
  howmany p l <= howmany q l.
Proof.
  intro H. unfold howmany. induction l as [|x l IH]; simpl; auto.
  destruct (p x) eqn:E; [rewrite (H _ E); simpl; lia|]. destruct (q x); simpl; lia.
Qed.

Lemma filter_le {A} (p : A -> bool) l : length (filter p l) <= length l.
Proof. induction l as [|x l IH]; simpl; auto. destruct (p x); simpl; lia. Qed.

Lemma howmany_firstn (p : f64 -> bool) s i : i < length s ->
  (forall j, j <= i -> p (nth j s fnan) = false) -> howmany p s + (i + 1) <= length s.
Proof.
  unfold howmany. revert i. induction s as [|x s IH]; simpl; intros i Hi H; [lia|].
  pose proof (H 0 ltac:(lia)) as H0. simpl in H0. rewrite H0. cbn iota.
  destruct i.
  - pose proof (filter_le p s). lia.
  - specialize (IH i ltac:(lia)). assert (G : forall j, j <= i -> p (nth j s fnan) = false)
      by (intros j Hj; apply (H (Datatypes.S j)); lia).
    specialize (IH G). lia.
Qed.

Lemma howmany_skipn (p : f64 -> bool) s i :
  (forall j, i <= j < length s -> p (nth j s fnan) = false) -> howmany p s <= i.
Proof.
  unfold howmany. revert i. induction s as [|x s IH]; simpl; intros i H; [lia|].
  destruct i.
  - pose proof (H 0 ltac:(lia)) as H0. simpl in H0. rewrite H0. cbn iota.
    apply (IH 0). intros j Hj. apply (H (Datatypes.S j)). lia.
  - assert (G : length (filter p s) <= i)
      by (apply IH; intros j Hj; apply (H (Datatypes.S j)); lia).
    destruct (p x); simpl; lia.
Qed.

Lemma howmany_all_from (p : f64 -> bool) s i :
  (forall j, i <= j < length s -> p (nth j s fnan) = true) -> length s - i <= howmany p s.
Proof.
  unfold howmany. revert i. induction s as [|x s IH]; simpl; intros i H; [lia|].
  destruct i.
  - pose proof (H 0 ltac:(lia)) as H0. simpl in H0. rewrite H0. simpl.
    assert (G : length s - 0 <= length (filter p s))
      by (apply IH; intros j Hj; apply (H (Datatypes.S j)); lia). lia.
  - assert (G : length s - i <= length (filter p s))
      by (apply IH; intros j Hj; apply (H (Datatypes.S j)); lia).
    destruct (p x); simpl; lia.
Qed.

Lemma howmany_all_to (p : f64 -> bool) s i : i <= length s ->
  (forall j, j < i -> p (nth j s fnan) = true) -> i <= howmany p s.
Proof.
  unfold howmany. revert i. induction s as [|x s IH]; simpl; intros i Hi H; [lia|].
  destruct i; [lia|].
  pose proof (H 0 ltac:(lia)) as H0. simpl in H0. rewrite H0. simpl.
  assert (G : i <= length (filter p s))
    by (apply IH; [lia|]; intros j Hj; apply (H (Datatypes.S j)); lia). lia.
Qed.

Section Sorted.
  Variable s : list f64.
  Hypothesis Hs : forall i j, i <= j < length s -> fleb (nth i s fnan) (nth j s fnan) = true.

  Lemma above lo i : i < length s ->
    length s - i <= howmany (fun x => fleb lo x) s -> fleb lo (nth i s fnan) = true.
  Proof.
    intros Hi Hc. destruct (fleb lo (nth i s fnan)) eqn:E; auto. exfalso.
    assert (G : howmany (fun x => fleb lo x) s + (i + 1) <= length s).
    { apply howmany_firstn; auto. intros j Hj. destruct (fleb lo (nth j s fnan)) eqn:E2; auto.
      rewrite (fleb_trans _ _ _ E2 (Hs j i ltac:(lia))) in E. discriminate. }
    lia.
  Qed.

  Lemma below hi i : i < length s ->
    i + 1 <= howmany (fun x => fleb x hi) s -> fleb (nth i s fnan) hi = true.
  Proof.
    intros Hi Hc. destruct (fleb (nth i s fnan) hi) eqn:E; auto. exfalso.
    assert (G : howmany (fun x => fleb x hi) s <= i).
    { apply howmany_skipn; auto. intros j Hj. destruct (fleb (nth j s fnan) hi) eqn:E2; auto.
      rewrite (fleb_trans _ _ _ (Hs i j ltac:(lia)) E2) in E. discriminate. }
    lia.
  Qed.
End Sorted.

(** * The mean of two doubles *)
Lemma between_finite lo hi x : is_finite64 lo = true -> is_finite64 hi = true ->
  within lo hi x = true -> is_finite64 x = true.
Proof.
  unfold within. intros Fl Fh H. apply andb_true_iff in H as [H1 H2].
  destruct x as [sx|[]| |sx mx ex]; auto; exfalso.
  - destruct lo as [sl|[]| |[] ml el]; discriminate.
  - destruct hi as [sl|[]| |[] ml el]; discriminate.
Qed.

Lemma doubles_finite x : doubles x -> is_finite64 x = true.
Proof. unfold doubles. destruct x as [sx|[]| |sx mx ex]; auto; discriminate. Qed.

Lemma fadd_overflow x y :
  valid64 x = true -> valid64 y = true -> is_finite64 x = true -> is_finite64 y = true ->
  (fmax64 <= Rabs (rnd64 (rval x + rval y)))%R -> is_finite64 (fadd x y) = false.
Proof.
  intros Hx Hy Fx Fy Hle. lift64 x Hx. lift64 y Hy.
  rewrite fadd_B2SF, !rval_B2SF, !is_finite64_B2SF in *.
  generalize (Bplus_correct prec64 emax64 _ _ mode_NE b b0 Fx Fy).
  unfold rnd64, fmax64 in *. simpl round_mode.
  rewrite Rlt_bool_false by exact Hle.
  intros [E _]. rewrite <- is_finite64_B2SF, E. reflexivity.
Qed.

Lemma ftwo_B : exists b : bf, B2SF b = ftwo /\ B2R b = 2%R /\ Bsign b = false.
Proof.
  destruct (valid64_B2SF ftwo (f64_of_Z_valid 2)) as [b E]. exists b. split; [exact E|].
  destruct (f64_of_Z_correct 2 ltac:(simpl; lia)) as [V _].
  fold ftwo in V. rewrite <- E, rval_B2SF in V. split; [exact V|].
  destruct b as [[]|[]| |[] m e Hb]; try reflexivity; vm_compute in E; discriminate.
Qed.

Lemma fmax64_pos : (0 < fmax64)%R.
Proof. apply bpow_gt_0. Qed.

Lemma half_small (x : bf) :
  (Rabs (rnd64 (B2R x / 2)) < fmax64)%R.
Proof.
  assert (B : (Rabs (B2R x) < fmax64)%R) by apply abs_B2R_lt_emax.
  apply Rle_lt_trans with (2 := B).
  assert (F : rnd64 (B2R x) = B2R x) by (rewrite <- rval_B2SF; apply rnd64_rval, B2SF_valid64).
  assert (Fm : rnd64 (- B2R x) = (- B2R x)%R).
  { unfold rnd64. apply round_generic; [typeclasses eauto|]. apply generic_format_opp, generic_format_B2R. }
  destruct (Rle_or_lt 0 (B2R x)) as [P|P].
  - rewrite (Rabs_pos_eq (B2R x)) by exact P. rewrite Rabs_pos_eq.
    + rewrite <- F at 2. apply rnd64_le. lra.
    + rewrite <- rnd64_0. apply rnd64_le. lra.
  - rewrite (Rabs_left (B2R x)) by exact P. rewrite Rabs_left1.
    + apply Ropp_le_contravar. rewrite <- F at 1. apply rnd64_le. lra.
    + rewrite <- rnd64_0. apply rnd64_le. lra.
Qed.

(** Halving: correctly rounded, without overflow. *)
Lemma half_correct x : valid64 x = true ->
  rval (fdiv x ftwo) = rnd64 (rval x / 2) /\ is_finite64 (fdiv x ftwo) = is_finite64 x.
Proof.
  intro Hx. lift64 x Hx. destruct ftwo_B as (t & <- & Vt & _).
  rewrite fdiv_B2SF, !rval_B2SF, !is_finite64_B2SF.
  pose proof (Bdiv_correct prec64 emax64 _ _ mode_NE b t ltac:(rewrite Vt; lra)) as C.
  rewrite Vt in C. simpl round_mode in C. pose proof (half_small b) as S.
  unfold rnd64, fmax64 in *. rewrite Rlt_bool_true in C by exact S.
  destruct C as (C1 & C2 & _). now split.
Qed.

Lemma rnd64_twice x : valid64 x = true -> rnd64 (rval x + rval x) = (rval x + rval x)%R.
Proof.
  intro Hx. lift64 x Hx. rewrite rval_B2SF. unfold rnd64.
  apply round_generic; [typeclasses eauto|].
  replace (B2R b + B2R b)%R with (B2R b * bpow radix2 1)%R by (simpl; lra).
  apply (mult_bpow_pos_exact_FLT radix2 (SpecFloat.emin prec64 emax64) prec64); [|lia].
  apply generic_format_B2R.
Qed.

Lemma doubles_bound x : valid64 x = true -> doubles x -> (Rabs (rval x + rval x) < fmax64)%R.
Proof.
  intros Hx D. rewrite <- rnd64_twice by exact Hx.
  destruct (Rlt_or_le (Rabs (rnd64 (rval x + rval x))) fmax64) as [|L]; auto. exfalso.
  pose proof (doubles_finite x D) as F.
  unfold doubles in D. rewrite (fadd_overflow x x Hx Hx F F L) in D. discriminate.
Qed.

Lemma mean_within lo hi a b :
  valid64 lo = true -> valid64 hi = true -> doubles lo -> doubles hi ->
  valid64 a = true -> valid64 b = true ->
  within lo hi a = true -> within lo hi b = true ->
  within lo hi (fdiv (fadd a b) ftwo) = true.
Proof.
  intros Vl Vh Dl Dh Va Vb Wa Wb.
  pose proof (doubles_finite _ Dl) as Fl. pose proof (doubles_finite _ Dh) as Fh.
  pose proof (between_finite _ _ _ Fl Fh Wa) as Fa. pose proof (between_finite _ _ _ Fl Fh Wb) as Fb.
  unfold within in *. apply andb_true_iff in Wa as [A1 A2]. apply andb_true_iff in Wb as [B1 B2].
  apply fleb_correct in A1, A2, B1, B2; auto.
  pose proof (doubles_bound _ Vl Dl) as Bl. pose proof (doubles_bound _ Vh Dh) as Bh.
  assert (R1 : (rval lo + rval lo <= rnd64 (rval a + rval b))%R).
  { rewrite <- rnd64_twice by exact Vl. apply rnd64_le. lra. }
  assert (R2 : (rnd64 (rval a + rval b) <= rval hi + rval hi)%R).
  { rewrite <- rnd64_twice by exact Vh. apply rnd64_le. lra. }
  assert (Bd : (Rabs (rnd64 (rval a + rval b)) < fmax64)%R).
  { apply Rabs_def2 in Bl, Bh. apply Rabs_def1; lra. }
  destruct (fadd_correct a b Va Vb Fa Fb Bd) as [Es Fs].
  pose proof (fadd_valid a b Va Vb) as Vs.
  destruct (half_correct (fadd a b) Vs) as [Eh Fh'].
  rewrite Fs in Fh'. rewrite Es in Eh.
  pose proof (fdiv_valid _ ftwo Vs (f64_of_Z_valid 2)) as Vd.
  apply andb_true_iff. split; apply fleb_correct; auto; rewrite Eh.
  - rewrite <- (rnd64_rval lo Vl) at 1. apply rnd64_le. lra.
  - rewrite <- (rnd64_rval hi Vh). apply rnd64_le. lra.
Qed.

(** Sums and halves of numbers that are not positive are not positive. *)
Lemma fleb_zero_sign x : fleb x fzero = true <->
  match x with S754_zero _ | S754_infinity true | S754_finite true _ _ => true | _ => false end = true.
Proof. destruct x as [[]|[]| |[] m e]; split; intro H; try reflexivity; try discriminate. Qed.
Lemma fleb_zero_sign' x : fleb fzero x = true <->
  match x with S754_zero _ | S754_infinity false | S754_finite false _ _ => true | _ => false end = true.
Proof. destruct x as [[]|[]| |[] m e]; split; intro H; try reflexivity; try discriminate. Qed.

Lemma nonpos_by_value x : valid64 x = true -> is_finite64 x = true ->
  fleb x fzero = true <-> (rval x <= 0)%R.
Proof.
  intros V F. rewrite fleb_correct; auto. change (rval fzero) with 0%R. reflexivity.
Qed.
Lemma nonneg_by_value x : valid64 x = true -> is_finite64 x = true ->
  fleb fzero x = true <-> (0 <= rval x)%R.
Proof.
  intros V F. rewrite fleb_correct; auto. change (rval fzero) with 0%R. reflexivity.
Qed.

Lemma fadd_signed (sg : bool) a b : valid64 a = true -> valid64 b = true ->
  (if sg then fleb a fzero else fleb fzero a) = true ->
  (if sg then fleb b fzero else fleb fzero b) = true ->
  (if sg then fleb (fadd a b) fzero else fleb fzero (fadd a b)) = true.
Proof.
  intros Va Vb Ha Hb.
  destruct (is_finite64 a) eqn:Fa.
  2:{ destruct sg; [apply fleb_zero_sign in Ha, Hb|apply fleb_zero_sign' in Ha, Hb];
      destruct a as [|[]| |]; try discriminate; destruct b as [|[]| |[]]; try discriminate; reflexivity. }
  destruct (is_finite64 b) eqn:Fb.
  2:{ destruct sg; [apply fleb_zero_sign in Ha, Hb|apply fleb_zero_sign' in Ha, Hb];
      destruct b as [|[]| |]; try discriminate; destruct a as [|[]| |[]]; try discriminate; reflexivity. }
  destruct (Rlt_or_le (Rabs (rnd64 (rval a + rval b))) fmax64) as [L|L].
  - destruct (fadd_correct a b Va Vb Fa Fb L) as [E F]. pose proof (fadd_valid a b Va Vb) as V.
    destruct sg.
    + apply nonpos_by_value; auto. apply nonpos_by_value in Ha, Hb; auto.
      rewrite E, <- rnd64_0. apply rnd64_le. lra.
    + apply nonneg_by_value; auto. apply nonneg_by_value in Ha, Hb; auto.
      rewrite E, <- rnd64_0. apply rnd64_le. lra.
  - assert (G : exists s, fadd a b = S754_infinity s /\
              ((rval a < 0)%R -> s = true) /\ ((0 < rval a)%R -> s = false) /\
              ((rval b < 0)%R -> s = true) /\ ((0 < rval b)%R -> s = false)).
    { clear Ha Hb. lift64 a Va. lift64 b Vb.
      rewrite fadd_B2SF, !rval_B2SF, !is_finite64_B2SF in *.
      generalize (Bplus_correct prec64 emax64 _ _ mode_NE b0 b1 Fa Fb).
      unfold rnd64, fmax64 in *. simpl round_mode. rewrite Rlt_bool_false by exact L.
      intros [E S]. exists (Bsign b0). split; [rewrite E; reflexivity|].
      assert (K : forall c : bf, ((B2R c < 0)%R -> Bsign c = true) /\ ((0 < B2R c)%R -> Bsign c = false)).
      { intros [[]|[]| |[] m e Hm]; simpl; split; intro Q; auto; try lra; exfalso.
        - assert (P : (0 < F2R (Float radix2 (Z.neg m) e))%R) by exact Q.
          assert (N : (F2R (Float radix2 (Z.neg m) e) < 0)%R) by (now apply F2R_lt_0). lra.
        - assert (P : (F2R (Float radix2 (Z.pos m) e) < 0)%R) by exact Q.
          assert (N : (0 < F2R (Float radix2 (Z.pos m) e))%R) by (now apply F2R_gt_0). lra. }
      destruct (K b0) as [K1 K2]. destruct (K b1) as [K3 K4].
      repeat split; auto; intro Q; rewrite S; auto. }
    destruct G as (s & -> & G1 & G2 & G3 & G4).
    assert (NZ : (rval a <> 0 \/ rval b <> 0)%R).
    { destruct (Req_dec (rval a) 0) as [E1|]; [|now left].
      destruct (Req_dec (rval b) 0) as [E2|]; [|now right]. exfalso.
      rewrite E1, E2, Rplus_0_r, rnd64_0, Rabs_R0 in L. pose proof fmax64_pos. lra. }
    destruct sg.
    + apply nonpos_by_value in Ha, Hb; auto.
      assert (s = true) as -> by (destruct NZ; [apply G1; lra|apply G3; lra]). reflexivity.
    + apply nonneg_by_value in Ha, Hb; auto.
      assert (s = false) as -> by (destruct NZ; [apply G2; lra|apply G4; lra]). reflexivity.
Qed.

Lemma half_signed (sg : bool) a : valid64 a = true ->
  (if sg then fleb a fzero else fleb fzero a) = true ->
  (if sg then fleb (fdiv a ftwo) fzero else fleb fzero (fdiv a ftwo)) = true.
Proof.
  intros Va Ha. destruct (is_finite64 a) eqn:Fa.
  - destruct (half_correct a Va) as [E F]. rewrite Fa in F.
    pose proof (fdiv_valid _ ftwo Va (f64_of_Z_valid 2)) as Vd.
    destruct sg.
    + apply nonpos_by_value; auto. apply nonpos_by_value in Ha; auto.
      rewrite E, <- rnd64_0. apply rnd64_le. lra.
    + apply nonneg_by_value; auto. apply nonneg_by_value in Ha; auto.
      rewrite E, <- rnd64_0. apply rnd64_le. lra.
  - destruct sg; [apply fleb_zero_sign in Ha|apply fleb_zero_sign' in Ha];
      destruct a as [|[]| |]; try discriminate; reflexivity.
Qed.

(** * Medians *)
Lemma perm_forall {A} (P : A -> Prop) l s : Permutation l s ->
  (forall x, In x l -> P x) -> forall x, In x s -> P x.
Proof. intros Hp H x Hx. apply H. exact (Permutation_in x (Permutation_sym Hp) Hx). Qed.

Theorem median_majority l m lo hi : is_median l m ->
  (forall x, In x l -> valid64 x = true) ->
  valid64 lo = true -> valid64 hi = true -> doubles lo -> doubles hi ->
  length l < 2 * howmany (within lo hi) l -> within lo hi m = true.
Proof.
  intros (s & Hp & Hs & Hm) V Vl Vh Dl Dh Hc.
  pose proof (Permutation_length Hp) as L.
  pose proof (perm_forall _ _ _ Hp V) as Vs.
  rewrite (howmany_perm _ _ _ Hp) in Hc.
  pose proof (howmany_le (within lo hi) (fun x => fleb lo x) s) as C1.
  pose proof (howmany_le (within lo hi) (fun x => fleb x hi) s) as C2.
  assert (C1' : howmany (within lo hi) s <= howmany (fun x => fleb lo x) s)
    by (apply C1; intros x Hx; now apply andb_true_iff in Hx as [? _]).
  assert (C2' : howmany (within lo hi) s <= howmany (fun x => fleb x hi) s)
    by (apply C2; intros x Hx; now apply andb_true_iff in Hx as [_ ?]).
  assert (W : forall i, i < length s -> length s <= 2 * i + 2 -> 2 * i <= length s ->
            within lo hi (nth i s fnan) = true).
  { intros i Hi Hl Hu. unfold within. rewrite (above s Hs), (below s Hs); auto; lia. }
  destruct Hm as [(h & Eh & ->)|(h & Eh & ->)].
  - apply W; lia.
  - apply mean_within; auto; try (apply Vs, nth_In; lia); apply W; lia.
Qed.

Theorem median_positive l m : is_median l m ->
  (forall x, In x l -> valid64 x = true) ->
  fltb fzero m = true -> length l <= 2 * howmany (fltb fzero) l.
Proof.
  intros (s & Hp & Hs & Hm) V Hpos.
  pose proof (Permutation_length Hp) as L.
  pose proof (perm_forall _ _ _ Hp V) as Vs.
  rewrite (howmany_perm _ _ _ Hp).
  assert (T : forall x y, fltb fzero x = true -> fleb x y = true -> fltb fzero y = true).
  { intros x y H1 H2. destruct x as [|[]| |[]], y as [|[]| |[]]; try discriminate; try reflexivity. }
  assert (N : forall x, is_nan64 x = false -> fltb fzero x = false -> fleb x fzero = true).
  { intros x N F. destruct x as [|[]| |[]]; try discriminate; try reflexivity. }
  assert (M : forall i, i < length s -> fltb fzero (nth i s fnan) = true ->
            length s - i <= howmany (fltb fzero) s).
  { intros i Hi Hx. apply howmany_all_from. intros j Hj. exact (T _ _ Hx (Hs i j ltac:(lia))). }
  destruct Hm as [(h & Eh & ->)|(h & Eh & ->)].
  - specialize (M h ltac:(lia) Hpos). lia.
  - destruct (fltb fzero (nth (h + 1) s fnan)) eqn:E.
    + specialize (M (h + 1) ltac:(lia) E). lia.
    + exfalso. pose proof (Hs h (h + 1) ltac:(lia)) as O.
      destruct (fleb_not_nan _ _ O) as [_ N2]. pose proof (N _ N2 E) as P2.
      pose proof (fleb_trans _ _ _ O P2) as P1.
      assert (V1 : valid64 (nth h s fnan) = true) by (apply Vs, nth_In; lia).
      assert (V2 : valid64 (nth (h + 1) s fnan) = true) by (apply Vs, nth_In; lia).
      pose proof (half_signed true _ (fadd_valid _ _ V1 V2) (fadd_signed true _ _ V1 V2 P1 P2)) as Q.
      cbn iota in Q. apply fltb_fleb in Hpos as [_ Hpos]. congruence.
Qed.

Theorem median_negative l m : is_median l m ->
  (forall x, In x l -> valid64 x = true) ->
  fltb m fzero = true -> length l <= 2 * howmany (fun x => fltb x fzero) l.
Proof.
  intros (s & Hp & Hs & Hm) V Hneg.
  pose proof (Permutation_length Hp) as L.
  pose proof (perm_forall _ _ _ Hp V) as Vs.
  rewrite (howmany_perm _ _ _ Hp).
  assert (T : forall x y, fltb y fzero = true -> fleb x y = true -> fltb x fzero = true).
  { intros x y H1 H2. destruct x as [|[]| |[]], y as [|[]| |[]]; try discriminate; try reflexivity. }
  assert (N : forall x, is_nan64 x = false -> fltb x fzero = false -> fleb fzero x = true).
  { intros x N F. destruct x as [|[]| |[]]; try discriminate; try reflexivity. }
  assert (M : forall i, i < length s -> fltb (nth i s fnan) fzero = true ->
            i + 1 <= howmany (fun x => fltb x fzero) s).
  { intros i Hi Hx. apply howmany_all_to; [lia|]. intros j Hj. exact (T _ _ Hx (Hs j i ltac:(lia))). }
  destruct Hm as [(h & Eh & ->)|(h & Eh & ->)].
  - specialize (M h ltac:(lia) Hneg). lia.
  - destruct (fltb (nth h s fnan) fzero) eqn:E.
    + specialize (M h ltac:(lia) E). lia.
    + exfalso. pose proof (Hs h (h + 1) ltac:(lia)) as O.
      destruct (fleb_not_nan _ _ O) as [N1 _]. pose proof (N _ N1 E) as P1.
      pose proof (fleb_trans _ _ _ P1 O) as P2.
      assert (V1 : valid64 (nth h s fnan) = true) by (apply Vs, nth_In; lia).
      assert (V2 : valid64 (nth (h + 1) s fnan) = true) by (apply Vs, nth_In; lia).
      pose proof (half_signed false _ (fadd_valid _ _ V1 V2) (fadd_signed false _ _ V1 V2 P1 P2)) as Q.
      cbn iota in Q. apply fltb_fleb in Hneg as [_ Hneg]. congruence.
Qed.

(** * The aggregation step of [fit] *)
Section Fit.
  Context {S E Rng : Type}.
  Variable env : np_env.
  Variable d : dims.
  Variable sol : nat -> Model_Fit.solver S E.
  Variable draw : bool -> Rng -> result (split * Rng).
  Variable post : nd -> nd -> result (nd * nd).
  Hypothesis Hnb : 1 <= n_boots_sel d.
  Hypothesis Hshape : forall i, shapes_ok d (sol i).

  Lemma winners_length sel k : length (winners d sel k) = n_boots_est d.
  Proof. unfold winners. now rewrite map_length, seq_length. Qed.

  Lemma returned_median n R s0 F : returned env d sol draw post n false R s0 F ->
    exists sel coef ic, f_sel F = Some sel /\ length coef = n_coef d /\
      post (nd_of_floats [out_dim d; n_feat d] coef) ic = Ok (f_coef F, f_intercept F) /\
      forall k, k < n_coef d -> nth k coef fzero = np_median (winners d sel k).
  Proof.
    intro H. destruct (returned_step env d sol draw post Hnb Hshape _ _ _ _ H)
      as (sel & ns & coef & ic & H0 & _ & _ & _ & _ & H5 & H6 & _ & H8 & _).
    exists sel, coef, ic. repeat split; auto.
  Qed.

  Lemma some_nan l : (forall x, In x l -> is_nan64 x = false) -> existsb is_nan64 l = false.
  Proof.
    intro H. destruct (existsb is_nan64 l) eqn:Ex; auto.
    apply existsb_exists in Ex as (x & Hx & Hn). now rewrite H in Hn.
  Qed.

  Theorem majority n R s0 F : returned env d sol draw post n false R s0 F ->
    exists sel coef ic, f_sel F = Some sel /\ length coef = n_coef d /\
      post (nd_of_floats [out_dim d; n_feat d] coef) ic = Ok (f_coef F, f_intercept F) /\
      forall k lo hi, k < n_coef d ->
        (forall x, In x (winners d sel k) -> valid64 x = true /\ is_nan64 x = false) ->
        valid64 lo = true -> valid64 hi = true -> doubles lo -> doubles hi ->
        n_boots_est d < 2 * howmany (within lo hi) (winners d sel k) ->
        within lo hi (nth k coef fzero) = true.
  Proof.
    intro H. destruct (returned_median n R s0 F H) as (sel & coef & ic & H1 & H2 & H3 & H4).
    exists sel, coef, ic. repeat (split; auto). intros k lo hi Hk V Vl Vh Dl Dh Hc. rewrite H4 by exact Hk.
    apply (median_majority (winners d sel k)); auto.
    - apply np_median_spec; [|apply some_nan; intros x Hx; now apply V].
      intro E0. rewrite E0 in Hc. cbn in Hc. lia.
    - intros x Hx. now apply V.
    - now rewrite winners_length.
  Qed.

  Theorem signs n R s0 F : returned env d sol draw post n false R s0 F ->
    exists sel coef ic, f_sel F = Some sel /\ length coef = n_coef d /\
      post (nd_of_floats [out_dim d; n_feat d] coef) ic = Ok (f_coef F, f_intercept F) /\
      forall k, k < n_coef d -> (forall x, In x (winners d sel k) -> valid64 x = true) ->
        (fltb fzero (nth k coef fzero) = true ->
         n_boots_est d <= 2 * howmany (fltb fzero) (winners d sel k)) /\
        (fltb (nth k coef fzero) fzero = true ->
         n_boots_est d <= 2 * howmany (fun x => fltb x fzero) (winners d sel k)).
  Proof.
    intro H. destruct (returned_median n R s0 F H) as (sel & coef & ic & H1 & H2 & H3 & H4).
    exists sel, coef, ic. repeat (split; auto). 
    all: rewrite H4 by assumption; intro P; rewrite <- (winners_length sel k).
    all: assert (M : is_median (winners d sel k) (np_median (winners d sel k))).
    1,3: apply np_median_spec; [intro E0; rewrite E0 in P; discriminate|];
         destruct (existsb is_nan64 (winners d sel k)) eqn:Ex; auto; exfalso;
         unfold np_median in P; rewrite Ex in P; discriminate.
    - exact (median_positive _ _ M H5 P).
    - exact (median_negative _ _ M H5 P).
  Qed.

  Theorem nan_estimate n R s0 F : returned env d sol draw post n false R s0 F ->
    exists sel coef ic, f_sel F = Some sel /\ length coef = n_coef d /\
      post (nd_of_floats [out_dim d; n_feat d] coef) ic = Ok (f_coef F, f_intercept F) /\
      forall k x, k < n_coef d -> In x (winners d sel k) -> is_nan64 x = true ->
        is_nan64 (nth k coef fzero) = true.
  Proof.
    intro H. destruct (returned_median n R s0 F H) as (sel & coef & ic & H1 & H2 & H3 & H4).
    exists sel, coef, ic. repeat (split; auto). intros k x Hk Hx Hn. rewrite H4 by exact Hk.
    unfold np_median. assert (Ex : existsb is_nan64 (winners d sel k) = true).
    { apply existsb_exists. exists x. auto. }
    rewrite Ex. reflexivity.
  Qed.

  Lemma same_sorted x l : (forall y, In y l -> y = x) -> forall i, i < length l -> nth i (sort64 l) fnan = x.
  Proof.
    intros H i Hi. apply H. apply (Permutation_in _ (Permutation_sym (sort64_perm l))).
    apply nth_In. now rewrite <- (Permutation_length (sort64_perm l)).
  Qed.

  Theorem overflow n R s0 F : returned env d sol draw post n false R s0 F ->
    exists sel coef ic, f_sel F = Some sel /\ length coef = n_coef d /\
      post (nd_of_floats [out_dim d; n_feat d] coef) ic = Ok (f_coef F, f_intercept F) /\
      forall k x, k < n_coef d -> 1 <= n_boots_est d -> is_finite64 x = true ->
        (forall y, In y (winners d sel k) -> y = x) ->
        (Nat.Odd (n_boots_est d) -> nth k coef fzero = x) /\
        (Nat.Even (n_boots_est d) -> ~ doubles x -> is_nan64 (nth k coef fzero) = false /\
          is_finite64 (nth k coef fzero) = false).
  Proof.
    intro H. destruct (returned_median n R s0 F H) as (sel & coef & ic & H1 & H2 & H3 & H4).
    exists sel, coef, ic. split; [exact H1|]. split; [exact H2|]. split; [exact H3|].
    intros k x Hk Hb Hf Hx. rewrite H4 by exact Hk.
    pose proof (winners_length sel k) as L. set (l := winners d sel k) in *. clearbody l.
    assert (Nn : existsb is_nan64 l = false).
    { apply some_nan. intros y Hy. rewrite (Hx y Hy). destruct x; try discriminate; reflexivity. }
    unfold np_median. rewrite Nn. cbn [orb].
    assert (El : (length l =? 0) = false) by (apply Nat.eqb_neq; lia). rewrite El. cbv zeta.
    split.
    - intros [h Eh]. assert (Ev : Nat.even (length l) = false).
      { rewrite L, Eh. rewrite <- Nat.negb_odd. apply negb_false_iff, Nat.odd_spec. now exists h. }
      rewrite Ev. apply same_sorted; auto. apply Nat.div_lt; lia.
    - intros [h Eh] Nd. assert (Ev : Nat.even (length l) = true).
      { rewrite L, Eh. apply Nat.even_spec. now exists h. }
      rewrite Ev. assert (D : length l / 2 < length l) by (apply Nat.div_lt; lia).
      rewrite !(same_sorted x l Hx) by lia. unfold doubles in Nd.
      assert (N0 : is_nan64 (fadd x x) = false).
      { destruct x as [[]| | |[] m e]; try discriminate Hf; try reflexivity.
        all: unfold fadd, SFadd; cbv zeta.
        all: match goal with |- is_nan64 (SpecFloat.binary_normalize _ _ ?a ?b ?c) = _ =>
          rewrite (binary_normalize_equiv a b c), is_nan64_B2SF; apply is_nan_binary_normalize end. }
      destruct (fadd x x) as [|[]| |]; try discriminate N0; try (exfalso; apply Nd; reflexivity).
      + split; reflexivity.
      + split; reflexivity.
  Qed.
End Fit.

(** A solver whose estimates depend on the training rows, for the examples. *)
Definition med_dims (nb : nat) : dims := mkDims 2 1 2 nb 2 [1%Z; 2%Z] true false.
Definition med_solver (v : nat -> f64) : Model_Fit.solver unit (list f64) :=
  mkSolver _ _ (reset ex_solver) (sweep ex_solver)
    (fun mask train => Ok (repeat (v (hd 0 train)) (Prelude.count (fun b => b) mask)))
    (est_coef ex_solver) (null_fit ex_solver) (score ex_solver) (null_score ex_solver) (fit_int ex_solver).
Definition med_fit (nb : nat) (v : nat -> f64) : fitted :=
  ok_fit (fit ex_np (med_dims nb) (med_solver v) ex_draw ex_post 1 0 false 0 tt).
