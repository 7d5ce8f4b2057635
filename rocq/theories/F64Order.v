(** The order of doubles: [fleb] is a total preorder on non-NaN values.  No
    axioms are used here. *)
From Coq Require Import ZArith Bool List Lia Floats.SpecFloat.
From Verif Require Import F64.
Local Open Scope Z_scope.

(** Sign class, exponent and mantissa as integers ordered lexicographically. *)
Definition key (x : f64) : Z * Z * Z :=
  match x with
  | S754_nan => (3, 0, 0)
  | S754_infinity true => (-2, 0, 0)
  | S754_infinity false => (2, 0, 0)
  | S754_zero _ => (0, 0, 0)
  | S754_finite true m e => (-1, - e, - Z.pos m)
  | S754_finite false m e => (1, e, Z.pos m)
  end.
Definition kle (a b : Z * Z * Z) : Prop :=
  fst (fst a) < fst (fst b) \/
  (fst (fst a) = fst (fst b) /\
   (snd (fst a) < snd (fst b) \/ (snd (fst a) = snd (fst b) /\ snd a <= snd b))).

Lemma kle_trans a b c : kle a b -> kle b c -> kle a c.
Proof. unfold kle. lia. Qed.
Lemma kle_total a b : kle a b \/ kle b a.
Proof. unfold kle. lia. Qed.

Lemma fleb_key x y : is_nan64 x = false -> is_nan64 y = false ->
  (fleb x y = true <-> kle (key x) (key y)).
Proof.
  unfold fleb, SFleb, kle.
  destruct x as [sx|[]| |[] mx ex], y as [sy|[]| |[] my ey]; try discriminate; intros _ _;
    cbn [key fst snd SFcompare]; try (split; [lia|reflexivity]);
    try (split; [discriminate|lia]).
  - destruct (Z.compare_spec ex ey) as [E|E|E].
    + unfold Pos.compare. fold (Pos.compare mx my).
      change (Pos.compare_cont Eq mx my) with (Pos.compare mx my).
      destruct (Pos.compare_spec mx my); cbn [CompOpp]; (split; [|]); intros; try reflexivity; try discriminate; try lia.
    + split; [discriminate|lia].
    + split; [lia|reflexivity].
  - destruct (Z.compare_spec ex ey) as [E|E|E].
    + change (Pos.compare_cont Eq mx my) with (Pos.compare mx my).
      destruct (Pos.compare_spec mx my); (split; [|]); intros; try reflexivity; try discriminate; try lia.
    + split; [lia|reflexivity].
    + split; [discriminate|lia].
Qed.

Lemma fleb_nan_l y : fleb fnan y = false.
Proof. reflexivity. Qed.
Lemma fleb_nan_r x : fleb x fnan = false.
Proof. destruct x as [|[]| |[]]; reflexivity. Qed.
Lemma is_nan_eq x : is_nan64 x = true -> x = fnan.
Proof. destruct x; try discriminate; reflexivity. Qed.

Lemma fleb_not_nan x y : fleb x y = true -> is_nan64 x = false /\ is_nan64 y = false.
Proof.
  intro H. split.
  - destruct (is_nan64 x) eqn:E; auto. apply is_nan_eq in E. subst. discriminate.
  - destruct (is_nan64 y) eqn:E; auto. apply is_nan_eq in E. subst.
    rewrite fleb_nan_r in H. discriminate.
Qed.
Lemma fleb_trans x y z : fleb x y = true -> fleb y z = true -> fleb x z = true.
Proof.
  intros H1 H2. destruct (fleb_not_nan _ _ H1) as [Nx Ny]. destruct (fleb_not_nan _ _ H2) as [_ Nz].
  apply fleb_key in H1; auto. apply fleb_key in H2; auto. apply fleb_key; auto.
  eapply kle_trans; eauto.
Qed.
Lemma fleb_total x y : is_nan64 x = false -> is_nan64 y = false ->
  fleb x y = true \/ fleb y x = true.
Proof.
  intros Hx Hy. rewrite !fleb_key by assumption. apply kle_total.
Qed.
Lemma fleb_refl x : is_nan64 x = false -> fleb x x = true.
Proof. intro H. destruct (fleb_total x x H H); assumption. Qed.
Lemma fleb_false x y : is_nan64 x = false -> is_nan64 y = false -> fleb x y = false ->
  fleb y x = true.
Proof. intros Hx Hy H. destruct (fleb_total x y Hx Hy); congruence. Qed.

Lemma fltb_fleb x y : fltb x y = true -> fleb x y = true /\ fleb y x = false.
Proof.
  unfold fltb, SFltb, fleb, SFleb.
  destruct x as [sx|[]| |[] mx ex], y as [sy|[]| |[] my ey]; cbn [SFcompare]; try discriminate; auto.
  - rewrite (Z.compare_antisym ex ey).
    destruct (Z.compare_spec ex ey) as [E|E|E]; cbn [CompOpp]; try discriminate; auto.
    change (Pos.compare_cont Eq mx my) with (Pos.compare mx my).
    change (Pos.compare_cont Eq my mx) with (Pos.compare my mx).
    rewrite (Pos.compare_antisym mx my). destruct (Pos.compare mx my); cbn [CompOpp]; try discriminate; auto.
  - rewrite (Z.compare_antisym ex ey).
    destruct (Z.compare_spec ex ey) as [E|E|E]; cbn [CompOpp]; try discriminate; auto.
    change (Pos.compare_cont Eq mx my) with (Pos.compare mx my).
    change (Pos.compare_cont Eq my mx) with (Pos.compare my mx).
    rewrite (Pos.compare_antisym mx my). destruct (Pos.compare mx my); cbn [CompOpp]; try discriminate; auto.
Qed.

(** Sign class: negative, zero, positive. *)
Definition sign64 (x : f64) : Z :=
  match x with
  | S754_zero _ | S754_nan => 0
  | S754_infinity s | S754_finite s _ _ => if s then -1 else 1
  end.
Lemma fleb_sign x y : fleb x y = true -> sign64 x <= sign64 y.
Proof.
  intro H. destruct (fleb_not_nan _ _ H) as [Nx Ny]. apply fleb_key in H; auto. unfold kle in H.
  destruct x as [sx|[]| |[] mx ex], y as [sy|[]| |[] my ey]; try discriminate;
    cbn in *; lia.
Qed.
