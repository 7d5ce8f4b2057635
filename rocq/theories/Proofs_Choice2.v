(** Proofs about the choice that the estimation module makes, continued: scoring on the
    training samples (C122). *)
From Coq Require Import ZArith String List Bool Arith Lia Reals Lra Psatz Permutation Sorted.
From Verif Require Import Prelude F64 Num Model_Fit Model_Scores Model_Rescale Model_Poisson Model_Linear Model_Estimation
  Spec_Rescale Proofs_Rescale Spec_Poisson Proofs_Poisson Proofs_PoissonOpt Spec_Linear Proofs_Linear
  Proofs_LinearUnits Spec_Estimation Proofs_Estimation Proofs_Estimation2 Proofs_Estimation3 Proofs_Estimation4 Spec_Choice Proofs_Choice.
From Verif Require Proofs_Nmf.
Import ListNotations.
Local Open Scope R_scope.

Section Nested.
  Variables (n p : nat) (X : list (list R)) (y : list R) (rows : list nat).
  Hypothesis HX : matrix n p X.
  Hypothesis Hrows : forall r, In r rows -> (r < n)%nat.

  (** The squared error of a model with all [p] coefficients. *)
  Definition sse (e : list R) (b : R) : R :=
    Sum (length rows) (fun i => (entry y (nth i rows 0%nat) - eta p X e b (nth i rows 0%nat)) * (entry y (nth i rows 0%nat) - eta p X e b (nth i rows 0%nat))).
  Lemma sse_part mask (c : list R) b : length mask = p -> length c = count (fun b => b) mask ->
    squared_error (count (fun b => b) mask) (part X rows mask) (part_y y rows) c b = sse (spread_values (N := Rnum) mask c) b.
  Proof.
    intros Lm Lc. unfold squared_error, sse. unfold part_y at 1. rewrite map_length. apply Sum_ext. intros i Hi. rewrite entry_part_y by exact Hi.
    exact (f_equal (fun z => (entry y (nth i rows 0%nat) - z) * (entry y (nth i rows 0%nat) - z)) (eta_part n p X rows mask c b i HX Lm Hrows Lc Hi)).
  Qed.
  Lemma least_full has mask m (e : list R) b : length mask = p ->
    least_squares has (count (fun b => b) mask) (part X rows mask) (part_y y rows) m ->
    length e = p -> (forall j, nth j mask false = false -> entry e j = 0) -> (has = false -> b = 0) ->
    sse (spread_values (N := Rnum) mask (fst m)) (snd m) <= sse e b.
  Proof.
    intros Lm (L & _ & H) Le Ze Hb. rewrite <- sse_part by assumption.
    rewrite <- (spread_pick mask e) by (try assumption; now rewrite Lm). rewrite <- sse_part; [|exact Lm|apply length_pick; now rewrite Lm].
    apply H; [apply length_pick; now rewrite Lm|exact Hb].
  Qed.
  Lemma sse_mid e b e' b' : sse (map (fun j => (entry e j + entry e' j) / 2) (seq 0 p)) ((b + b') / 2) =
    (sse e b + sse e' b') / 2 - Sum (length rows) (fun i => (eta p X e b (nth i rows 0%nat) - eta p X e' b' (nth i rows 0%nat)) * (eta p X e b (nth i rows 0%nat) - eta p X e' b' (nth i rows 0%nat))) / 4.
  Proof.
    assert (Em : forall r, eta p X (map (fun j => (entry e j + entry e' j) / 2) (seq 0 p)) ((b + b') / 2) r = (eta p X e b r + eta p X e' b' r) / 2).
    { intro r. unfold eta. rewrite (Sum_ext p (fun j => mat X r j * entry (map (fun j => (entry e j + entry e' j) / 2) (seq 0 p)) j) (fun j => / 2 * (mat X r j * entry e j + mat X r j * entry e' j))).
      - rewrite Sum_scal, Sum_plus. field.
      - intros j Hj. rewrite (entry_mapseq (fun j => (entry e j + entry e' j) / 2) p j Hj). field. }
    unfold sse. set (m := length rows). clearbody m.
    replace (Sum m (fun i => (entry y (nth i rows 0%nat) - eta p X e b (nth i rows 0%nat)) * (entry y (nth i rows 0%nat) - eta p X e b (nth i rows 0%nat))))
      with (2 * (/ 2 * Sum m (fun i => (entry y (nth i rows 0%nat) - eta p X e b (nth i rows 0%nat)) * (entry y (nth i rows 0%nat) - eta p X e b (nth i rows 0%nat))))) by field.
    induction m as [|m IH]; [unfold Sum; cbn; field|]. rewrite !Sum_S, Em, IH. field.
  Qed.

  (** Two best models agree. *)
  Lemma least_unique has mask m (e : list R) b : length mask = p ->
    least_squares has (count (fun b => b) mask) (part X rows mask) (part_y y rows) m ->
    identified p has (fun j => nth j mask false = true) X rows ->
    length e = p -> (forall j, nth j mask false = false -> entry e j = 0) -> (has = false -> b = 0) ->
    sse e b <= sse (spread_values (N := Rnum) mask (fst m)) (snd m) -> e = spread_values (N := Rnum) mask (fst m).
  Proof.
    intros Lm HL HI Le Ze Hb Hle. set (e0 := spread_values (N := Rnum) mask (fst m)) in *. set (b0 := snd m) in *.
    assert (Hb0 : has = false -> b0 = 0) by apply HL.
    assert (L0 : length e0 = p) by (unfold e0; rewrite length_spread; exact Lm).
    pose proof (least_full has mask m (map (fun j => (entry e j + entry e0 j) / 2) (seq 0 p)) ((b + b0) / 2) Lm HL) as M. fold e0 b0 in M.
    assert (M1 : sse e0 b0 <= sse (map (fun j => (entry e j + entry e0 j) / 2) (seq 0 p)) ((b + b0) / 2)).
    { apply M.
      - now rewrite map_length, seq_length.
      - intros j Hj. destruct (Nat.lt_ge_cases j p) as [Lj|Gj].
        + rewrite (entry_mapseq (fun j => (entry e j + entry e0 j) / 2) p j Lj). rewrite (Ze j Hj). unfold e0. rewrite (spread_outside mask (fst m) j Hj). field.
        + unfold entry. apply nth_overflow. rewrite map_length, seq_length. exact Gj.
      - intro E. rewrite (Hb E), (Hb0 E). field. }
    rewrite sse_mid in M1. set (D := fun i => (eta p X e b (nth i rows 0%nat) - eta p X e0 b0 (nth i rows 0%nat)) * (eta p X e b (nth i rows 0%nat) - eta p X e0 b0 (nth i rows 0%nat))) in *.
    assert (D0 : forall i, (i < length rows)%nat -> 0 <= D i) by (intros; apply Rle_0_sqr).
    assert (DZ : Sum (length rows) D = 0) by (pose proof (Sum_nonneg (length rows) D D0); lra).
    apply (list_eq_entries _ _ p); [exact Le|exact L0|]. intros j Hj.
    assert (Z : entry (vdiff p e e0) j = 0).
    { apply (HI (vdiff p e e0) (b - b0)); [apply length_vdiff| | | |exact Hj].
      - intro E. rewrite (Hb E), (Hb0 E). ring.
      - intros k Hk NS. rewrite entry_vdiff by exact Hk. assert (F : nth k mask false = false) by (destruct (nth k mask false); [now elim NS|reflexivity]).
        rewrite (Ze k F). unfold e0. rewrite (spread_outside mask (fst m) k F). ring.
      - intros r Hr. rewrite eta_vdiff. destruct (In_nth _ _ 0%nat Hr) as (k & Hk & <-).
        pose proof (Proofs_Nmf.Sum_zero_inv (length rows) D D0 DZ k Hk) as Zk. unfold D in Zk. now apply Rmult_integral in Zk as [|]. }
    rewrite entry_vdiff in Z by exact Hj. lra.
  Qed.
End Nested.

Lemma model_sse n p X y train mask (m : list R * R) : matrix n p X -> (forall r, In r train -> (r < n)%nat) -> length mask = p ->
  (existsb (fun b => b) mask = true -> length (fst m) = count (fun b => b) mask) ->
  model_error X y train train mask m =
  if existsb (fun b => b) mask then sse p X y train (spread_values (N := Rnum) mask (fst m)) (snd m)
  else sse p X y train (repeat 0 p) (average (length train) (part_y y train)).
Proof.
  intros HX Hr Lm HL. unfold model_error. destruct (existsb _ mask) eqn:E; [exact (sse_part n p X y train HX Hr mask (fst m) (snd m) Lm (HL eq_refl))|].
  unfold distance2, sse. unfold part_y at 1. rewrite map_length. apply Sum_ext. intros i Hi. rewrite entry_part_y by exact Hi. rewrite eta_zeros. reflexivity.
Qed.
Lemma within_nonempty mask mask' : within mask mask' -> existsb (fun b : bool => b) mask = true -> existsb (fun b : bool => b) mask' = true.
Proof.
  intros W H. apply existsb_exists in H as (b & Hin & ->). destruct (In_nth _ _ false Hin) as (j & Hj & E). apply W in E.
  apply existsb_exists. exists true. split; [|reflexivity]. rewrite <- E. apply nth_In. destruct (Nat.lt_ge_cases j (length mask')) as [L|L]; [exact L|].
  rewrite nth_overflow in E by exact L. discriminate.
Qed.
Lemma outside_within mask mask' (e : list R) : within mask mask' -> (forall j, nth j mask false = false -> entry e j = 0) -> forall j, nth j mask' false = false -> entry e j = 0.
Proof. intros W H j Hj. apply H. destruct (nth j mask false) eqn:E; [|reflexivity]. apply W in E. congruence. Qed.

(** More features never fit the training samples worse. *)
Lemma nested_error has n p X y train mask mask' (m m' : list R * R) : matrix n p X -> (forall r, In r train -> (r < n)%nat) ->
  length mask = p -> length mask' = p -> within mask mask' ->
  (if existsb (fun b => b) mask then length (fst m) = count (fun b => b) mask /\ (has = false -> snd m = 0) else has = true) ->
  (existsb (fun b => b) mask' = true -> least_squares has (count (fun b => b) mask') (part X train mask') (part_y y train) m') ->
  model_error X y train train mask' m' <= model_error X y train train mask m.
Proof.
  intros HX Hr Lm Lm' W HS HL.
  rewrite (model_sse n p X y train mask' m' HX Hr Lm') by (intro E; exact (proj1 (HL E))).
  rewrite (model_sse n p X y train mask m HX Hr Lm) by (intro E; rewrite E in HS; exact (proj1 HS)).
  destruct (existsb (fun b : bool => b) mask) eqn:E.
  - rewrite (within_nonempty _ _ W E) in *. destruct HS as [Lc Hb]. apply (least_full n p X y train HX Hr has mask' m'); [exact Lm'|now apply HL|now rewrite length_spread| |exact Hb].
    apply (outside_within mask mask' _ W). intros j Hj. now apply spread_outside.
  - destruct (existsb (fun b : bool => b) mask') eqn:E'; [|apply Rle_refl].
    apply (least_full n p X y train HX Hr has mask' m'); [exact Lm'|now apply HL|apply repeat_length|intros; apply entry_zeros|]. intro; congruence.
Qed.

(** With 'r2' on the training samples the candidate that contains all others is taken. *)
Lemma train_choice n p X y (ols : solver_ls (N := Rnum)) select splits large :
  matrix n p X -> length y = n -> (exists i j, (i < n)%nat /\ (j < n)%nat /\ entry y i <> entry y j) -> splits <> [] ->
  let supports := select X y in
  (forall mask, In mask supports -> length mask = p /\ within mask large) -> In large supports ->
  (forall sp, In sp splits ->
     (forall r, In r (fst sp) -> (r < n)%nat) /\ (2 <= length (fst sp))%nat /\
     distance2 (part_y y (fst sp)) (average (length (fst sp)) (part_y y (fst sp))) <> 0 /\
     identified p true (fun j => nth j large false = true) X (fst sp) /\
     forall mask, In mask supports -> existsb (fun b => b) mask = true ->
       least_squares true (count (fun b => b) mask) (part X (fst sp) mask) (part_y y (fst sp)) (ols (part X (fst sp) mask) (part_y y (fst sp)))) ->
  exists best c b,
    regressor_fit (N := Rnum) false true "r2" 0 p ols select splits X y = Ok (c, b) /\
    Forall2 (fun sp e => estimate_of p large (ols (part X (fst sp) large) (part_y y (fst sp))) e) splits best /\
    length c = p /\ (forall j, (j < p)%nat -> median_of (map (fun e => entry e j) best) (entry c j)).
Proof.
  intros HX Ly Dy Hs supports Hsup Hlarge Hok.
  destruct (fit_choice true "r2" 0 n p X y ols select splits HX Ly ltac:(now left) Dy Hs) as (best & c & b & E & F & Lc & Hm & _).
  - intro C. unfold supports in Hlarge. rewrite C in Hlarge. destruct Hlarge.
  - intros mask H. exact (proj1 (Hsup mask H)).
  - intros sp Hsp. destruct (Hok sp Hsp) as (H1 & H2 & H3 & _ & H5). change (scored 0 sp) with (fst sp). split; [exact H1|]. split; [exact H1|].
    split; [destruct (fst sp); [cbn in H2; lia|discriminate]|]. split; [intros _; split; assumption|]. intros mask Hmask. split; [|congruence].
    intro Em. exact (proj1 (H5 mask Hmask Em)).
  - exists best, c, b. split; [exact E|]. split; [|split; [exact Lc|exact Hm]].
    eapply Forall2_weaken; [|exact F]. cbv beta. intros sp e Hsp (mask & Hmask & (Le & Ze & Ve) & Hc). change (scored 0 sp) with (fst sp) in Hc.
    destruct (Hok sp Hsp) as (H1 & H2 & H3 & H4 & H5). destruct (Hsup mask Hmask) as [Lm W]. destruct (Hsup large Hlarge) as [Ll _].
    specialize (Hc large Hlarge). unfold cost in Hc. cbn [String.eqb Ascii.eqb Bool.eqb] in Hc.
    set (mL := ols (part X (fst sp) large) (part_y y (fst sp))) in *. set (mS := ols (part X (fst sp) mask) (part_y y (fst sp))) in *.
    rewrite (model_sse n p X y (fst sp) mask mS HX H1 Lm) in Hc by (intro Em; exact (proj1 (H5 mask Hmask Em))).
    rewrite (model_sse n p X y (fst sp) large mL HX H1 Ll) in Hc by (intro Em; exact (proj1 (H5 large Hlarge Em))).
    destruct (existsb (fun b : bool => b) large) eqn:El.
    + pose proof (H5 large Hlarge El) as HL. fold mL in HL.
      assert (Ee : e = spread_values (N := Rnum) large (fst mL)).
      { destruct (existsb (fun b : bool => b) mask) eqn:Em.
        - assert (Es : e = spread_values (N := Rnum) mask (fst mS)).
          { pose proof (proj1 (H5 mask Hmask Em)) as Lf. fold mS in Lf. symmetry. refine (eq_trans (f_equal (spread_values (N := Rnum) mask) (eq_sym (Ve eq_refl))) _).
            rewrite <- pick_chosen by (now rewrite Lm). apply spread_pick; [now rewrite Lm|exact Ze]. }
          apply (least_unique n p X y (fst sp) HX H1 true large mL e (snd mS) Ll HL H4 Le); [exact (outside_within _ _ _ W Ze)|discriminate|]. rewrite Es. exact Hc.
        - assert (Es : e = repeat 0 p).
          { apply (list_eq_entries _ _ p); [exact Le|apply repeat_length|]. intros j Hj. rewrite (Ze j (existsb_false_entries mask Em j)). symmetry. apply entry_zeros. }
          apply (least_unique n p X y (fst sp) HX H1 true large mL e (average (length (fst sp)) (part_y y (fst sp))) Ll HL H4 Le); [exact (outside_within _ _ _ W Ze)|discriminate|]. rewrite Es. exact Hc. }
      rewrite Ee. apply spread_estimate; [exact Ll|exact (proj1 HL)].
    + assert (Em : existsb (fun b : bool => b) mask = false).
      { destruct (existsb (fun b : bool => b) mask) eqn:Em; [|reflexivity]. rewrite (within_nonempty _ _ W Em) in El. discriminate. }
      split; [exact Le|]. split; [intros j _; apply Ze; now apply existsb_false_entries|]. rewrite El. discriminate.
Qed.
