(** Proofs about the estimation module, continued: data without noise (C119). *)
From Coq Require Import ZArith String List Bool Arith Lia Reals Lra Psatz.
From Verif Require Import Prelude F64 Num Model_Fit Model_Scores Model_Rescale Model_Poisson Model_Linear Model_Estimation
  Spec_Rescale Proofs_Rescale Spec_Poisson Proofs_Poisson Proofs_PoissonOpt Spec_Linear Proofs_Linear
  Proofs_LinearUnits Spec_Estimation Proofs_Estimation.
Import ListNotations.
Local Open Scope R_scope.

From Verif Require Proofs_Nmf.

Lemma mapM_ok {A B} (f : A -> result B) (Q : A -> B -> Prop) l :
  (forall x, In x l -> exists o, f x = Ok o /\ Q x o) ->
  exists out, mapM f l = Ok out /\ Forall2 (fun x o => f x = Ok o /\ Q x o) l out.
Proof.
  induction l as [|x l IH]; intro H; [exists []; split; [reflexivity|constructor]|].
  destruct (H x (or_introl eq_refl)) as (o & E & Ho). destruct IH as (out & E2 & F); [intros z Hz; apply H; now right|].
  exists (o :: out). split; [cbn; rewrite E; cbn; rewrite E2; reflexivity|constructor; auto].
Qed.
Lemma mapM_same {A B} (f : A -> result B) v l : (forall x, In x l -> f x = Ok v) -> mapM f l = Ok (repeat v (length l)).
Proof.
  induction l as [|x l IH]; intro H; [reflexivity|]. cbn. rewrite (H x (or_introl eq_refl)). cbn.
  rewrite IH; [reflexivity|]. intros z Hz. apply H. now right.
Qed.
Lemma Forall2_at {A B} (P : A -> B -> Prop) l l' k d : Forall2 P l l' -> (k < length l')%nat -> exists x, In x l /\ P x (nth k l' d).
Proof.
  intro F. revert k. induction F as [|x o l l' Hp F IH]; intros k Hk; cbn in Hk; [lia|].
  destruct k as [|k]; [exists x; split; [now left|exact Hp]|].
  destruct (IH k ltac:(lia)) as (z & Hz & Hp'). exists z. split; [now right|exact Hp'].
Qed.
Lemma Forall2_find {A B} (P : A -> B -> Prop) l l' x d : Forall2 P l l' -> In x l -> exists k, (k < length l')%nat /\ P x (nth k l' d).
Proof.
  induction 1 as [|z o l l' Hp F IH]; intro Hx; [easy|]. destruct Hx as [->|Hx].
  - exists 0%nat. split; [cbn; lia|exact Hp].
  - destruct (IH Hx) as (k & Hk & Hp'). exists (S k). split; [cbn; lia|exact Hp'].
Qed.

Definition vdiff (p : nat) (c c' : list R) : list R := map (fun j => entry c j - entry c' j) (seq 0 p).
Lemma length_vdiff p c c' : length (vdiff p c c') = p.
Proof. unfold vdiff. now rewrite map_length, seq_length. Qed.
Lemma entry_vdiff p c c' j : (j < p)%nat -> entry (vdiff p c c') j = entry c j - entry c' j.
Proof. exact (entry_mapseq (fun j => entry c j - entry c' j) p j). Qed.
Lemma eta_vdiff p X c c' b b' i : eta p X (vdiff p c c') (b - b') i = eta p X c b i - eta p X c' b' i.
Proof.
  unfold eta. rewrite (Sum_ext p (fun j => mat X i j * entry (vdiff p c c') j) (fun j => mat X i j * entry c j - mat X i j * entry c' j)).
  - rewrite Sum_minus. lra.
  - intros j Hj. rewrite entry_vdiff by exact Hj. ring.
Qed.
Lemma existsb_false_entries mask : existsb (fun b : bool => b) mask = false -> forall j, nth j mask false = false.
Proof.
  induction mask as [|b m IH]; cbn; [intros _ [|j]; reflexivity|]. destruct b; [discriminate|]. intros H [|j]; [reflexivity|apply IH, H].
Qed.
Lemma eta_zeros p X b i : eta p X (repeat 0 p) b i = b.
Proof. unfold eta. rewrite Sum_zero; [lra|]. intros j Hj. rewrite entry_zeros. ring. Qed.

Section Core.
  Variables (has : bool) (n p : nat) (X : list (list R)) (y beta : list R) (b : R).
  Hypothesis HX : matrix n p X.
  Hypothesis HB : noiseless n p X y beta b.
  Hypothesis Hb : has = false -> b = 0.

  (** Where two models agree on identifying samples their coefficients agree. *)
  Lemma agree free S rows c i : identified p free S X rows -> (forall r, In r rows -> (r < n)%nat) -> length c = p ->
    (free = false -> i = b) -> (forall j, (j < p)%nat -> ~ S j -> entry c j = 0 /\ entry beta j = 0) ->
    (forall r, In r rows -> eta p X c i r = entry y r) -> c = beta.
  Proof.
    intros HI Hr Lc Hf HS HE. destruct HB as (Lb & Ly & HY). apply (list_eq_entries c beta p Lc Lb). intros j Hj.
    assert (E : entry (vdiff p c beta) j = 0); [|rewrite entry_vdiff in E by exact Hj; lra].
    apply (HI (vdiff p c beta) (i - b)); [apply length_vdiff|intro F; rewrite (Hf F); ring| | |exact Hj].
    - intros k Hk NS. rewrite entry_vdiff by exact Hk. destruct (HS k Hk NS) as [-> ->]. ring.
    - intros r Hrr. rewrite eta_vdiff, (HE r Hrr), (HY r (Hr r Hrr)). ring.
  Qed.

  Variable ols : solver_ls (N := Rnum).
  Variable sp : Model_Fit.split.
  Hypothesis Htrain : forall r, In r (fst sp) -> (r < n)%nat.
  Hypothesis Htest : forall r, In r (snd sp) -> (r < n)%nat.
  Hypothesis H2 : (2 <= length (snd sp))%nat.

  Notation fit_of mask := (ols (part X (fst sp) mask) (part_y y (fst sp))).
  Notation est mask := (estimate_support (N := Rnum) ols "r2"%string 1 p X y sp mask).

  Lemma decision_part mask (m : list R * R) r : length mask = p -> length (fst m) = count (fun b => b) mask -> (r < n)%nat ->
    decision (N := Rnum) (fst m) (snd m) (pick mask (nth r X [])) = eta p X (spread_values (N := Rnum) mask (fst m)) (snd m) r.
  Proof.
    intros Lm Lc Hr. pose proof (row_length n p X r HX Hr) as Lx. unfold decision, eta, ndot, nsum, nzero. cbn.
    unfold mat. rewrite (Sum_eq_list p _ (spread_values (N := Rnum) mask (fst m))); [|exact Lx|rewrite length_spread; exact Lm].
    rewrite <- dot_spread; [|now rewrite Lm|exact Lc]. apply Rplus_comm.
  Qed.

  Lemma predictions mask (m : list R * R) : length mask = p -> length (fst m) = count (fun b => b) mask ->
    ls_predict (N := Rnum) m (masked_columns (N := Rnum) mask (matrix_rows (N := Rnum) X (snd sp))) =
    map (eta p X (spread_values (N := Rnum) mask (fst m)) (snd m)) (snd sp).
  Proof.
    intros Lm Lc. unfold ls_predict, masked_columns, matrix_rows. rewrite !map_map. apply map_ext_in. intros r Hr.
    apply decision_part; auto.
  Qed.

  (** The score of predictions given by a function of the sample. *)
  Lemma score_value (mask : list bool) (pr : list nat -> list R) (f : nat -> R) : pr (snd sp) = map f (snd sp) ->
    linear_score (N := Rnum) (r2_score (N := Rnum)) "r2"%string 1 y pr mask sp = Ok (r2_score (N := Rnum) (part_y y (snd sp)) (map f (snd sp))).
  Proof.
    intro E. unfold linear_score, target_rows. cbn [Nat.eqb]. rr. rewrite E. rewrite part_y_take. unfold part_y.
    rewrite !map_length, Nat.eqb_refl. reflexivity.
  Qed.
  Lemma score_facts (f : nat -> R) : let s := r2_score (N := Rnum) (part_y y (snd sp)) (map f (snd sp)) in
    s <= 1 /\ (s = 1 -> forall r, In r (snd sp) -> f r = entry y r) /\
    ((forall r, In r (snd sp) -> f r = entry y r) -> s = 1).
  Proof.
    intro s. assert (L : length (part_y y (snd sp)) = length (snd sp)) by (unfold part_y; apply map_length).
    assert (L2 : (2 <= length (part_y y (snd sp)))%nat) by (rewrite L; exact H2).
    split; [apply r2_at_most; exact L2|]. split.
    - intros Es r Hr. destruct (In_nth _ _ 0%nat Hr) as (k & Hk & <-).
      assert (Lk : (k < length (part_y y (snd sp)))%nat) by (rewrite L; exact Hk).
      pose proof (r2_one _ _ L2 (eq_trans L (eq_sym (map_length f (snd sp)))) Es k Lk) as Ek.
      rewrite (entry_part_y y (snd sp) k Hk) in Ek. symmetry. rewrite Ek.
      unfold entry. rewrite (nth_indep _ 0 (f 0%nat)) by (rewrite map_length; exact Hk). apply map_nth.
    - intro He. apply r2_exact; [exact L2|]. unfold part_y. apply map_ext_in. intros r Hr. symmetry. exact (He r Hr).
  Qed.

  Lemma estimate_facts mask : length mask = p ->
    (existsb (fun b => b) mask = true -> length (fst (fit_of mask)) = count (fun b => b) mask) ->
    exists o, est mask = Ok o /\ length (fst o) = p /\ (forall j, nth j mask false = false -> entry (fst o) j = 0) /\
      snd o <= 1 /\ (snd o = 1 -> exists i, forall r, In r (snd sp) -> eta p X (fst o) i r = entry y r).
  Proof.
    intros Lm HL. unfold estimate_support. destruct (existsb (fun b : bool => b) mask) eqn:Em.
    - specialize (HL eq_refl). rewrite (part_masked n p X (fst sp) mask HX Lm Htrain), part_y_take.
      set (m := fit_of mask) in *.
      rewrite (score_value mask _ (eta p X (spread_values (N := Rnum) mask (fst m)) (snd m)) (predictions mask m Lm HL)).
      eexists. split; [reflexivity|]. cbn [fst snd]. split; [rewrite length_spread; exact Lm|].
      split; [intros j Hj; apply spread_outside, Hj|].
      destruct (score_facts (eta p X (spread_values (N := Rnum) mask (fst m)) (snd m))) as (S1 & S2 & _).
      split; [exact S1|]. intro E. exists (snd m). exact (S2 E).
    - rewrite (score_value (repeat false p) _ (fun _ => nmean (N := Rnum) (take_rows y (fst sp)))).
      + eexists. split; [reflexivity|]. cbn [fst snd]. split; [apply repeat_length|].
        split; [intros j _; apply entry_zeros|].
        destruct (score_facts (fun _ => nmean (N := Rnum) (take_rows y (fst sp)))) as (S1 & S2 & _).
        split; [exact S1|]. intro E. exists (nmean (N := Rnum) (take_rows y (fst sp))). intros r Hr.
        change (nzero (N := Rnum)) with 0. rewrite eta_zeros. exact (S2 E r Hr).
      + generalize (nmean (N := Rnum) (take_rows y (fst sp))). intro v. clear. induction (snd sp) as [|a l IH]; [reflexivity|]. exact (f_equal (cons v) IH).
  Qed.

  (** A support with all relevant features is fitted exactly. *)
  Lemma estimate_exact mask : length mask = p -> existsb (fun b => b) mask = true -> fst sp <> [] ->
    least_squares has (count (fun b => b) mask) (part X (fst sp) mask) (part_y y (fst sp)) (fit_of mask) ->
    (forall j, nth j mask false = false -> entry beta j = 0) ->
    identified p has (fun j => nth j mask false = true) X (fst sp) ->
    est mask = Ok (beta, 1).
  Proof.
    intros Lm Em Hne (L & HL0 & HL) HM HI. destruct HB as (Lb & Ly & HY).
    assert (Hspread : spread_values (N := Rnum) mask (pick mask beta) = beta) by (apply spread_pick; [now rewrite Lm|exact HM]).
    set (m := fit_of mask) in *. set (k := count (fun b : bool => b) mask) in *.
    assert (Lp : length (pick mask beta) = k) by (apply length_pick; now rewrite Lm).
    assert (Ltr : length (part_y y (fst sp)) = length (fst sp)) by (unfold part_y; apply map_length).
    assert (Z : squared_error k (part X (fst sp) mask) (part_y y (fst sp)) (pick mask beta) b = 0).
    { unfold squared_error. apply Sum_zero. intros r Hr. rewrite Ltr in Hr. rewrite (entry_part_y y (fst sp) r Hr).
      unfold k. rewrite (eta_part n p X (fst sp) mask (pick mask beta) b r HX Lm Htrain Lp Hr), Hspread.
      rewrite (HY (nth r (fst sp) 0%nat) (Htrain _ (nth_In _ _ Hr))). ring. }
    pose proof (HL (pick mask beta) b Lp Hb) as Le. rewrite Z in Le.
    assert (Fit : forall r, In r (fst sp) -> eta p X (spread_values (N := Rnum) mask (fst m)) (snd m) r = entry y r).
    { intros r Hr. destruct (In_nth _ _ 0%nat Hr) as (q & Hq & <-).
      assert (P0 : forall q, (q < length (part_y y (fst sp)))%nat ->
        0 <= (entry (part_y y (fst sp)) q - eta k (part X (fst sp) mask) (fst m) (snd m) q) * (entry (part_y y (fst sp)) q - eta k (part X (fst sp) mask) (fst m) (snd m) q))
        by (intros; apply Rle_0_sqr).
      assert (Z2 : squared_error k (part X (fst sp) mask) (part_y y (fst sp)) (fst m) (snd m) = 0)
        by (apply Rle_antisym; [exact Le|unfold squared_error; apply Sum_nonneg; exact P0]).
      assert (Lq : (q < length (part_y y (fst sp)))%nat) by (rewrite Ltr; exact Hq).
      pose proof (Proofs_Nmf.Sum_zero_inv _ _ P0 Z2 q Lq) as Eq. cbv beta in Eq. apply Rsqr_0_uniq in Eq.
      rewrite (entry_part_y y (fst sp) q Hq) in Eq. unfold k in Eq.
      rewrite (eta_part n p X (fst sp) mask (fst m) (snd m) q HX Lm Htrain L Hq) in Eq. lra. }
    assert (Ec : spread_values (N := Rnum) mask (fst m) = beta).
    { apply (agree has (fun j => nth j mask false = true) (fst sp) _ (snd m) HI Htrain); [rewrite length_spread; exact Lm| | |exact Fit].
      - intro F. exact (eq_trans (HL0 F) (eq_sym (Hb F))).
      - intros j Hj NS. assert (Nj : nth j mask false = false) by (destruct (nth j mask false); [now elim NS|reflexivity]).
        split; [apply spread_outside, Nj|exact (HM j Nj)]. }
    assert (Ei : snd m = b).
    { destruct (fst sp) as [|r l] eqn:Es; [easy|]. pose proof (Fit r (or_introl eq_refl)) as Fr. rewrite Ec in Fr.
      rewrite (HY r (Htrain r (or_introl eq_refl))) in Fr. unfold eta in Fr. lra. }
    unfold estimate_support. rewrite Em. rewrite (part_masked n p X (fst sp) mask HX Lm Htrain), part_y_take. fold m.
    rewrite (score_value mask _ (eta p X (spread_values (N := Rnum) mask (fst m)) (snd m)) (predictions mask m Lm L)).
    cbn [bind]. f_equal. f_equal; [exact Ec|]. apply score_facts. intros r Hr. rewrite Ec, Ei. symmetry. exact (HY r (Htest r Hr)).
  Qed.

  (** The best support of a bootstrap gives the true coefficients. *)
  Lemma best_exact supports : fst sp <> [] -> (forall mask, In mask supports -> length mask = p) ->
    (forall mask, In mask supports -> existsb (fun b => b) mask = true ->
       least_squares has (count (fun b => b) mask) (part X (fst sp) mask) (part_y y (fst sp)) (fit_of mask)) ->
    (forall mask, In mask supports -> identified p true (fun j => nth j mask false = true \/ entry beta j <> 0) X (snd sp)) ->
    (exists mask, In mask supports /\ existsb (fun b => b) mask = true /\ (forall j, nth j mask false = false -> entry beta j = 0) /\
       identified p has (fun j => nth j mask false = true) X (fst sp)) ->
    (let* out := mapM (estimate_support (N := Rnum) ols "r2"%string 1 p X y sp) supports in best_estimate out) = Ok beta.
  Proof.
    intros Hne Hlen Hls Hid (good & Hg & Eg & Mg & Ig).
    set (Q := fun (mask : list bool) (o : list R * R) => length (fst o) = p /\ (forall j, nth j mask false = false -> entry (fst o) j = 0) /\
      snd o <= 1 /\ (snd o = 1 -> exists i, forall r, In r (snd sp) -> eta p X (fst o) i r = entry y r)).
    destruct (mapM_ok (estimate_support (N := Rnum) ols "r2"%string 1 p X y sp) Q supports) as (out & Eo & F).
    { intros mask Hm. apply estimate_facts; [exact (Hlen mask Hm)|]. intro E. exact (proj1 (Hls mask Hm E)). }
    rewrite Eo. cbn [bind]. unfold best_estimate.
    assert (Hsp : map snd out <> []).
    { destruct out; [|discriminate]. inversion F. subst. easy. }
    destruct (argmax_spec (map snd out) Hsp) as (m & Em & Hm & Hmax). rr. rewrite Em. cbn [rmap]. f_equal.
    rewrite map_length in Hm, Hmax.
    assert (N1 : forall k, (k < length out)%nat -> nth k (map snd out) 0 = snd (nth k out ([], 0))) by (intros k Hk; exact (map_nth snd out ([], 0) k)).
    assert (N2 : forall k, nth k (map fst out) [] = fst (nth k out ([], 0))) by (intros k; exact (map_nth fst out ([], 0) k)).
    destruct (Forall2_find _ _ _ good ([], 0) F Hg) as (k & Hk & Ek & _).
    rewrite (estimate_exact good (Hlen good Hg) Eg Hne (Hls good Hg Eg) Mg Ig) in Ek. injection Ek as Ek.
    pose proof (Hmax k Hk) as Gk. rewrite (N1 k Hk), (N1 m Hm), <- Ek in Gk. cbn [snd] in Gk.
    destruct (Forall2_at _ _ _ m ([], 0) F Hm) as (mask & Hmask & _ & Lo & Zo & So & Fo).
    rewrite N2. destruct Fo as (i & Fo); [lra|].
    apply (agree true _ (snd sp) _ i (Hid mask Hmask) Htest Lo); [discriminate| |exact Fo].
    intros j Hj NS. split.
    - apply Zo. destruct (nth j mask false); [elim NS; now left|reflexivity].
    - destruct (Req_EM_T (entry beta j) 0) as [Z|Z]; [exact Z|elim NS; now right].
  Qed.
End Core.

(** ** The whole estimation module *)
Lemma bagged_same p (c : list R) k : (0 < k)%nat -> length c = p -> bagged (N := Rnum) p (repeat c k) = c.
Proof.
  intros Hk Lc. apply (list_eq_entries _ _ p); [unfold bagged; now rewrite map_length, seq_length|exact Lc|].
  intros j Hj. unfold bagged.
  refine (eq_trans (entry_mapseq (fun j => median (N := Rnum) (map (fun e => nth j e 0) (repeat c k))) p j Hj) _).
  rewrite map_repeat'. exact (median_repeat (nth j c 0) k Hk).
Qed.

Lemma intercept_exact n p X y beta b has : matrix n p X -> (0 < n)%nat -> noiseless n p X y beta b -> (has = false -> b = 0) ->
  linear_intercept (N := Rnum) has p X y beta = b.
Proof.
  intros HX Hn (Lb & Ly & HY) Hb. destruct has; [|symmetry; exact (Hb eq_refl)].
  rewrite (linear_intercept_value n p X y beta HX Hn Ly Lb).
  assert (HN : 0 < INR n) by (apply lt_0_INR; exact Hn).
  assert (E : average n y = b + Sum p (fun j => average n (map (fun r => entry r j) X) * entry beta j)); [|lra].
  unfold average at 1. rewrite (Sum_ext n (fun i => entry y i) (eta p X beta b)) by exact HY.
  unfold eta. rewrite Sum_plus, Sum_const.
  assert (E2 : Sum n (fun i => Sum p (fun j => mat X i j * entry beta j)) = Sum p (fun j => INR n * (average n (map (fun r => entry r j) X) * entry beta j))).
  { rewrite Sum_swap. apply Sum_ext. intros j Hj. rewrite Sum_scal_r. unfold average.
    assert (E3 : Sum n (fun i => entry (map (fun r => entry r j) X) i) = Sum n (fun i => mat X i j)).
    { apply Sum_ext. intros i Hi. exact (entry_col X j i). }
    rewrite E3. field. lra. }
  rewrite E2, Sum_scal. field. lra.
Qed.
