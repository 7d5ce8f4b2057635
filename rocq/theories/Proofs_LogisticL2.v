(** L2-penalized logistic fits (C94). *)
From Coq Require Import ZArith List Bool Arith Reals Lra Lia.
From Verif Require Import Prelude Num Model_Mpi Model_Rescale Spec_Rescale Model_Poisson Spec_Poisson
  Model_Logistic Spec_Logistic Model_Lbfgs Spec_Lbfgs Model_LogisticFit Spec_LogisticFit
  Proofs_Intersection Proofs_Rescale Proofs_Poisson Proofs_PoissonOpt Proofs_PoissonMore
  Proofs_Logistic Proofs_LogisticGrad Proofs_LogisticGrid Proofs_Multinomial Proofs_MultiGrid Proofs_LogisticIntercept Proofs_LogisticMain
  Proofs_Lbfgs Proofs_LbfgsVec Proofs_LbfgsReal Proofs_LbfgsTrace Proofs_LbfgsMain Proofs_LogisticAbandon Proofs_LogisticConvex Proofs_LogisticFit
  Proofs_LogisticOpt Proofs_LogisticMulti Deriv.
Import ListNotations.

(** ** Positions *)
Lemma filter_every {A} (f : A -> bool) l : (forall a, In a l -> f a = true) -> filter f l = l.
Proof.
  induction l as [|a l IH]; intro H; [reflexivity|]. cbn [filter]. rewrite (H a (or_introl eq_refl)). f_equal.
  apply IH. intros b Hb. apply H. now right.
Qed.
Definition rank (P : nat -> bool) (j : nat) : nat := length (filter P (seq 0 j)).
Lemma filter_split P n j : (j < n)%nat -> P j = true ->
  filter P (seq 0 n) = filter P (seq 0 j) ++ j :: filter P (seq (S j) (n - S j)).
Proof.
  intros Hj HP. replace n with (j + S (n - S j))%nat at 1 by lia. rewrite seq_app, filter_app. cbn [seq plus filter].
  now rewrite HP.
Qed.
Lemma nth_rank P n j : (j < n)%nat -> P j = true -> nth (rank P j) (filter P (seq 0 n)) 0%nat = j.
Proof.
  intros Hj HP. rewrite (filter_split P n j Hj HP), app_nth2 by (unfold rank; lia). unfold rank. now rewrite Nat.sub_diag.
Qed.
Lemma rank_lt P n j : (j < n)%nat -> P j = true -> (rank P j < length (filter P (seq 0 n)))%nat.
Proof. intros Hj HP. rewrite (filter_split P n j Hj HP), app_length. unfold rank. cbn. lia. Qed.
Lemma rank_nth P n i : (i < length (filter P (seq 0 n)))%nat -> rank P (nth i (filter P (seq 0 n)) 0%nat) = i.
Proof.
  intros Hi. set (idx := filter P (seq 0 n)) in *.
  pose proof (nth_In idx 0%nat Hi) as H. unfold idx in H. apply filter_In in H as [H1 H2]. fold idx in H1, H2. apply in_seq in H1.
  assert (Hl : (nth i idx 0 < n)%nat) by lia.
  pose proof (proj1 (NoDup_nth idx 0%nat) (NoDup_filter P (seq_NoDup n 0))) as Inj.
  apply Inj; [now apply rank_lt|exact Hi|]. now apply nth_rank.
Qed.
Lemma positions_NoDup P n : NoDup (filter P (seq 0 n)).
Proof. apply NoDup_filter, seq_NoDup. Qed.
Lemma positions_lt P n i : In i (filter P (seq 0 n)) -> (i < n)%nat.
Proof. intro H. apply filter_In in H as [H _]. apply in_seq in H. lia. Qed.

Section Vectors.
  Context {N : NumOps}.

  Lemma nth_scatter_at idx : forall (v a : list N) i, NoDup idx -> length v = length idx -> (i < length idx)%nat ->
    (forall j, In j idx -> (j < length a)%nat) ->
    nth (nth i idx 0%nat) (scatter idx v a) nzero = nth i v nzero.
  Proof.
    induction idx as [|k idx IH]; intros [|x v] a i Hd Hl Hi Ha; cbn [length] in *; try lia.
    inversion Hd as [|? ? Hk Hd']; subst. unfold scatter. cbn [combine fold_left fst snd].
    change (fold_left _ (combine idx v) (lset k x a)) with (scatter idx v (lset k x a)).
    destruct i as [|i]; cbn [nth].
    - rewrite nth_scatter_other by exact Hk. rewrite nth_lset by (apply Ha; now left). now rewrite Nat.eqb_refl.
    - apply IH; [exact Hd'|lia|lia|]. intros j Hj. rewrite length_lset. apply Ha. now right.
  Qed.

  Definition gfill (fr : list bool) (x : list N) : list N :=
    map (fun j => if nth j fr false then nth (rank (fun i => nth i fr false) j) x nzero else nzero) (seq 0 (length fr)).

  Lemma nth_gfill fr x j : (j < length fr)%nat ->
    nth j (gfill fr x) nzero = if nth j fr false then nth (rank (fun i => nth i fr false) j) x nzero else nzero.
  Proof. intro H. unfold gfill. now rewrite nth_map_seq by exact H. Qed.
  Lemma length_gfill fr x : length (gfill fr x) = length fr.
  Proof. unfold gfill. now rewrite map_length, seq_length. Qed.

  Variables (fr : list bool) (m : list N).
  Hypothesis Hlen : length fr = length m.
  Hypothesis Hfr : forall j, (j < length m)%nat -> nth j fr false = nnonzero (nth j m nzero).

  Lemma positions_fr : nonzero_positions m = filter (fun i => nth i fr false) (seq 0 (length fr)).
  Proof.
    unfold nonzero_positions. rewrite Hlen. apply filter_ext_in. intros j Hj. apply in_seq in Hj. symmetry. apply Hfr. lia.
  Qed.

  Lemma scatter_fill (x a : list N) : length a = length fr -> length x = length (nonzero_positions m) ->
    scatter (nonzero_positions m) x (map (fun _ => nzero) a) = gfill fr x.
  Proof.
    intros La Lx. apply (nth_ext _ _ nzero nzero).
    { now rewrite length_scatter, map_length, length_gfill. }
    rewrite length_scatter, map_length, La. intros j Hj. rewrite nth_gfill by exact Hj.
    destruct (nth j fr false) eqn:E.
    - rewrite positions_fr in *.
      pose proof (nth_rank (fun i => nth i fr false) (length fr) j Hj E) as R.
      pose proof (rank_lt (fun i => nth i fr false) (length fr) j Hj E) as L.
      rewrite <- R at 1. apply nth_scatter_at; [apply positions_NoDup|exact Lx|exact L|].
      intros i Hi. rewrite map_length, La. now apply positions_lt in Hi.
    - rewrite nth_scatter_other; [apply nth_zeros|]. rewrite positions_fr. intro C. apply filter_In in C as [_ C]. congruence.
  Qed.
End Vectors.
Local Open Scope R_scope.

(** ** The L2 branch over the reals *)
Section Filled.
  Variable fr : list bool.
  Let P (i : nat) := nth i fr false.
  Let idx := filter P (seq 0 (length fr)).

  Lemma fill_length x : length (fill fr x) = length fr.
  Proof. unfold fill. now rewrite map_length, seq_length. Qed.
  Lemma kept_length w : length (kept fr w) = length idx.
  Proof. unfold kept. now rewrite map_length. Qed.
  Lemma fill_entry x j : (j < length fr)%nat -> entry (fill fr x) j = if P j then entry x (rank P j) else 0.
  Proof. intro H. unfold entry at 1, fill. now rewrite nth_map_seq by exact H. Qed.
  Lemma fill_masked x j : P j = false -> entry (fill fr x) j = 0.
  Proof.
    intros Hj. destruct (Nat.lt_ge_cases j (length fr)) as [Hl|Hl].
    - rewrite fill_entry by exact Hl. now rewrite Hj.
    - unfold entry. apply nth_overflow. now rewrite fill_length.
  Qed.
  Lemma idx_at i : (i < length idx)%nat -> (nth i idx 0 < length fr)%nat /\ P (nth i idx 0%nat) = true.
  Proof. intro Hi. pose proof (nth_In idx 0%nat Hi) as H. unfold idx in H. apply filter_In in H as [H1 H2]. apply in_seq in H1. split; [exact (proj2 H1)|exact H2]. Qed.
  Lemma fill_at x i : (i < length idx)%nat -> entry (fill fr x) (nth i idx 0%nat) = entry x i.
  Proof. intro Hi. destruct (idx_at i Hi) as [H1 H2]. rewrite fill_entry, H2 by exact H1. f_equal. now apply rank_nth. Qed.
  Lemma fill_upd x i t : length x = length idx -> (i < length idx)%nat -> fill fr (upd x i t) = upd (fill fr x) (nth i idx 0%nat) t.
  Proof.
    intros Lx Hi. destruct (idx_at i Hi) as [H1 H2].
    assert (Lf : (nth i idx 0 < length (fill fr x))%nat) by (rewrite fill_length; exact H1).
    apply (nth_ext _ _ 0 0); [rewrite length_upd by exact Lf; now rewrite !fill_length|]. rewrite fill_length. intros j Hj.
    change (entry (fill fr (upd x i t)) j = entry (upd (fill fr x) (nth i idx 0%nat) t) j).
    rewrite entry_upd by exact Lf. rewrite !fill_entry by exact Hj. destruct (P j) eqn:E.
    - rewrite entry_upd by lia. destruct (Nat.eqb_spec j (nth i idx 0%nat)) as [->|Hne].
      + unfold idx. rewrite rank_nth by exact Hi. now rewrite Nat.eqb_refl.
      + destruct (Nat.eqb_spec (rank P j) i) as [He|]; [|reflexivity]. exfalso. apply Hne. rewrite <- He. symmetry. now apply nth_rank.
    - destruct (Nat.eqb_spec j (nth i idx 0%nat)) as [->|]; [congruence|reflexivity].
  Qed.
  Lemma kept_entry w i : (i < length idx)%nat -> entry (kept fr w) i = entry w (nth i idx 0%nat).
  Proof. intro Hi. unfold entry at 1, kept. now rewrite (nth_mapd (entry w) _ _ 0%nat) by exact Hi. Qed.
  Lemma fill_kept w : length w = length fr -> (forall j, (j < length fr)%nat -> P j = false -> entry w j = 0) -> fill fr (kept fr w) = w.
  Proof.
    intros Lw Hw. apply (nth_ext _ _ 0 0); [now rewrite fill_length|]. rewrite fill_length. intros j Hj.
    change (entry (fill fr (kept fr w)) j = entry w j). rewrite fill_entry by exact Hj.
    destruct (P j) eqn:E; [|symmetry; now apply Hw].
    rewrite kept_entry by (now apply rank_lt). f_equal. now apply nth_rank.
  Qed.
End Filled.

(** A mask and the entries it leaves free. *)
Definition leaves (full : option (list R)) (fr : list bool) : Prop :=
  match full with
  | Some m => length m = length fr /\ forall j, (j < length fr)%nat -> nth j fr false = nnonzero (N := Rnum) (entry m j)
  | None => forall j, (j < length fr)%nat -> nth j fr false = true
  end.

Lemma every_kept fr : (forall j, (j < length fr)%nat -> nth j fr false = true) ->
  (forall x, length x = length fr -> fill fr x = x) /\ (forall x, length x = length fr -> kept fr x = x).
Proof.
  intros Hall.
  assert (Ef : forall k, (k <= length fr)%nat -> filter (fun i => nth i fr false) (seq 0 k) = seq 0 k).
  { intros k Hk. apply filter_every. intros j Hj. apply in_seq in Hj. apply Hall. lia. }
  assert (K : forall x, length x = length fr -> kept fr x = x).
  { intros x Hx. unfold kept. rewrite Ef by lia. apply (nth_ext _ _ 0 0); [now rewrite map_length, seq_length|].
    rewrite map_length, seq_length. intros j Hj. now rewrite nth_map_seq by exact Hj. }
  split; [|exact K]. intros x Hx. rewrite <- (K x Hx) at 1. apply fill_kept; [exact Hx|].
  intros j Hj E. rewrite Hall in E by exact Hj. discriminate.
Qed.

Lemma l2_optimal opt (f : list R -> R * list R) (full : option (list R)) (w0 : list R) (fr : list bool) (G : list R -> R) delta :
  length w0 = length fr -> leaves full fr -> value_and_gradient (length fr) G f ->
  minimizes_from opt (kept fr w0) (fun x => G (fill fr x)) delta ->
  let w := l2_solve (N := Rnum) opt f full w0 in
  length w = length fr /\ (forall j, nth j fr false = false -> entry w j = 0) /\
  forall w', length w' = length fr -> (forall j, (j < length fr)%nat -> nth j fr false = false -> entry w' j = 0) -> G w <= G w' + delta.
Proof.
  intros L0 Hfull Hf Hopt. cbv zeta. unfold minimizes_from in Hopt. rewrite kept_length in Hopt.
  set (idx := filter (fun i => nth i fr false) (seq 0 (length fr))) in *.
  destruct full as [m|].
  - destruct Hfull as [Lm Hm].
    assert (Lm' : length fr = length m) by congruence.
    assert (Hm' : forall j, (j < length m)%nat -> nth j fr false = nnonzero (N := Rnum) (nth j m 0)).
    { intros j Hj. apply Hm. lia. }
    assert (Ei : nonzero_positions (N := Rnum) m = idx) by exact (positions_fr (N := Rnum) fr m Lm' Hm').
    pose (h := fun x : list R => let r := f (scatter (N := Rnum) idx x (map (fun _ => 0) w0)) in (fst r, gather (N := Rnum) idx (snd r))).
    assert (El : l2_solve (N := Rnum) opt f (Some m) w0 = scatter (N := Rnum) idx (opt h (kept fr w0)) (map (fun _ => 0) w0)).
    { unfold l2_solve. cbv zeta. rewrite Ei. reflexivity. }
    rewrite El. clear El.
    assert (SF : forall x, length x = length idx -> scatter (N := Rnum) idx x (map (fun _ => 0) w0) = fill fr x).
    { intros x Hx. rewrite <- Ei. refine (scatter_fill (N := Rnum) fr m Lm' Hm' x w0 L0 _). now rewrite Ei. }
    assert (Hh : value_and_gradient (length idx) (fun x => G (fill fr x)) h).
    { intros x Hx. destruct (Hf (fill fr x) (fill_length fr x)) as (F1 & F2 & F3).
      assert (Eh : h x = (fst (f (fill fr x)), map (entry (snd (f (fill fr x)))) idx)).
      { exact (f_equal (fun v => (fst (f v), map (entry (snd (f v))) idx)) (SF x Hx)). }
      rewrite Eh. cbn [fst snd]. split; [exact F1|]. split; [now rewrite map_length|].
      intros i Hi. destruct (idx_at fr i Hi) as [I1 I2].
      apply (der_ext (fun t => G (upd (fill fr x) (nth i idx 0%nat) t))).
      { intros t. symmetry. exact (f_equal G (fill_upd fr x i t Hx Hi)). }
      pose proof (F3 (nth i idx 0%nat) I1) as D.
      assert (Ea : entry (fill fr x) (nth i idx 0%nat) = entry x i) by exact (fill_at fr x i Hi). rewrite Ea in D.
      unfold entry at 2. rewrite (nth_mapd (entry (snd (f (fill fr x)))) _ _ 0%nat) by exact Hi. exact D. }
    destruct (Hopt h Hh) as [Lx Hx].
    set (x := opt h _) in *. rewrite (SF x Lx).
    split; [apply fill_length|]. split; [intros j; apply fill_masked|].
    intros w' Lw' Hw'. pose proof (Hx (kept fr w') (kept_length fr w')) as Hg. rewrite (fill_kept fr w' Lw' Hw') in Hg. exact Hg.
  - destruct (every_kept fr Hfull) as [Ef Ek].
    assert (Ec : length idx = length fr).
    { unfold idx. rewrite filter_every, seq_length; [reflexivity|]. intros j Hj. apply in_seq in Hj. apply Hfull. lia. }
    rewrite Ec in Hopt. rewrite (Ek w0 L0) in Hopt. cbn [l2_solve].
    destruct (Hopt f) as [Lx Hx].
    { intros x Hx. destruct (Hf x Hx) as (F1 & F2 & F3). rewrite (Ef x Hx). split; [exact F1|]. split; [exact F2|].
      intros j Hj. apply (der_ext (fun t => G (upd x j t))); [|now apply F3]. intros t. rewrite Ef; [reflexivity|]. rewrite length_upd; lia. }
    split; [exact Lx|]. split.
    { intros j Hj. destruct (Nat.lt_ge_cases j (length fr)) as [Hl|Hl]; [rewrite Hfull in Hj by exact Hl; discriminate|].
      unfold entry. apply nth_overflow. rr. lia. }
    intros w' Lw' _. specialize (Hx w' Lw'). rewrite !Ef in Hx by assumption. exact Hx.
Qed.

(** ** Starts *)
Lemma in_after {A} n (l : list A) x : In x (skipn n l) -> In x l.
Proof. intro H. rewrite <- (firstn_skipn n l). apply in_or_app. now right. Qed.

Section Starts.
  Context {N : NumOps}.
  Lemma start_value (has : bool) k p (coef : option (list (list N))) y c j : let q := (p + if has then 1 else 0)%nat in
    (0 < q)%nat -> warm_rows k p q coef -> (c < k)%nat -> (j < q)%nat ->
    nth j (nth c (multi_start has k p None coef y) []) nzero
      = start_entry q (option_map (fun m => nth c m []) coef) (nth c (multi_intercept k y) nzero) j.
  Proof.
    intros q Hq Hc Hck Hj. unfold multi_start. cbv zeta. fold q.
    set (r0 := map _ (seq 0 k)).
    assert (L0 : length r0 = k) by (unfold r0; now rewrite map_length, seq_length).
    assert (E0 : nth c r0 [] = repeat nzero (q - 1) ++ [nth c (multi_intercept k y) nzero]).
    { unfold r0. now rewrite nth_map_seq by exact Hck. }
    assert (Ec : nth j (nth c r0 []) nzero = if Nat.eqb (S j) q then nth c (multi_intercept k y) nzero else nzero).
    { rewrite E0. destruct (Nat.eqb_spec (S j) q) as [E|E].
      - rewrite app_nth2 by (rewrite repeat_length; lia). rewrite repeat_length. now replace (j - (q - 1))%nat with 0%nat by lia.
      - rewrite app_nth1 by (rewrite repeat_length; lia). apply nth_repeat. }
    destruct coef as [m|]; cbn [option_map]; unfold start_entry; cbv zeta; [|exact Ec].
    assert (Lm : length m = k) by (destruct Hc as [[L _]|[L _]]; exact L).
    assert (Lr : (length (nth c m []) <= q)%nat).
    { destruct Hc as [[L F]|[L F]]; rewrite (nth_len _ _ _ F) by lia; unfold q; lia. }
    rewrite (map2_nth _ _ _ c [] [] []) by lia.
    destruct (Nat.ltb_spec j (length (nth c m []))) as [H|H]; [now rewrite app_nth1 by exact H|].
    rewrite app_nth2 by exact H. rewrite <- Ec. rewrite <- (firstn_skipn (length (nth c m [])) (nth c r0 [])) at 2.
    assert (Lf : length (firstn (length (nth c m [])) (nth c r0 [])) = length (nth c m [])).
    { rewrite firstn_length, E0, app_length, repeat_length. cbn [length]. lia. }
    rewrite app_nth2 by lia. now rewrite Lf.
  Qed.

  Lemma start_times (has : bool) k p (m : list (list N)) coef y c j : let q := (p + if has then 1 else 0)%nat in
    (0 < q)%nat -> grid k p m -> warm_rows k p q coef -> (c < k)%nat -> (j < q)%nat ->
    nth j (nth c (multi_start has k p (Some m) coef y) []) nzero
      = let v := nth j (nth c (multi_start has k p None coef y) []) nzero in
        if Nat.ltb j p then nmul v (nth j (nth c m []) nzero) else v.
  Proof.
    intros q Hq Hm Hc Hck Hj. cbv zeta. pose proof (start_rows has k p None coef y Hq Logic.I Hc) as [L F]. fold q in F.
    change (multi_start has k p (Some m) coef y) with
      (map2 (fun mr r => map2 nmul (firstn p r) mr ++ skipn p r) m (multi_start has k p None coef y)).
    set (rows := multi_start has k p None coef y) in *. destruct Hm as [Lm Fm].
    rewrite (map2_nth _ _ _ c [] [] []) by lia.
    assert (Lr : length (nth c rows []) = q) by (apply (nth_len _ _ _ F); lia).
    assert (Lmr : length (nth c m []) = p) by (apply (nth_len _ _ _ Fm); lia).
    assert (Lf : length (firstn p (nth c rows [])) = p) by (rewrite firstn_length; unfold q in Lr; lia).
    assert (L2 : length (map2 nmul (firstn p (nth c rows [])) (nth c m [])) = p) by (rewrite map2_length; lia).
    destruct (Nat.ltb_spec j p) as [H|H].
    - rewrite app_nth1 by lia. rewrite (map2_nth nmul _ _ j nzero nzero nzero) by lia. f_equal.
      rewrite <- (firstn_skipn p (nth c rows [])) at 2. now rewrite app_nth1 by lia.
    - rewrite app_nth2 by lia. rewrite L2. rewrite <- (firstn_skipn p (nth c rows [])) at 2.
      rewrite app_nth2 by lia. now rewrite Lf.
  Qed.

  Lemma binary_start_value (has : bool) p (coef : option (list N)) : let q := (p + if has then 1 else 0)%nat in
    match coef with Some c => length c = p \/ length c = q | None => True end ->
    forall mask, binary_start has p mask coef = Ok (apply_mask p mask (map (start_entry q coef nzero) (seq 0 q))).
  Proof.
    intros q Hc mask. unfold binary_start. cbv zeta. fold q.
    assert (Ez : forall j, (if Nat.eqb (S j) q then nzero else nzero) = @nzero N) by (intro j; now destruct (Nat.eqb (S j) q)).
    destruct coef as [c|].
    - rewrite repeat_length. assert (Eb : (Nat.eqb (length c) p || Nat.eqb (length c) q)%bool = true).
      { apply orb_true_iff. destruct Hc as [H|H]; [left|right]; now apply Nat.eqb_eq. }
      rewrite Eb. f_equal. f_equal. assert (Lq : (length c <= q)%nat) by (unfold q in *; lia).
      apply (nth_ext _ _ nzero nzero).
      { rewrite app_length, skipn_length, repeat_length, map_length, seq_length. lia. }
      intros j Hj. rewrite app_length, skipn_length, repeat_length in Hj. rewrite nth_map_seq by lia. unfold start_entry. cbv zeta.
      destruct (Nat.ltb_spec j (length c)) as [H|H]; [now rewrite app_nth1 by exact H|]. rewrite app_nth2 by exact H. rewrite Ez.
      destruct (nth_in_or_default (j - length c) (skipn (length c) (repeat (@nzero N) q)) nzero) as [K|K]; [|exact K].
      assert (Kr : In (nth (j - length c) (skipn (length c) (repeat (@nzero N) q)) nzero) (repeat nzero q)).
      { exact (in_after _ _ _ K). }
      now apply repeat_spec in Kr.
    - f_equal. f_equal. apply (nth_ext _ _ nzero nzero); [now rewrite repeat_length, map_length, seq_length|].
      intros j Hj. rewrite repeat_length in Hj. rewrite nth_map_seq by exact Hj. rewrite nth_repeat. symmetry. apply Ez.
  Qed.
End Starts.

(** ** Two classes *)
Lemma optimized p mask : some_one p mask -> to_optimize (N := Rnum) mask = true.
Proof.
  destruct mask as [m|]; [|reflexivity]. intros [[Lm H01] (j & Hj & E)]. cbn [to_optimize]. unfold nnonzero. apply negb_true_iff. apply Reqb_f.
  intro Hs. assert (Es : Sum p (entry m) = 0) by exact (eq_trans (eq_sym (rsum_Sum p m Lm)) Hs).
  assert (T : entry m j <= Sum p (entry m)). { apply (Sum_term p (entry m) j); [|exact Hj]. intros i Hi. destruct (H01 i Hi) as [->| ->]; lra. }
  lra.
Qed.

Lemma nonzero_R (v : R) : nnonzero (N := Rnum) v = false <-> v = 0.
Proof. unfold nnonzero. rewrite negb_false_iff. apply Reqb_t. Qed.

Lemma bool_by (b c : bool) (P : Prop) : (b = false <-> P) -> (c = false <-> P) -> b = c.
Proof.
  intros Hb Hc. destruct b, c; try reflexivity.
  - assert (H : P) by (apply Hc; reflexivity). apply Hb in H. discriminate.
  - assert (H : P) by (apply Hb; reflexivity). apply Hc in H. discriminate.
Qed.

Lemma binary_l2 n p (has : bool) (C tol : R) mi X y (sw : list R) (mask coef : option (list R)) opt fuel lsfuel fr delta :
  matrix n p X -> (0 < n)%nat -> length y = n -> length sw = n -> some_one p mask ->
  let q := (p + if has then 1 else 0)%nat in
  match coef with Some c => length c = p \/ length c = q | None => True end ->
  free_entries has 1 p (fun _ j => exists m, mask = Some m /\ entry m j = 0) fr ->
  minimizes_from opt (kept fr (map (start_entry (N := Rnum) q coef 0) (seq 0 q)))
    (fun x => logistic_loss n p X (signs y) sw (1 / C) (firstn p (fill fr x)) (entry (fill fr x) p)) delta ->
  exists (c : list R) (b : R),
    fit_binary (N := Rnum) true has p C tol mi X y sw mask coef opt fuel lsfuel = Some (Fitted (N := Rnum) [c] [b] None) /\
    length c = p /\ obeys p mask c /\ (has = false -> b = 0) /\
    forall c' b', length c' = p -> obeys p mask c' -> (has = false -> b' = 0) ->
      logistic_loss n p X (signs y) sw (1 / C) c b <= logistic_loss n p X (signs y) sw (1 / C) c' b' + delta.
Proof.
  intros HX Hn Hy Hsw Hm q Hc Hfr Hopt. unfold fit_binary. cbv zeta.
  assert (Hq : q = p \/ q = S p) by (unfold q; destruct has; lia).
  destruct Hfr as [Lfr Hfr]. fold q in Lfr, Hfr. rewrite Nat.mul_1_l in Lfr.
  assert (Hfr' : forall j, (j < q)%nat -> (nth j fr false = false <-> (j < p)%nat /\ exists m, mask = Some m /\ entry m j = 0)).
  { intros j Hj. exact (Hfr 0%nat j (Nat.lt_0_succ 0) Hj). }
  assert (Hl : match mask with Some m => length m = p | None => True end) by (destruct mask; [apply Hm|exact Logic.I]).
  assert (Es := binary_start_value (N := Rnum) has p coef Hc mask). cbv zeta in Es. fold q in Es.
  assert (Lv : length (map (start_entry (N := Rnum) q coef 0) (seq 0 q)) = q) by (now rewrite map_length, seq_length).
  change (binary_start (N := Rnum) has p mask coef = Ok (rmask p mask (map (start_entry (N := Rnum) q coef 0) (seq 0 q)))) in Es.
  revert Lv Es Hopt. generalize (map (start_entry (N := Rnum) q coef 0) (seq 0 q) : list R). intros v Lv Es Hopt.
  change (@length R v = q) in Lv. assert (Hpv : (p <= length v)%nat) by lia.
  rewrite Es. rewrite (optimized p mask Hm). cbn [negb].
  assert (Lw : length (rmask p mask v) = q) by (rewrite rmask_length by assumption; exact Lv).
  assert (Ek : kept fr (rmask p mask v) = kept fr v).
  { unfold kept. apply map_ext_in. intros j Hj. apply filter_In in Hj as [Hj E]. apply in_seq in Hj.
    rewrite rmask_entry by assumption. unfold mkf. destruct mask as [m|]; [|ring]. destruct (Nat.ltb_spec j p) as [H|H]; [|ring].
    destruct Hm as [[_ H01] _]. destruct (H01 j H) as [E0|E0]; rewrite E0; [|ring].
    exfalso. assert (nth j fr false = false) by (apply Hfr'; [lia|]; split; [exact H|now exists m]). congruence. }
  set (f := fun w : list R => snd (logistic_loss_and_grad (N := Rnum) p X (label_signs (N := Rnum) y) (1 / C) None (Some sw) w)).
  set (G := fun w : list R => logistic_loss n p X (signs y) sw (1 / C) (firstn p w) (entry w p)).
  set (full := option_map (fun m => m ++ (if has then [1] else [])) mask).
  assert (Ls : length (signs y) = n) by (unfold signs; now rewrite map_length).
  assert (Hval : forall w, length w = q -> fst (f w) = G w).
  { intros w Hw. unfold f, G. change (label_signs (N := Rnum) y) with (signs y).
    assert (Lf : length (firstn p w) = p) by (rewrite firstn_length; lia).
    destruct (logistic_loss_parts n p X (signs y) (1 / C) None (Some sw) (firstn p w) (entry w p) HX Hn Ls Logic.I Hsw Lf) as [V1 V2].
    destruct Hq as [E|E].
    - assert (Ew : firstn p w = w) by (apply firstn_all2; lia). rewrite Ew in *.
      assert (E0 : entry w p = 0) by (unfold entry; apply nth_overflow; lia). rewrite E0. exact V1.
    - assert (Ew : firstn p w ++ [entry w p] = w).
      { rewrite <- (firstn_skipn p w) at 3. f_equal. assert (L1 : length (skipn p w) = 1%nat) by (rewrite skipn_length; lia).
        unfold entry. rewrite <- (firstn_skipn p w) at 1. rewrite app_nth2 by lia. rewrite Lf, Nat.sub_diag.
        destruct (skipn p w) as [|u [|? ?]]; cbn in *; try lia; reflexivity. }
      rewrite Ew in V2. exact V2. }
  assert (VG : value_and_gradient (length fr) G f).
  { rewrite Lfr. intros w Hw. split; [now apply Hval|].
    assert (Hw' : length w = p \/ length w = S p) by lia. split.
    - destruct (bgrad_shape n p X (signs y) (1 / C) None (Some sw) HX Hn Ls Logic.I Hsw w Hw') as (g & Lg & Eg & _).
      refine (eq_trans (f_equal (@length R) Eg) _).
      destruct (Nat.eqb_spec (length w) (S p)); [rewrite app_length; cbn [length]|]; lia.
    - intros j Hj. assert (Hj' : (j < length w)%nat) by lia.
      apply (der_ext (fun t => fst (f (upd w j t)))).
      + intros t. apply Hval. rewrite length_upd by exact Hj'. exact Hw.
      + exact (logistic_gradient n p X (signs y) (1 / C) None (Some sw) HX Hn Ls Logic.I Hsw w j Hw' Hj'). }
  assert (HL : leaves full fr).
  { unfold full. destruct mask as [m|]; cbn [option_map leaves].
    - split; [rewrite app_length, Hl, Lfr; unfold q; destruct has; reflexivity|]. rewrite Lfr. intros j Hj.
      apply (bool_by _ _ _ (Hfr' j Hj)). rewrite nonzero_R. destruct (Nat.lt_ge_cases j p) as [H|H].
      + rewrite entry_app1 by lia. split; [intros E; split; [exact H|now exists m]|]. intros [_ (m' & Em & E)]. injection Em as <-. exact E.
      + destruct has; [|unfold q in Hj; lia]. assert (Ej : j = length m) by (unfold q in Hj; lia). rewrite Ej, entry_app2. split; [lra|lia].
    - rewrite Lfr. intros j Hj. destruct (nth j fr false) eqn:E; [reflexivity|]. apply (Hfr' j Hj) in E as [_ (m & Em & _)]. discriminate. }
  assert (Hopt' : minimizes_from opt (kept fr (rmask p mask v)) (fun x => G (fill fr x)) delta) by (rewrite Ek; exact Hopt).
  assert (Lw' : length (rmask p mask v) = length fr) by congruence.
  destruct (l2_optimal opt f full (rmask p mask v) fr G delta Lw' HL VG Hopt') as (K1 & K2 & K3).
  set (w := l2_solve (N := Rnum) opt f full (rmask p mask v)) in *. rewrite Lfr in K1, K3.
  assert (Lf : length (firstn p w) = p) by (rewrite firstn_length; lia).
  assert (Ef : forall j, (j < p)%nat -> entry (firstn p w) j = entry w j).
  { intros j Hj. unfold entry. rewrite <- (firstn_skipn p w) at 2. rewrite app_nth1 by lia. reflexivity. }
  exists (firstn p w), (entry w p). split.
  { change (Some (split_rows (N := Rnum) has p [w] None) = Some (Fitted (N := Rnum) [firstn p w] [entry w p] None)).
    unfold split_rows. destruct has; [reflexivity|]. cbn [map].
    assert (E1 : firstn p w = w) by (apply firstn_all2; unfold q in K1; lia).
    assert (E2 : entry w p = 0) by (unfold entry; apply nth_overflow; unfold q in K1; rr; lia). rewrite E1, E2. reflexivity. }
  split; [exact Lf|]. split; [|split].
  - intros m Em j Hj E. rewrite Ef by exact Hj. apply K2. apply Hfr'; [unfold q; lia|]. split; [exact Hj|now exists m].
  - intros E. unfold entry. apply nth_overflow. rr. unfold q in K1. rewrite E in K1. lia.
  - intros c' b' Lc' Oc' Hb'. set (w' := c' ++ if has then [b'] else []).
    assert (Lw2 : length w' = q) by (unfold w', q; rewrite app_length, Lc'; destruct has; reflexivity).
    assert (K : G w <= G w' + delta).
    { apply K3; [exact Lw2|]. intros j Hj E. apply (Hfr' j Hj) in E as [H (m & Em & E)]. unfold w'. rewrite entry_app1 by lia. now apply (Oc' m Em j H). }
    assert (Ew : G w' = logistic_loss n p X (signs y) sw (1 / C) c' b').
    { unfold G. f_equal.
      - unfold w'. rewrite firstn_app, Lc', Nat.sub_diag, firstn_O, app_nil_r. rewrite <- Lc'. apply firstn_all.
      - unfold w'. destruct has.
        + rewrite <- Lc'. apply entry_app2.
        + rewrite (Hb' eq_refl), app_nil_r. unfold entry. apply nth_overflow. lia. }
    rewrite <- Ew. exact K.
Qed.

(** ** Several classes *)
Section Repack.
  Variables (n p k q : nat) (X Y : list (list R)) (sw : list R) (l2 : R).
  Hypothesis Hq : q = p \/ q = S p.
  Lemma packed_at (Cc : list (list R)) (B : list R) c j : grid k p Cc -> length B = k -> (c < k)%nat -> (j < S p)%nat ->
    coefs (S p) (packed Cc B) c j = if Nat.ltb j p then mat Cc c j else entry B c.
  Proof. apply packed_entry. Qed.

  Lemma loss_packed (w : list R) Cc B : grid k p Cc -> length B = k ->
    (forall c j, (c < k)%nat -> (j < q)%nat -> coefs q w c j = if Nat.ltb j p then mat Cc c j else entry B c) ->
    (q = p -> forall c, (c < k)%nat -> entry B c = 0) ->
    multi_loss n p q k X Y sw l2 w = multi_loss n p (S p) k X Y sw l2 (packed Cc B).
  Proof.
    intros HC HB Hw Hz.
    assert (Ec : forall c j, (c < k)%nat -> (j < q)%nat -> coefs q w c j = coefs (S p) (packed Cc B) c j).
    { intros c j Hc Hj. rewrite Hw, packed_at by (assumption || lia). reflexivity. }
    assert (Ee : forall i c, (c < k)%nat -> class_eta p q X w i c = class_eta p (S p) X (packed Cc B) i c).
    { intros i c Hc. unfold class_eta. f_equal.
      - apply Sum_ext. intros j Hj. rewrite Ec by lia. reflexivity.
      - destruct (Nat.ltb_spec p (S p)); [|lia]. destruct (Nat.ltb_spec p q) as [H1|H1].
        + apply Ec; assumption.
        + rewrite packed_at by (assumption || lia). destruct (Nat.ltb_spec p p); [lia|]. symmetry. apply Hz; [lia|exact Hc]. }
    unfold multi_loss. f_equal.
    - f_equal. apply Sum_ext. intros i Hi. f_equal. apply Sum_ext. intros c Hc. rewrite (Ee i c Hc). do 3 f_equal.
      apply Sum_ext. intros d Hd. now rewrite (Ee i d Hd).
    - f_equal. apply Sum_ext. intros c Hc. apply Sum_ext. intros j Hj. rewrite Ec by lia. reflexivity.
  Qed.
End Repack.

Lemma optimized_rows k p mask : (0 < p)%nat -> some_one_of k p mask -> to_optimize (N := Rnum) (option_map (@concat R) mask) = true.
Proof.
  intros Hp [Hm Hs]. destruct mask as [m|]; [|reflexivity]. destruct Hm as [[Lm Fm] H01]. destruct (Hs m eq_refl) as (c & j & Hc & Hj & E).
  apply (optimized (k * p) (Some (concat m))). cbn [some_one].
  assert (Ee : forall c j, (c < k)%nat -> (j < p)%nat -> entry (concat m) (c * p + j) = mat m c j).
  { intros c0 j0 Hc0 Hj0. unfold entry. rewrite (nth_concat p) by (assumption || lia). reflexivity. }
  split; [split|].
  - rewrite (length_concat_eq p) by exact Fm. now rewrite Lm.
  - intros i Hi. destruct (grid_index k p i Hi Hp) as (I1 & I2 & ->). rewrite Ee by assumption. now apply H01.
  - exists (c * p + j)%nat. split; [nia|]. now rewrite Ee.
Qed.

Lemma starts_rows q k coef last :
  Forall (fun r => length r = q) (map (fun c => map (start_entry (N := Rnum) q (option_map (fun m => nth c m []) coef) (entry last c)) (seq 0 q)) (seq 0 k)).
Proof. apply Forall_forall. intros r Hr. apply in_map_iff in Hr. destruct Hr as (c & <- & _). now rewrite map_length, seq_length. Qed.
Lemma starts_length q k coef last : length (starts q k coef last) = (k * q)%nat.
Proof.
  unfold starts. refine (eq_trans (length_concat_eq q _ (starts_rows q k coef last)) _). rewrite map_length, seq_length. reflexivity.
Qed.
Lemma starts_entry q k coef last c j : (c < k)%nat -> (j < q)%nat ->
  entry (starts q k coef last) (c * q + j) = start_entry (N := Rnum) q (option_map (fun m => nth c m []) coef) (entry last c) j.
Proof.
  intros Hc Hj. unfold entry at 1, starts.
  refine (eq_trans (nth_concat q _ c j 0 (starts_rows q k coef last) _ Hj) _).
  - rewrite map_length, seq_length. exact Hc.
  - rewrite (nth_map_seq _ k c []) by exact Hc. now rewrite (nth_map_seq _ q j 0) by exact Hj.
Qed.

(** Entries of the start with the mask applied. *)
Lemma multi_start_entry (has : bool) k p mask coef y c j : let q := (p + if has then 1 else 0)%nat in
  (0 < p)%nat -> match mask with Some m => grid k p m | None => True end -> warm_rows k p q coef -> (c < k)%nat -> (j < q)%nat ->
  entry (concat (multi_start (N := Rnum) has k p mask coef y)) (c * q + j)
    = (match mask with Some m => if Nat.ltb j p then mat m c j else 1 | None => 1 end)
      * entry (starts q k coef (multi_intercept (N := Rnum) k y)) (c * q + j).
Proof.
  intros q Hp Hm Hc Hck Hj. assert (Hq : (0 < q)%nat) by (unfold q; lia).
  destruct (start_rows (N := Rnum) has k p mask coef y Hq Hm Hc) as [L F]. fold q in F.
  rewrite starts_entry by assumption.
  assert (Hlt : (c < length (multi_start (N := Rnum) has k p mask coef y))%nat) by (rewrite L; exact Hck).
  unfold entry at 1. refine (eq_trans (nth_concat q _ c j 0 F Hlt Hj) _).
  pose proof (start_value (N := Rnum) has k p coef y c j Hq Hc Hck Hj) as E.
  change (nth j (nth c (multi_start (N := Rnum) has k p None coef y) []) 0
    = start_entry (N := Rnum) q (option_map (fun m => nth c m []) coef) (entry (multi_intercept (N := Rnum) k y) c) j) in E.
  refine (eq_trans _ (f_equal (Rmult (match mask with Some m => if Nat.ltb j p then mat m c j else 1 | None => 1 end)) E)).
  destruct mask as [m|]; [|symmetry; apply Rmult_1_l].
  pose proof (start_times (N := Rnum) has k p m coef y c j Hq Hm Hc Hck Hj) as T. cbv zeta in T.
  refine (eq_trans T _). destruct (Nat.ltb_spec j p); [|symmetry; apply Rmult_1_l].
  apply Rmult_comm.
Qed.

Lemma one_hot_R k y : one_hot (N := Rnum) k y = indicators k y.
Proof. unfold one_hot, indicators. apply map_ext. intros v. apply map_ext. intros c. unfold ind. destruct (Nat.eqb v c); reflexivity. Qed.
Lemma indicators_matrix n k y : length y = n -> matrix n k (indicators k y).
Proof.
  intros Hy. split; [unfold indicators; rewrite map_length; exact Hy|]. apply Forall_forall. intros r Hr. apply in_map_iff in Hr.
  destruct Hr as (v & <- & _). now rewrite map_length, seq_length.
Qed.
Lemma indicators_one n k y i : length y = n -> Forall (fun v => (v < k)%nat) y -> (i < n)%nat -> Sum k (mat (indicators k y) i) = 1.
Proof.
  intros Hy Hlab Hi. unfold indicators, mat. rewrite (nth_mapd (fun v => map (ind v) (seq 0 k)) y i 0%nat) by lia.
  assert (Hv : (nth i y 0 < k)%nat) by (rewrite Forall_forall in Hlab; apply Hlab, nth_In; lia). set (v := nth i y 0%nat) in *.
  rewrite (Sum_ext k _ (fun c => if Nat.eqb c v then 1 else 0)).
  - clear - Hv. induction k as [|m IH]; [lia|]. rewrite Sum_S. destruct (Nat.eqb_spec m v) as [->|E].
    + rewrite (Sum_zero v); [ring|]. intros j Hj. destruct (Nat.eqb_spec j v); [lia|ring].
    + rewrite IH by lia. ring.
  - intros c Hc'. unfold entry. rewrite (nth_mapd (ind v) (seq 0 k) c 0%nat) by (rewrite seq_length; lia).
    rewrite seq_nth by lia. cbn [Nat.add]. unfold ind. rewrite Nat.eqb_sym. reflexivity.
Qed.

(** Rows read off the flat array. *)
Lemma flat_rows (has : bool) k p q (w : list R) : q = (p + if has then 1 else 0)%nat -> length w = (k * q)%nat ->
  exists (cf : list (list R)) (b : list R),
    split_rows (N := Rnum) has p (chunks q k w) None = Fitted (N := Rnum) cf b None /\ grid k p cf /\ length b = k /\
    (has = false -> forall c, (c < k)%nat -> entry b c = 0) /\
    forall c j, (c < k)%nat -> (j < q)%nat -> coefs q w c j = if Nat.ltb j p then mat cf c j else entry b c.
Proof.
  intros Eq Lw. destruct (chunks_spec q k w Lw) as [Lc Fc].
  destruct (split_rows (N := Rnum) has p (chunks q k w) None) as [cf b wn|e|] eqn:Es;
    [|unfold split_rows in Es; destruct has; discriminate|unfold split_rows in Es; destruct has; discriminate].
  destruct (split_shape (N := Rnum) has p q k _ None cf b wn Eq Lc Fc Es) as (-> & Lb & G & K).
  exists cf, b. split; [reflexivity|]. split; [exact G|]. split; [exact Lb|]. split.
  - intros E c Hc. exact (proj2 (K c Hc) E).
  - intros c j Hc Hj. destruct (K c Hc) as [K1 _].
    assert (Lr : @length R (nth c cf []) = p) by (destruct G as [G1 G2]; apply (nth_len p); [exact G2|rr; lia]).
    assert (E1 : coefs q w c j = nth j (nth c (chunks q k w) []) 0) by (unfold coefs, entry; symmetry; exact (chunks_nth q k w c j 0 Lw Hc Hj)).
    rewrite E1. refine (eq_trans (f_equal (fun l => nth j l 0) K1) _).
    destruct (Nat.ltb_spec j p) as [H|H].
    + rewrite app_nth1 by (rr; lia). reflexivity.
    + rewrite app_nth2 by (rr; lia). rr. rewrite Lr. destruct has; [|lia]. replace (j - p)%nat with 0%nat by lia. reflexivity.
Qed.

Lemma multi_l2 n k p (has : bool) (C tol : R) mi X y (sw : list R) mask coef opt fuel lsfuel fr delta :
  matrix n p X -> (0 < n)%nat -> length y = n -> Forall (fun v => (v < k)%nat) y -> length sw = n -> (0 < p)%nat -> some_one_of k p mask ->
  let q := (p + if has then 1 else 0)%nat in
  warm_rows k p q coef ->
  free_entries has k p (fun c j => exists m, mask = Some m /\ mat m c j = 0) fr ->
  minimizes_from opt (kept fr (starts q k coef (multi_intercept (N := Rnum) k y)))
    (fun x => multi_loss n p q k X (indicators k y) sw (1 / C) (fill fr x)) delta ->
  exists (cf : list (list R)) (b : list R),
    fit_multi (N := Rnum) true has k p C tol mi X y sw mask coef opt fuel lsfuel = Some (Fitted (N := Rnum) cf b None) /\
    grid k p cf /\ length b = k /\ rows_obey k p mask cf /\ (has = false -> forall c, (c < k)%nat -> entry b c = 0) /\
    forall cf' b', grid k p cf' -> length b' = k -> rows_obey k p mask cf' -> (has = false -> forall c, (c < k)%nat -> entry b' c = 0) ->
      multi_loss n p (S p) k X (indicators k y) sw (1 / C) (packed cf b)
        <= multi_loss n p (S p) k X (indicators k y) sw (1 / C) (packed cf' b') + delta.
Proof.
  intros HX Hn Hy Hlab Hsw Hp Hm q Hc Hfr Hopt. unfold fit_multi. cbv zeta.
  assert (Hk : (0 < k)%nat). { destruct y as [|v y']; [cbn in Hy; lia|]. inversion Hlab; lia. }
  assert (Hq : q = p \/ q = S p) by (unfold q; destruct has; lia).
  pose proof (optimized_rows k p mask Hp Hm) as Eo.
  destruct Hm as [Hm Hone]. destruct (mask_rows_parts k p mask Hm) as [Hm1 H01].
  destruct Hfr as [Lfr Hfr]. fold q in Lfr, Hfr |- *.
  change (to_optimize (N := Rnum) (option_map (@concat (carrier Rnum)) mask) = true) in Eo. rewrite Eo.
  set (w0 := concat (multi_start (N := Rnum) has k p mask coef y)).
  assert (Hq0 : (0 < q)%nat) by lia.
  assert (L0 : @length R w0 = (k * q)%nat).
  { destruct (start_rows (N := Rnum) has k p mask coef y Hq0 Hm1 Hc) as [L F]. fold q in F.
    refine (eq_trans (length_concat_eq q _ F) _). now rewrite L. }
  assert (Ek : kept fr w0 = kept fr (starts q k coef (multi_intercept (N := Rnum) k y))).
  { unfold kept. apply map_ext_in. intros i Hi. apply filter_In in Hi as [Hi E]. apply in_seq in Hi. rewrite Lfr in Hi.
    destruct (grid_index k q i (proj2 Hi) Hq0) as (I1 & I2 & I3). rewrite I3. unfold w0.
    refine (eq_trans (multi_start_entry has k p mask coef y _ _ Hp Hm1 Hc I1 I2) _). fold q.
    destruct mask as [m|]; [|ring]. destruct (Nat.ltb_spec (i mod q) p) as [H|H]; [|ring].
    destruct (H01 m eq_refl _ _ I1 H) as [E0|E0]; rewrite E0; [|ring]. exfalso.
    assert (nth (i / q * q + i mod q) fr false = false) by (apply Hfr; [exact I1|exact I2|]; split; [exact H|now exists m]).
    rewrite <- I3 in *. congruence. }
  set (f := fun w : list R => multinomial_loss_grad (N := Rnum) k p X (one_hot (N := Rnum) k y) (1 / C) None sw w).
  set (G := fun w : list R => multi_loss n p q k X (indicators k y) sw (1 / C) w).
  set (full := option_map (fun m => concat (map (fun r => r ++ (if has then [1] else [])) m)) mask).
  pose proof (indicators_matrix n k y Hy) as HY.
  assert (Hval : forall w, length w = (k * q)%nat -> fst (f w) = G w).
  { intros w Hw. unfold f, G. rewrite one_hot_R. exact (multi_loss_value n p q k X (indicators k y) sw (1 / C) None w HX HY Hn Hk Hsw Logic.I Hq Hw w eq_refl). }
  assert (VG : value_and_gradient (length fr) G f).
  { rewrite Lfr. intros w Hw. split; [now apply Hval|].
    assert (Hw' : length w = (k * p)%nat \/ length w = (k * S p)%nat) by (destruct Hq as [E|E]; rewrite E in Hw; auto). split.
    - rewrite <- Hw. unfold f. rewrite one_hot_R. exact (mgrad_length n p k X (indicators k y) (1 / C) None sw HX HY Hn Hk Logic.I Hsw w Hw').
    - intros j Hj. assert (Hj' : (j < length w)%nat) by lia.
      apply (der_ext (fun t => fst (f (upd w j t)))).
      + intros t. apply Hval. rewrite length_upd by exact Hj'. exact Hw.
      + unfold f. rewrite one_hot_R. apply (multi_gradient n p k X (indicators k y) (1 / C) None sw HX HY Hn Hk Logic.I Hsw); [|exact Hw'|exact Hj'].
        intros i Hi. now apply (indicators_one n). }
  assert (HL : leaves full fr).
  { unfold full. destruct mask as [m|]; cbn [option_map leaves].
    - destruct Hm as [[Lm Fm] _].
      assert (Fr : Forall (fun r => length r = q) (map (fun r => r ++ (if has then [1] else [])) m)).
      { apply Forall_forall. intros r Hr. apply in_map_iff in Hr. destruct Hr as (r0 & <- & Hr). rewrite Forall_forall in Fm.
        rewrite app_length, (Fm r0 Hr). unfold q. destruct has; reflexivity. }
      split; [rewrite (length_concat_eq q) by exact Fr; now rewrite map_length, Lm, Lfr|]. rewrite Lfr. intros i Hi.
      destruct (grid_index k q i Hi Hq0) as (I1 & I2 & I3). rewrite I3.
      apply (bool_by _ _ _ (Hfr _ _ I1 I2)). rewrite nonzero_R. unfold entry. rewrite (nth_concat q) by (assumption || (rewrite map_length; lia)).
      rewrite (nth_mapd (fun r => r ++ (if has then [1] else [])) m _ []) by lia.
      assert (Lr : length (nth (i / q) m []) = p) by (apply (nth_len p); [exact Fm|lia]).
      destruct (Nat.lt_ge_cases (i mod q) p) as [H|H].
      + rewrite app_nth1 by lia. split; [intros E; split; [exact H|exists m; split; [reflexivity|exact E]]|].
        intros [_ (m' & Em & E)]. injection Em as <-. exact E.
      + rewrite app_nth2 by lia. rewrite Lr.
        assert (Hi2 : (i mod q < p + if has then 1 else 0)%nat) by exact I2. clear - Hi2 H. destruct has; [|lia].
        replace (i mod q - p)%nat with 0%nat by lia. cbn [nth]. split; [lra|lia].
    - rewrite Lfr. intros i Hi. destruct (nth i fr false) eqn:E; [reflexivity|].
      destruct (grid_index k q i Hi Hq0) as (I1 & I2 & I3). rewrite I3 in E. apply (Hfr _ _ I1 I2) in E as [_ (m & Em & _)]. discriminate. }
  assert (Hopt' : minimizes_from opt (kept fr w0) (fun x => G (fill fr x)) delta) by (rewrite Ek; exact Hopt).
  assert (L0' : @length R w0 = length fr) by congruence.
  destruct (l2_optimal opt f full w0 fr G delta L0' HL VG Hopt') as (K1 & K2 & K3).
  set (w := l2_solve (N := Rnum) opt f full w0) in *. rewrite Lfr in K1, K3. change (@length R w = (k * q)%nat) in K1.
  destruct (flat_rows has k p q w eq_refl K1) as (cf & b & Es & Gc & Lb & Zb & Ec).
  exists cf, b. split; [exact (f_equal Some Es)|]. split; [exact Gc|]. split; [exact Lb|].
  assert (Oc : rows_obey k p mask cf).
  { intros m Em c j Hck Hj E. assert (Hjq : (j < q)%nat) by lia. pose proof (Ec c j Hck Hjq) as E1.
    destruct (Nat.ltb_spec j p); [|lia]. rewrite <- E1. unfold coefs. apply K2. apply Hfr; [exact Hck|exact Hjq|]. split; [exact Hj|now exists m]. }
  split; [exact Oc|]. split; [exact Zb|].
  assert (Hz : q = p -> has = false) by (unfold q; destruct has; [lia|reflexivity]).
  intros cf' b' Gc' Lb' Oc' Zb'.
  set (w' := concat (map (fun c => map (fun j => if Nat.ltb j p then mat cf' c j else entry b' c) (seq 0 q)) (seq 0 k))).
  assert (F' : Forall (fun r => length r = q) (map (fun c => map (fun j => if Nat.ltb j p then mat cf' c j else entry b' c) (seq 0 q)) (seq 0 k))).
  { apply Forall_forall. intros r Hr. apply in_map_iff in Hr. destruct Hr as (c & <- & _). now rewrite map_length, seq_length. }
  assert (Lw' : length w' = (k * q)%nat) by (unfold w'; rewrite (length_concat_eq q) by exact F'; now rewrite map_length, seq_length).
  assert (Ec' : forall c j, (c < k)%nat -> (j < q)%nat -> coefs q w' c j = if Nat.ltb j p then mat cf' c j else entry b' c).
  { intros c j Hck Hj. unfold coefs, entry, w'. rewrite (nth_concat q) by (exact F' || exact Hj || (rewrite map_length, seq_length; exact Hck)).
    rewrite (nth_map_seq _ k c []) by exact Hck. now rewrite (nth_map_seq _ q j 0) by exact Hj. }
  rewrite <- (loss_packed n p k q X (indicators k y) sw (1 / C) Hq w cf b Gc Lb Ec (fun E => Zb (Hz E))).
  rewrite <- (loss_packed n p k q X (indicators k y) sw (1 / C) Hq w' cf' b' Gc' Lb' Ec' (fun E => Zb' (Hz E))).
  apply K3; [exact Lw'|]. intros i Hi E. destruct (grid_index k q i Hi Hq0) as (I1 & I2 & I3). rewrite I3 in E |- *.
  apply (Hfr _ _ I1 I2) in E as [H (m & Em & E)]. pose proof (Ec' _ _ I1 I2) as E1. unfold coefs in E1. rewrite E1.
  destruct (Nat.ltb_spec (i mod q) p); [|lia]. now apply (Oc' m Em).
Qed.

(** ** Every coefficient masked: no optimization *)
Lemma binary_all_masked p (l2 has : bool) (C tol : R) mi X y (sw m : list R) (coef : option (list R)) opt fuel lsfuel :
  length m = p -> (forall j, (j < p)%nat -> entry m j = 0) ->
  let q := (p + if has then 1 else 0)%nat in
  match coef with Some c => length c = p \/ length c = q | None => True end ->
  fit_binary (N := Rnum) l2 has p C tol mi X y sw (Some m) coef opt fuel lsfuel
    = Some (Fitted (N := Rnum) [repeat 0 p] [if has then start_entry (N := Rnum) q coef 0 p else 0] None).
Proof.
  intros Lm Hm q Hc. unfold fit_binary. cbv zeta.
  assert (Es := binary_start_value (N := Rnum) has p coef Hc (Some m)). cbv zeta in Es. fold q in Es.
  rewrite Es. clear Es.
  assert (Eo : to_optimize (N := Rnum) (Some m) = false).
  { cbn [to_optimize]. apply nonzero_R. refine (eq_trans (rsum_Sum p m Lm) _). apply Sum_zero. exact Hm. }
  rewrite Eo. cbn [negb].
  assert (Ew : apply_mask (N := Rnum) p (Some m) (map (start_entry (N := Rnum) q coef 0) (seq 0 q))
    = repeat 0 p ++ (if has then [start_entry (N := Rnum) q coef 0 p] else [])).
  { set (v := map (start_entry (N := Rnum) q coef 0) (seq 0 q)).
    assert (Lv : @length R v = q) by (unfold v; now rewrite map_length, seq_length).
    assert (Hpv : (p <= @length R v)%nat) by (rewrite Lv; unfold q; lia).
    change (rmask p (Some m) v = repeat 0 p ++ (if has then [start_entry (N := Rnum) q coef 0 p] else [])).
    apply (nth_ext _ _ 0 0).
    - rewrite rmask_length by assumption. rewrite Lv, app_length, repeat_length. unfold q. destruct has; reflexivity.
    - rewrite rmask_length by assumption. rewrite Lv. intros j Hj. change (entry (rmask p (Some m) v) j = nth j (repeat 0 p ++ (if has then [start_entry (N := Rnum) q coef 0 p] else [])) 0).
      rewrite rmask_entry by assumption. unfold mkf. destruct (Nat.ltb_spec j p) as [H|H].
      + rewrite Hm by exact H. rewrite app_nth1 by (rewrite repeat_length; exact H). rewrite nth_repeat. ring.
      + rewrite app_nth2 by (rewrite repeat_length; exact H). rewrite repeat_length. destruct has; [|unfold q in Hj; lia].
        assert (Ej : j = p) by (unfold q in Hj; lia). rewrite Ej, Nat.sub_diag. cbn [nth]. rewrite Rmult_1_l.
        unfold entry, v. apply (nth_map_seq (start_entry (N := Rnum) q coef 0) q p 0). unfold q. lia. }
  refine (eq_trans (f_equal (fun w => Some (split_rows (N := Rnum) has p [w] None)) Ew) _).
  unfold split_rows. destruct has; cbn [map].
  - f_equal. f_equal.
    + f_equal. rewrite firstn_app, repeat_length, Nat.sub_diag, firstn_O, app_nil_r. apply firstn_all2. now rewrite repeat_length.
    + f_equal. rewrite app_nth2 by (rewrite repeat_length; lia). now rewrite repeat_length, Nat.sub_diag.
  - now rewrite app_nil_r.
Qed.

Lemma multi_all_masked k p (l2 has : bool) (C tol : R) mi X y (sw : list R) (m : list (list R)) coef opt fuel lsfuel :
  (0 < p)%nat -> grid k p m -> (forall c j, (c < k)%nat -> (j < p)%nat -> mat m c j = 0) ->
  let q := (p + if has then 1 else 0)%nat in
  warm_rows k p q coef ->
  fit_multi (N := Rnum) l2 has k p C tol mi X y sw (Some m) coef opt fuel lsfuel
    = Some (Fitted (N := Rnum) (repeat (repeat 0 p) k)
        (map (fun c => if has then start_entry (N := Rnum) q (option_map (fun r => nth c r []) coef) (entry (multi_intercept (N := Rnum) k y) c) p else 0) (seq 0 k)) None).
Proof.
  intros Hp Hg Hm q Hc. assert (Hq0 : (0 < q)%nat) by (unfold q; lia). pose proof Hg as [Lm Fm].
  set (b := fun c => start_entry (N := Rnum) q (option_map (fun r => nth c r []) coef) (entry (multi_intercept (N := Rnum) k y) c) p).
  set (rows := map (fun c => repeat 0 p ++ (if has then [b c] else [])) (seq 0 k)).
  assert (Fr : Forall (fun r => length r = q) rows).
  { apply Forall_forall. intros r Hr. apply in_map_iff in Hr. destruct Hr as (c & <- & _). rewrite app_length, repeat_length. unfold q. destruct has; reflexivity. }
  assert (Lr : length rows = k) by (unfold rows; now rewrite map_length, seq_length).
  destruct (start_rows (N := Rnum) has k p (Some m) coef y Hq0 Hg Hc) as [L F]. fold q in F.
  assert (E : concat (multi_start (N := Rnum) has k p (Some m) coef y) = concat rows).
  { assert (L1 : @length R (concat (multi_start (N := Rnum) has k p (Some m) coef y)) = (k * q)%nat).
    { refine (eq_trans (length_concat_eq q _ F) _). now rewrite L. }
    assert (L2 : length (concat rows) = (k * q)%nat) by (rewrite (length_concat_eq q) by exact Fr; now rewrite Lr).
    apply (nth_ext (A := R) _ _ 0 0); [congruence|]. rewrite L1. intros i Hi. destruct (grid_index k q i Hi Hq0) as (I1 & I2 & I3). rewrite I3.
    refine (eq_trans (multi_start_entry has k p (Some m) coef y _ _ Hp Hg Hc I1 I2) _). fold q.
    rewrite (nth_concat q) by (exact Fr || exact I2 || (rewrite Lr; exact I1)).
    unfold rows. rewrite (nth_map_seq _ k (i / q)%nat []) by exact I1. destruct (Nat.ltb_spec (i mod q) p) as [H|H].
    - rewrite (Hm _ _ I1 H). rewrite app_nth1 by (rewrite repeat_length; exact H). rewrite nth_repeat. ring.
    - rewrite app_nth2 by (rewrite repeat_length; exact H). rewrite repeat_length, starts_entry by assumption.
      assert (Hi2 : (i mod q < p + if has then 1 else 0)%nat) by exact I2. unfold b.
      set (st := start_entry (N := Rnum) q _ _). set (j := (i mod q)%nat) in *. clearbody j st. clear - Hi2 H. destruct has; [|lia].
      assert (Ej : j = p) by lia. rewrite Ej, Nat.sub_diag. cbn [nth]. apply Rmult_1_l. }
  assert (Eo : to_optimize (N := Rnum) (Some (concat m)) = false).
  { cbn [to_optimize]. apply nonzero_R.
    assert (Lc : length (concat m) = (k * p)%nat) by (rewrite (length_concat_eq p) by exact Fm; now rewrite Lm).
    refine (eq_trans (rsum_Sum (k * p) (concat m) Lc) _). apply Sum_zero. intros i Hi. destruct (grid_index k p i Hi Hp) as (I1 & I2 & ->).
    unfold entry. rewrite (nth_concat p) by (assumption || lia). now apply Hm. }
  assert (Ef : split_rows (N := Rnum) has p rows None = Fitted (N := Rnum) (repeat (repeat 0 p) k) (map (fun c => if has then b c else 0) (seq 0 k)) None).
  { unfold split_rows, rows. destruct has.
    - f_equal.
      + rewrite map_map. transitivity (map (fun _ : nat => repeat 0 p) (seq 0 k)).
        * apply map_ext. intros c. rewrite firstn_app, repeat_length, Nat.sub_diag, firstn_O, app_nil_r. apply firstn_all2. now rewrite repeat_length.
        * clear. generalize 0%nat at 1. induction k as [|k' IH]; intro s; [reflexivity|]. cbn [seq map repeat]. now rewrite IH.
      + rewrite map_map. apply map_ext. intros c. rewrite app_nth2 by (rewrite repeat_length; lia). now rewrite repeat_length, Nat.sub_diag.
    - f_equal.
      + transitivity (map (fun _ : nat => repeat 0 p) (seq 0 k)).
        * apply map_ext. intros c. apply app_nil_r.
        * clear. generalize 0%nat at 1. induction k as [|k' IH]; intro s; [reflexivity|]. cbn [seq map repeat]. now rewrite IH.
      + now rewrite map_map. }
  unfold fit_multi. cbv zeta. fold q. cbn [option_map].
  change (to_optimize (N := Rnum) (Some (@concat (carrier Rnum) m)) = false) in Eo. rewrite Eo.
  change (@concat (carrier Rnum) (multi_start (N := Rnum) has k p (Some m) coef y) = concat rows) in E. rewrite E.
  assert (Ec : chunks q k (concat rows) = rows) by (rewrite <- Lr at 1; now apply chunks_concat).
  assert (Lcr : length (concat rows) = (k * q)%nat) by (rewrite (length_concat_eq q) by exact Fr; now rewrite Lr).
  assert (Et : transposed (N := Rnum) q k (transposed (N := Rnum) k q (concat rows)) = concat rows) by exact (trans_trans (N := Rnum) k q (concat rows) Hq0 Lcr).
  destruct l2.
  - refine (eq_trans (f_equal (fun r => Some (split_rows (N := Rnum) has p r None)) Ec) _). now rewrite Ef.
  - rewrite Et. refine (eq_trans (f_equal (fun r => Some (split_rows (N := Rnum) has p r None)) Ec) _). now rewrite Ef.
Qed.
