(** Proofs about the estimation module of the linear regressors (C119, C120). *)
From Coq Require Import ZArith String List Bool Arith Lia Reals Lra Psatz.
From Verif Require Import Prelude F64 Num Model_Fit Model_Scores Model_Rescale Model_Poisson Model_Linear Model_Estimation
  Spec_Rescale Proofs_Rescale Spec_Poisson Proofs_Poisson Proofs_PoissonOpt Spec_Linear Proofs_Linear
  Proofs_LinearUnits Spec_Estimation.
Import ListNotations.
Local Open Scope R_scope.

(** ** Submatrices *)
Lemma nth_error_len {A} (l : list A) i d : (i < length l)%nat -> nth_error l i = Some (nth i l d).
Proof. intro H. apply nth_error_nth'. exact H. Qed.

Lemma chosen_cons b m : chosen (b :: m) = (if b then [0%nat] else []) ++ map S (chosen m).
Proof.
  unfold chosen. cbn [length seq filter]. rewrite <- seq_shift.
  assert (E : filter (fun j => nth j (b :: m) false) (map S (seq 0 (length m))) = map S (filter (fun j => nth j m false) (seq 0 (length m)))).
  { generalize (seq 0 (length m)). induction l as [|a l IH]; [reflexivity|]. cbn [map filter]. change (nth (S a) (b :: m) false) with (nth a m false). destruct (nth a m false); cbn [map]; now rewrite IH. }
  rewrite E. destruct b; reflexivity.
Qed.
Lemma pick_chosen (m : list bool) (x : list R) : length x = length m -> pick m x = map (entry x) (chosen m).
Proof.
  revert x. induction m as [|b m IH]; intros [|a x] H; cbn in H; try discriminate; [reflexivity|].
  injection H as H. rewrite chosen_cons, map_app, map_map. cbn [pick].
  change (map (fun j => entry (a :: x) (S j)) (chosen m)) with (map (entry x) (chosen m)). rewrite <- (IH x H).
  destruct b; reflexivity.
Qed.
Lemma length_chosen m : length (chosen m) = count (fun b => b) m.
Proof.
  induction m as [|b m IH]; [reflexivity|]. rewrite chosen_cons, app_length, map_length, IH. destruct b; reflexivity.
Qed.

Lemma part_masked n p X rows mask : matrix n p X -> length mask = p -> (forall i, In i rows -> (i < n)%nat) ->
  masked_columns (N := Rnum) mask (matrix_rows (N := Rnum) X rows) = part X rows mask.
Proof.
  intros HX Lm Hr. unfold masked_columns, matrix_rows, part. rewrite map_map. apply map_ext_in. intros i Hi.
  apply pick_chosen. rewrite Lm. exact (row_length n p X i HX (Hr i Hi)).
Qed.
Lemma part_y_take y rows : take_rows (N := Rnum) y rows = part_y y rows.
Proof. reflexivity. Qed.

(** ** A model on a support as a model on all features *)
Lemma length_spread (mask : list bool) (c : list R) : length (spread_values (N := Rnum) mask c) = length mask.
Proof.
  revert c. induction mask as [|b m IH]; intro c; [reflexivity|]. destruct b; [destruct c|]; cbn; now rewrite IH.
Qed.
Lemma spread_outside mask (c : list R) j : nth j mask false = false -> entry (spread_values (N := Rnum) mask c) j = 0.
Proof.
  revert c j. induction mask as [|b m IH]; intros c j H; [unfold entry; destruct j; reflexivity|].
  destruct j as [|j]; cbn in H.
  - subst b. reflexivity.
  - destruct b; [destruct c|]; cbn [spread_values]; apply IH; exact H.
Qed.
Lemma spread_pick mask (c : list R) : length c = length mask -> (forall j, nth j mask false = false -> entry c j = 0) ->
  spread_values (N := Rnum) mask (pick mask c) = c.
Proof.
  revert c. induction mask as [|b m IH]; intros [|a c] L H; cbn in L; try discriminate; [reflexivity|].
  injection L as L. assert (E : spread_values (N := Rnum) m (pick m c) = c) by (apply IH; [exact L|intros j Hj; exact (H (S j) Hj)]).
  destruct b; cbn [pick spread_values]; f_equal; try exact E. symmetry. exact (H 0%nat eq_refl).
Qed.
Lemma length_pick {A} mask (c : list A) : length c = length mask -> length (pick mask c) = count (fun b => b) mask.
Proof.
  revert c. induction mask as [|b m IH]; intros [|a c] L; cbn in L; try discriminate; [reflexivity|].
  injection L as L. destruct b; cbn; now rewrite IH.
Qed.

Lemma Sum_eq_list p (a c : list R) : length a = p -> length c = p ->
  Sum p (fun j => entry a j * entry c j) = fold_right Rplus 0 (map2 Rmult a c).
Proof.
  revert a c. induction p as [|p IH]; intros [|u a] [|v c] H1 H2; cbn in H1, H2; try discriminate; [reflexivity|].
  rewrite Sum_shift. cbn [map2 fold_right]. f_equal. apply IH; lia.
Qed.
Lemma dot_spread (mask : list bool) (x c : list R) : length x = length mask -> length c = count (fun b => b) mask ->
  fold_right Rplus 0 (map2 Rmult (pick mask x) c) = fold_right Rplus 0 (map2 Rmult x (spread_values (N := Rnum) mask c)).
Proof.
  revert x c. induction mask as [|b m IH]; intros [|a x] c L1 L2; cbn in L1; try discriminate; [reflexivity|].
  injection L1 as L1. destruct b.
  - destruct c as [|v c]; cbn in L2; [discriminate|]. injection L2 as L2. cbn. now rewrite (IH x c L1 L2).
  - cbn in L2. cbn [pick spread_values map2 fold_right]. rewrite (IH x c L1 L2). change (carrier Rnum) with R.
    change (nzero (N := Rnum)) with 0. ring.
Qed.

Lemma eta_part n p X rows mask (c : list R) b r : matrix n p X -> length mask = p -> (forall i, In i rows -> (i < n)%nat) ->
  length c = count (fun b => b) mask -> (r < length rows)%nat ->
  eta (count (fun b => b) mask) (part X rows mask) c b r = eta p X (spread_values (N := Rnum) mask c) b (nth r rows 0%nat).
Proof.
  intros HX Lm Hr Lc Hi. assert (Hn : (nth r rows 0 < n)%nat) by (apply Hr, nth_In; exact Hi).
  pose proof (row_length n p X _ HX Hn) as Lx. unfold eta. f_equal. unfold mat.
  assert (E : nth r (part X rows mask) [] = pick mask (nth (nth r rows 0%nat) X [])).
  { unfold part. rewrite (nth_indep _ [] (map (mat X 0) (chosen mask))) by (rewrite map_length; exact Hi).
    rewrite (map_nth (fun i => map (mat X i) (chosen mask))). symmetry. apply pick_chosen. now rewrite Lm. }
  rewrite E. rewrite (Sum_eq_list _ _ c); [|apply length_pick; now rewrite Lm|exact Lc].
  rewrite (Sum_eq_list p _ (spread_values (N := Rnum) mask c)); [|exact Lx|rewrite length_spread; exact Lm].
  apply dot_spread; [now rewrite Lm|exact Lc].
Qed.

Lemma entry_part_y y rows r : (r < length rows)%nat -> entry (part_y y rows) r = entry y (nth r rows 0%nat).
Proof.
  intro H. unfold part_y. unfold entry at 1. rewrite (nth_indep _ 0 (entry y 0%nat)) by (rewrite map_length; exact H).
  apply map_nth.
Qed.

(** ** The score *)
Lemma fold_sq_nonneg (l : list R) : 0 <= fold_right Rplus 0 (map (fun v => v * v) l).
Proof. induction l as [|a l IH]; cbn; [lra|]. nra. Qed.
Lemma fold_sq_zero (l : list R) : fold_right Rplus 0 (map (fun v => v * v) l) = 0 -> forall v, In v l -> v = 0.
Proof.
  induction l as [|a l IH]; cbn; [easy|]. intros H v [->|Hv]; pose proof (fold_sq_nonneg l); [nra|].
  apply IH; [nra|exact Hv].
Qed.
Lemma map2_In_nth (f : R -> R -> R) (a b : list R) i : length a = length b -> (i < length a)%nat ->
  In (f (entry a i) (entry b i)) (map2 f a b).
Proof.
  intros L H. unfold entry. rewrite <- (map2_nth f a b i 0 0 0 H ltac:(lia)). apply nth_In. rewrite map2_length. lia.
Qed.

Definition sq (l : list R) : R := fold_right Rplus 0 (map (fun v => v * v) l).
Lemma r2_formula (yt yp : list R) : (2 <= length yt)%nat ->
  r2_score (N := Rnum) yt yp =
  let num := sq (map2 Rminus yt yp) in
  let den := sq (map (fun v => v - nmean (N := Rnum) yt) yt) in
  if Req_EM_T den 0 then (if Req_EM_T num 0 then 1 else 0) else 1 - num / den.
Proof.
  intro H2. unfold r2_score. assert (E : (@List.length (carrier Rnum) yt <? 2)%nat = false) by (apply Nat.ltb_ge; exact H2).
  rewrite E. change (nsum (map nsquare (map2 (nsub (n := Rnum)) yt yp))) with (sq (map2 Rminus yt yp)).
  change (nsum (map nsquare (map (fun v => nsub (n := Rnum) v (nmean yt)) yt))) with (sq (map (fun v => v - nmean (N := Rnum) yt) yt)).
  cbv zeta. set (num := sq (map2 Rminus yt yp)). set (den := sq (map (fun v => v - nmean (N := Rnum) yt) yt)). clearbody num den.
  unfold nnonzero, nzero, none. cbn. unfold Reqb. destruct (Req_EM_T den 0), (Req_EM_T num 0); reflexivity.
Qed.
Lemma r2_at_most (yt yp : list R) : (2 <= length yt)%nat -> r2_score (N := Rnum) yt yp <= 1.
Proof.
  intro H2. rewrite (r2_formula yt yp H2). cbv zeta.
  assert (Hn : 0 <= sq (map2 Rminus yt yp)) by apply fold_sq_nonneg.
  assert (Hd : 0 <= sq (map (fun v => v - nmean (N := Rnum) yt) yt)) by apply fold_sq_nonneg.
  set (num := sq (map2 Rminus yt yp)) in *. set (den := sq (map (fun v => v - nmean (N := Rnum) yt) yt)) in *. clearbody num den.
  destruct (Req_EM_T den 0) as [E|E]; [destruct (Req_EM_T num 0); lra|].
  assert (0 <= num / den); [|lra]. apply Rmult_le_pos; [exact Hn|]. apply Rlt_le, Rinv_0_lt_compat. lra.
Qed.
Lemma r2_one (yt yp : list R) : (2 <= length yt)%nat -> length yt = length yp -> r2_score (N := Rnum) yt yp = 1 ->
  forall i, (i < length yt)%nat -> entry yt i = entry yp i.
Proof.
  intros H2 L H. assert (E : sq (map2 Rminus yt yp) = 0).
  { rewrite (r2_formula yt yp H2) in H. cbv zeta in H.
    set (num := sq (map2 Rminus yt yp)) in *. set (den := sq (map (fun v => v - nmean (N := Rnum) yt) yt)) in *. clearbody num den.
    destruct (Req_EM_T den 0) as [E|E]; [destruct (Req_EM_T num 0); lra|].
    assert (Z : num / den = 0) by lra. unfold Rdiv in Z. apply Rmult_integral in Z as [Z|Z]; [exact Z|].
    exfalso. exact (Rinv_neq_0_compat _ E Z). }
  intros i Hi. pose proof (fold_sq_zero _ E _ (map2_In_nth Rminus yt yp i L Hi)). lra.
Qed.
Lemma sq_self (l : list R) : sq (map2 Rminus l l) = 0.
Proof. unfold sq. induction l as [|a l IH]; [reflexivity|]. cbn in *. rewrite IH. ring. Qed.
Lemma r2_exact (yt yp : list R) : (2 <= length yt)%nat -> yt = yp -> r2_score (N := Rnum) yt yp = 1.
Proof.
  intros H2 <-. rewrite (r2_formula yt yt H2). cbv zeta. rewrite sq_self. destruct (Req_EM_T 0 0) as [_|C]; [|lra].
  destruct (Req_EM_T _ 0); [reflexivity|]. rr. unfold Rdiv. ring.
Qed.

(** ** argmax and median of real numbers *)
Lemma nan_R (v : R) : nan (N := Rnum) v = false.
Proof. unfold nan. cbn. unfold Reqb. destruct (Req_EM_T v v); [reflexivity|easy]. Qed.
Lemma argmax_from_spec (all : list R) : forall l i (best : R) besti, (besti < i)%nat ->
  nth besti all 0 = best -> (forall k, (k < i)%nat -> nth k all 0 <= best) -> (forall k, nth k l 0 = nth (i + k) all 0) ->
  (i + length l = length all)%nat ->
  let m := argmax_from (N := Rnum) i best besti l in
  (m < length all)%nat /\ forall k, (k < length all)%nat -> nth k all 0 <= nth m all 0.
Proof.
  induction l as [|v l IH]; intros i best besti Hb Eb Hk Hl Hlen; cbn [argmax_from].
  - cbn in Hlen. split; [lia|]. intros k Hk'. rewrite Eb. apply Hk. lia.
  - assert (Ev : v = nth i all 0) by (rewrite <- (Nat.add_0_r i); exact (Hl 0%nat)).
    cbn in Hlen. cbn [nleb Rnum]. unfold Rleb. rewrite (nan_R v). destruct (Rle_dec v best) as [Le|Gt].
    + apply IH; try lia; try assumption.
      * intros k Hk'. destruct (Nat.eq_dec k i) as [->|Ne]; [rewrite <- Ev; exact Le|apply Hk; lia].
      * intro k. rewrite Nat.add_succ_comm. exact (Hl (S k)).
    + apply IH; try lia; try (symmetry; assumption).
      * intros k Hk'. destruct (Nat.eq_dec k i) as [->|Ne]; [rewrite <- Ev; lra|]. assert (nth k all 0 <= best) by (apply Hk; lia). lra.
      * intro k. rewrite Nat.add_succ_comm. exact (Hl (S k)).
Qed.
Lemma argmax_spec (l : list R) : l <> [] ->
  exists m, argmax (N := Rnum) l = Ok m /\ (m < length l)%nat /\ forall k, (k < length l)%nat -> nth k l 0 <= nth m l 0.
Proof.
  destruct l as [|v l]; [easy|]. intros _. eexists. split; [reflexivity|]. rewrite (nan_R v).
  apply (argmax_from_spec (v :: l) l 1 v 0); try reflexivity; [lia|]. intros [|k] Hk; [cbn; lra|lia].
Qed.

Lemma insert_repeat (v : R) k : insert_sorted (N := Rnum) v (repeat v k) = repeat v (S k).
Proof.
  destruct k; [reflexivity|]. cbn [repeat insert_sorted]. cbn [nleb Rnum]. unfold Rleb. destruct (Rle_dec v v); [reflexivity|exfalso; lra].
Qed.
Lemma sorted_repeat (v : R) k : sorted (N := Rnum) (repeat v k) = repeat v k.
Proof. induction k; [reflexivity|]. unfold sorted in *. cbn [repeat fold_right]. rewrite IHk. apply insert_repeat. Qed.
Lemma entry_repeat (v : R) k i : (i < k)%nat -> nth i (repeat v k) 0 = v.
Proof. revert i. induction k; intros [|i] H; cbn; try lia; auto. apply IHk. lia. Qed.
Lemma median_repeat (v : R) k : (0 < k)%nat -> median (N := Rnum) (repeat v k) = v.
Proof.
  intro Hk. unfold median.
  assert (E : existsb (nan (N := Rnum)) (repeat v k) = false).
  { clear Hk. induction k; [reflexivity|]. cbn [repeat existsb]. now rewrite nan_R, IHk. }
  rr. rewrite E, repeat_length. destruct (Nat.eqb_spec k 0) as [C|_]; [lia|]. cbn [orb].
  rewrite sorted_repeat. rr.
  assert (H2 : (k / 2 < k)%nat) by (apply Nat.div_lt; lia).
  destruct (Nat.even k).
  - refine (eq_trans (f_equal2 (fun a c => (a + c) / 2) (entry_repeat v k (k / 2 - 1) _) (entry_repeat v k (k / 2) H2)) _); [lia|field].
  - exact (entry_repeat v k (k / 2) H2).
Qed.
