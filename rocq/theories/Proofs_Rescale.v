(** Proofs about rescaling. *)
From Coq Require Import ZArith List Bool Reals Lra Lia Floats.SpecFloat Arith.
From Verif Require Import Prelude F64 Num Model_Mpi Model_Fit Spec_Fit Model_Rescale Spec_Rescale.
Import ListNotations.
Local Open Scope R_scope.

Ltac rr := change (carrier Rnum) with R in *.
Ltac rn := cbn [nadd nsub nmul ndiv nopp nabs nofZ nleb nltb neqb nexp nln nsqrt nneginf Rnum carrier].

(** ** Sums *)
Lemma Sum_ext p f g : (forall j, (j < p)%nat -> f j = g j) -> Sum p f = Sum p g.
Proof.
  intro H. unfold Sum. f_equal. apply map_ext_in. intros j Hj. apply in_seq in Hj. apply H. lia.
Qed.
Lemma fold_plus l a : fold_right Rplus a l = fold_right Rplus 0 l + a.
Proof. induction l as [|b l IH]; cbn; [lra|]. rewrite IH. lra. Qed.
Lemma Sum_S p f : Sum (S p) f = Sum p f + f p.
Proof.
  unfold Sum. rewrite seq_S, map_app, fold_right_app. cbn. rewrite fold_plus. lra.
Qed.
Lemma Sum_0 f : Sum 0 f = 0.
Proof. reflexivity. Qed.
Lemma Sum_plus p f g : Sum p (fun j => f j + g j) = Sum p f + Sum p g.
Proof. induction p; [rewrite !Sum_0; lra|]. rewrite !Sum_S, IHp. lra. Qed.
Lemma Sum_minus p f g : Sum p (fun j => f j - g j) = Sum p f - Sum p g.
Proof. induction p; [rewrite !Sum_0; lra|]. rewrite !Sum_S, IHp. lra. Qed.
Lemma Sum_scal p f k : Sum p (fun j => k * f j) = k * Sum p f.
Proof. induction p; [rewrite !Sum_0; lra|]. rewrite !Sum_S, IHp. lra. Qed.
Lemma Sum_scal_r p f k : Sum p (fun j => f j * k) = Sum p f * k.
Proof. induction p; [rewrite !Sum_0; lra|]. rewrite !Sum_S, IHp. lra. Qed.
Lemma Sum_shift p f : Sum (S p) f = f 0%nat + Sum p (fun j => f (S j)).
Proof.
  induction p; [rewrite Sum_S, !Sum_0; lra|]. rewrite Sum_S, IHp, (Sum_S p). lra.
Qed.

Lemma map2_length {A B C} (f : A -> B -> C) a b : length (map2 f a b) = Nat.min (length a) (length b).
Proof. revert b. induction a as [|x a IH]; intros [|y b]; cbn; auto. Qed.
Lemma map2_nth {A B C} (f : A -> B -> C) a b j da db dc : (j < length a)%nat -> (j < length b)%nat ->
  nth j (map2 f a b) dc = f (nth j a da) (nth j b db).
Proof.
  revert b j. induction a as [|x a IH]; intros [|y b] [|j] H1 H2; cbn in *; try lia; auto.
  apply IH; lia.
Qed.

Lemma nsum_Sum (l : list Rnum) : nsum l = Sum (length l) (fun j => entry l j).
Proof.
  induction l as [|a l IH]; [reflexivity|].
  cbn [length]. rewrite Sum_shift. unfold nsum in *. cbn [fold_right]. rewrite IH. reflexivity.
Qed.

Lemma ndot_Sum (a b : list Rnum) : length a = length b ->
  ndot a b = Sum (length a) (fun j => entry a j * entry b j).
Proof.
  intro H. unfold ndot. rewrite nsum_Sum, map2_length, <- H, Nat.min_id.
  apply Sum_ext. intros j Hj. apply (map2_nth nmul a b j 0 0 0); lia.
Qed.

(** ** C31-C33 *)
Section Scaler.
  Variables (p : nat) (m s c x : list R) (b : R).
  Hypothesis Hm : length m = p.
  Hypothesis Hs : scales_ok p s.
  Hypothesis Hc : length c = p.
  Hypothesis Hx : length x = p.

  Lemma entry_div (u v : list Rnum) j : (j < length u)%nat -> (j < length v)%nat ->
    entry (map2 (ndiv (n := Rnum)) u v) j = entry u j / entry v j.
  Proof. intros H1 H2. exact (map2_nth _ u v j 0 0 0 H1 H2). Qed.
  Lemma entry_mul (u v : list Rnum) j : (j < length u)%nat -> (j < length v)%nat ->
    entry (map2 (nmul (n := Rnum)) u v) j = entry u j * entry v j.
  Proof. intros H1 H2. exact (map2_nth _ u v j 0 0 0 H1 H2). Qed.
  Lemma entry_map (f : R -> R) (u : list R) j : (j < length u)%nat -> entry (map f u) j = f (entry u j).
  Proof.
    intro H. unfold entry. rewrite (nth_indep _ 0 (f 0)) by (rewrite map_length; assumption).
    apply map_nth.
  Qed.

  Lemma transform_entry wm j : (j < p)%nat ->
    entry (transform (N := Rnum) (mkScaler m s) wm x) j
    = (entry x j - if wm then entry m j else 0) / entry s j.
  Proof.
    destruct Hs as [Hls _]. intro Hj. unfold transform. cbn [mean_ scale_]. destruct wm.
    - rewrite entry_div; [|rewrite map2_length; rr; lia|rr; lia]. f_equal.
      apply (map2_nth nsub x m j 0 0 0); (rr; lia).
    - rewrite entry_div by (rr; lia). now rewrite Rminus_0_r.
  Qed.

  Lemma linear_rescaled fi ym ys : (fi = false -> b = 0) ->
    let r := linear_post (N := Rnum) true fi (mkScaler m s) ym ys c b in
    value p (fst r) (snd r) x = std_value p fi m s c b x * ys + if fi then ym else 0.
  Proof.
    intros Hb r. destruct Hs as [Hls Hnz]. unfold r, linear_post, base_post. cbn [fst snd mean_ scale_].
    set (c' := map _ _).
    assert (Lc : length c' = p) by (unfold c'; rewrite map_length, map2_length; (rr; lia)).
    assert (Ec : forall j, (j < p)%nat -> entry c' j = entry c j / entry s j * ys).
    { intros j Hj. unfold c'. rewrite (entry_map (fun v => v * ys)) by (rewrite map2_length; (rr; lia)).
      now rewrite entry_div by (rr; lia). }
    unfold value, std_value. rewrite Rmult_plus_distr_r, <- Sum_scal_r. destruct fi.
    - rewrite ndot_Sum by (rr; rewrite Lc; assumption). rr. rewrite Hm.
      rewrite (Sum_ext p (fun j => entry c' j * entry x j)
                 (fun j => entry c j / entry s j * ys * entry x j))
        by (intros j Hj; now rewrite Ec).
      rewrite (Sum_ext p (fun j => entry m j * entry c' j)
                 (fun j => entry m j * (entry c j / entry s j * ys)))
        by (intros j Hj; now rewrite Ec).
      rn.
      rewrite (Sum_ext p (fun j => entry c j * ((entry x j - entry m j) / entry s j) * ys)
                 (fun j => entry c j / entry s j * ys * entry x j - entry m j * (entry c j / entry s j * ys)))
        by (intros j Hj; field; auto).
      rewrite Sum_minus. lra.
    - rewrite (Hb eq_refl), Rmult_0_l, !Rplus_0_r. apply Sum_ext. intros j Hj. rewrite Ec by assumption.
      rewrite Rminus_0_r. field. auto.
  Qed.

  Lemma linear_unscaled fi ym ys :
    linear_post (N := Rnum) false fi (mkScaler m s) ym ys c b = (c, b).
  Proof. reflexivity. Qed.

  Lemma base_value j : (j < p)%nat -> entry (base_post (N := Rnum) true (mkScaler m s) c) j = entry c j / entry s j.
  Proof. destruct Hs as [Hls _]. intro Hj. unfold base_post. cbn [scale_]. apply entry_div; (rr; lia). Qed.

  Lemma std_split (f : bool) :
    std_value p f m s c b x
    = Sum p (fun j => entry c j / entry s j * entry x j) + b
      - (if f then Sum p (fun j => entry m j * (entry c j / entry s j)) else 0).
  Proof.
    destruct Hs as [_ Hnz]. unfold std_value. destruct f.
    - rewrite (Sum_ext p _ (fun j => entry c j / entry s j * entry x j - entry m j * (entry c j / entry s j)))
        by (intros j Hj; field; auto). rewrite Sum_minus. lra.
    - rewrite (Sum_ext p _ (fun j => entry c j / entry s j * entry x j))
        by (intros j Hj; field; auto). lra.
  Qed.

  Lemma poisson_rescaled fi :
    let r := poisson_post (N := Rnum) true fi (mkScaler m s) c b in
    value p (fst r) (snd r) x
    = std_value p true m s c b x
      + if fi then 0 else Sum p (fun j => entry m j * entry (fst r) j).
  Proof.
    intro r. destruct Hs as [Hls Hnz]. unfold r, poisson_post. cbn [fst snd mean_ scale_].
    rewrite std_split. unfold value.
    rewrite (Sum_ext p (fun j => entry (map2 ndiv c s) j * entry x j) (fun j => entry c j / entry s j * entry x j))
      by (intros j Hj; now rewrite entry_div by (rr; lia)).
    rewrite (Sum_ext p (fun j => entry m j * entry (map2 ndiv c s) j) (fun j => entry m j * (entry c j / entry s j)))
      by (intros j Hj; now rewrite entry_div by (rr; lia)).
    destruct fi; [|lra]. rn.
    rewrite nsum_Sum. rewrite map2_length, map2_length. rr. rewrite Hls, Hm, Hc, !Nat.min_id.
    rewrite (Sum_ext p (fun j => entry (map2 (ndiv (n := Rnum)) _ s) j) (fun j => entry m j * (entry c j / entry s j))).
    2:{ intros j Hj. rewrite entry_div; [|rewrite map2_length; rr; lia|rr; lia]. rewrite entry_mul by (rr; lia).
        field. auto. }
    lra.
  Qed.

  Lemma glm_rescaled fi :
    let r := glm_post (N := Rnum) true fi (mkScaler m s) c b in
    value p (fst r) (snd r) x
    = std_value p fi m s c b x
      + if fi then Sum p (fun j => entry m j * entry c j * (1 + / entry s j)) else 0.
  Proof.
    intro r. destruct Hs as [Hls Hnz]. unfold r, glm_post. cbn [fst snd mean_ scale_].
    rewrite std_split. unfold value.
    rewrite (Sum_ext p (fun j => entry (base_post true (mkScaler m s) c) j * entry x j) (fun j => entry c j / entry s j * entry x j))
      by (intros j Hj; now rewrite base_value).
    destruct fi; cbn [andb]; [|lra]. rn.
    rewrite ndot_Sum; rewrite map2_length; rr; rewrite Hls, Hm, Nat.min_id.
    2:{ unfold base_post. cbn [scale_]. rewrite map2_length. (rr; lia). }
    rewrite (Sum_ext p (fun j => entry (map2 nmul m s) j * entry _ j) (fun j => entry m j * entry c j)).
    2:{ intros j Hj. rewrite entry_mul by (rr; lia). rewrite base_value by assumption. field. auto. }
    rewrite (Sum_ext p (fun j => entry m j * entry c j * (1 + / entry s j))
               (fun j => entry m j * entry c j + entry m j * (entry c j / entry s j)))
      by (intros j Hj; field; auto).
    rewrite Sum_plus. lra.
  Qed.

  Lemma masked_rescaled :
    let r := masked_post (N := Rnum) true (mkScaler m s) c b in
    value p (fst r) (snd r) x
    = std_value p true m s c b x + Sum p (fun j => entry m j * entry (fst r) j).
  Proof.
    intro r. unfold r, masked_post. cbn [fst snd].
    rewrite std_split. unfold value.
    rewrite (Sum_ext p (fun j => entry (base_post true (mkScaler m s) c) j * entry x j) (fun j => entry c j / entry s j * entry x j))
      by (intros j Hj; now rewrite base_value).
    rewrite (Sum_ext p (fun j => entry m j * entry (base_post true (mkScaler m s) c) j) (fun j => entry m j * (entry c j / entry s j)))
      by (intros j Hj; now rewrite base_value).
    lra.
  Qed.
End Scaler.

(** ** C25: the constant response *)
Lemma repeat_Sum (v : R) n : Sum n (fun j => entry (repeat v n) j) = INR n * v.
Proof.
  assert (H : forall k, (k <= n)%nat -> Sum k (fun j => entry (repeat v n) j) = INR k * v).
  { induction k as [|k IH]; intro Hk; [rewrite Sum_0; cbn; lra|].
    rewrite Sum_S, IH, S_INR by lia. unfold entry.
    assert (E : nth k (repeat v n) 0 = v).
    { apply (repeat_spec n v). apply nth_In. rewrite repeat_length. lia. }
    rewrite E. lra. }
  now apply H.
Qed.

Lemma mean_repeat (v : R) n : (0 < n)%nat -> nmean (N := Rnum) (repeat v n) = v.
Proof.
  intro Hn. unfold nmean. rewrite nsum_Sum, repeat_length, repeat_Sum.
  unfold nofnat. rn. rewrite <- INR_IZR_INZ. field. apply not_0_INR. lia.
Qed.

Lemma map_repeat' {A B} (f : A -> B) v n : map f (repeat v n) = repeat (f v) n.
Proof. induction n; cbn; congruence. Qed.

Lemma scale_repeat (v : R) n : (0 < n)%nat -> column_scale (N := Rnum) (repeat v n) = 1.
Proof.
  intro Hn. unfold column_scale. rewrite mean_repeat by assumption.
  rewrite map_repeat', mean_repeat by assumption. unfold nsquare, none, nzero. rn.
  unfold Reqb. destruct (Req_EM_T ((v - v) * (v - v)) 0); [reflexivity|]. exfalso. apply n0. ring.
Qed.

Lemma entry_zeros n j : entry (repeat 0 n) j = 0.
Proof. unfold entry. revert j. induction n; intros [|j]; cbn; auto. Qed.
Lemma Sum_zero p f : (forall j, (j < p)%nat -> f j = 0) -> Sum p f = 0.
Proof.
  intro H. rewrite (Sum_ext p f (fun _ => 0 * 0)) by (intros j Hj; rewrite H by assumption; lra).
  rewrite Sum_scal. lra.
Qed.

Lemma constant_prediction std fi p m s xbar v n x :
  length m = p -> scales_ok p s -> length xbar = p -> length x = p -> (0 < n)%nat ->
  let r := linear_constant_fit (N := Rnum) std fi (mkScaler m s) xbar (repeat v n) p in
  value p (fst r) (snd r) x = if fi then v else 0.
Proof.
  intros Hm Hs Hxb Hx Hn r. unfold r, linear_constant_fit.
  rewrite mean_repeat, scale_repeat by assumption.
  assert (Hd : ndot (N := Rnum) xbar (repeat nzero p) = 0).
  { rewrite ndot_Sum by now rewrite repeat_length. apply Sum_zero. intros j _.
    change (nzero (N := Rnum)) with 0. rewrite entry_zeros. lra. }
  change (nzero (N := Rnum)) with 0 in *.
  destruct std.
  - match goal with |- context [linear_post true fi _ v 1 (repeat 0 p) ?b] => set (b0 := b) end.
    assert (Hb : fi = false -> b0 = 0) by (intros ->; reflexivity).
    refine (eq_trans (linear_rescaled p m s (repeat 0 p) x b0 Hm Hs (repeat_length _ _) Hx fi v 1 Hb) _).
    unfold std_value. rewrite Sum_zero by (intros j _; rewrite entry_zeros; lra).
    unfold b0. destruct fi; [|lra].
    rewrite map_repeat', mean_repeat by assumption. rn. rr. rewrite Hd. field.
  - unfold linear_post, base_post. cbn [fst snd]. unfold value.
    rewrite Sum_zero by (intros j _; rewrite entry_zeros; lra).
    destruct fi; [|lra]. rewrite mean_repeat by assumption. rn. rr. rewrite Hd. lra.
Qed.

(** ** Zeros survive, in binary64 *)
Local Close Scope R_scope.

Lemma div_zero a b : nonzero64 a = false -> proper b -> nonzero64 (fdiv a b) = false.
Proof.
  intros Ha [H1 H2]. destruct a as [s| | |]; try discriminate.
  destruct b as [s'| | |]; try discriminate. reflexivity.
Qed.
Lemma mul_zero a b : nonzero64 a = false -> is_finite64 b = true -> nonzero64 (fmul a b) = false.
Proof.
  intros Ha H1. destruct a as [s| | |]; try discriminate.
  destruct b as [s'| | |]; try discriminate; reflexivity.
Qed.

Lemma nth_concat_chunks (f : list f64 -> f64 -> list f64 * f64) p :
  (forall row b, length row = p -> length (fst (f row b)) = p) ->
  (forall row b k, length row = p -> nonzero64 (nth k row fzero) = false ->
     nonzero64 (nth k (fst (f row b)) fzero) = false) ->
  forall n l ics k, length l = n * p -> nonzero64 (nth k l fzero) = false ->
  nonzero64 (nth k (concat (map fst (map2 f (chunks p n l) ics))) fzero) = false.
Proof.
  intros Hl Hz. induction n as [|n IH]; intros l ics k Hlen Hk.
  - cbn. now destruct k.
  - cbn [chunks]. destruct ics as [|b ics]; [cbn; now destruct k|].
    cbn [map2 map concat].
    assert (Hp : length (firstn p l) = p) by (rewrite firstn_length; cbn in Hlen; lia).
    destruct (Nat.lt_ge_cases k p) as [L|L].
    + rewrite app_nth1 by (rewrite Hl; assumption). apply Hz; [assumption|].
      rewrite <- (firstn_skipn p l) in Hk. rewrite app_nth1 in Hk by lia. exact Hk.
    + rewrite app_nth2 by (rewrite Hl; assumption). rewrite Hl by assumption. apply IH.
      * rewrite skipn_length. cbn in Hlen. lia.
      * rewrite <- (firstn_skipn p l) in Hk. rewrite app_nth2 in Hk by lia. now rewrite Hp in Hk.
Qed.

Lemma num_zero (l : list scalar) k : nonzero64 (num (nth k l (SFlt fzero))) = false ->
  nonzero64 (nth k (map float_of_scalar l) fzero) = false.
Proof.
  revert k. induction l as [|a l IH]; intros [|k] H; cbn in *; auto.
  destruct a; [discriminate|exact H].
Qed.
Lemma zero_num (l : list f64) k : nonzero64 (nth k l fzero) = false ->
  nonzero64 (num (nth k (map SFlt l) (SFlt fzero))) = false.
Proof. revert k. induction l as [|a l IH]; intros [|k] H; cbn in *; auto. Qed.

Lemma post_rows_zeros p f sq :
  (forall row b, length row = p -> length (fst (f row b)) = p) ->
  (forall row b k, length row = p -> nonzero64 (nth k row fzero) = false ->
     nonzero64 (nth k (fst (f row b)) fzero) = false) ->
  keeps_zeros (post_rows p f sq).
Proof.
  intros Hl Hz c ic c' ic' k H Hk. unfold post_rows in H.
  destruct (nd_shape c) as [|n [|p' [|]]]; try discriminate.
  destruct (Nat.eqb p' p && _ && _) eqn:E; [|discriminate].
  apply andb_prop in E as [E E3]. apply andb_prop in E as [E1 E2].
  apply Nat.eqb_eq in E1, E2, E3. subst p'. injection H as <- _.
  apply num_zero in Hk.
  assert (G : nonzero64 (nth k (concat (map fst (map2 f (chunks p n (floats_of_nd c)) (floats_of_nd ic)))) fzero) = false).
  { apply nth_concat_chunks; [assumption|assumption| |exact Hk].
    unfold floats_of_nd. rewrite map_length. exact E2. }
  destruct sq; cbn; now apply zero_num.
Qed.

Lemma map2_zero (f : f64 -> f64 -> f64) (row s : list f64) k :
  length row = length s -> Forall proper s ->
  (forall a b, nonzero64 a = false -> proper b -> nonzero64 (f a b) = false) ->
  nonzero64 (nth k row fzero) = false -> nonzero64 (nth k (map2 f row s) fzero) = false.
Proof.
  intros H F Hf. revert row k H. induction F as [|b s Hb F IH]; intros [|a row] [|k] H Hk; try discriminate; auto.
  - cbn in *. auto.
  - cbn in *. apply IH; auto.
Qed.
Lemma map_zero (f : f64 -> f64) (row : list f64) k :
  (forall a, nonzero64 a = false -> nonzero64 (f a) = false) ->
  nonzero64 (nth k row fzero) = false -> nonzero64 (nth k (map f row) fzero) = false.
Proof.
  intro Hf. revert k. induction row as [|a row IH]; intros [|k] Hk; cbn in *; auto.
Qed.

Section Keeps.
  Variables exp64 ln64 : f64 -> f64.
  Notation N := (Fnum exp64 ln64).
  Variable sX : scaler N.
  Hypothesis Hsc : Forall proper (scale_ sX).

  Lemma base_post_ok std (row : list f64) : length row = length (scale_ sX) ->
    length (base_post (N := N) std sX row) = length (scale_ sX) /\
    forall k, nonzero64 (nth k row fzero) = false ->
      nonzero64 (nth k (base_post (N := N) std sX row) fzero) = false.
  Proof.
    intro H. unfold base_post. destruct std; [|auto]. split.
    - change (carrier N) with f64 in *. rewrite map2_length, H. apply Nat.min_id.
    - intros k Hk. apply (map2_zero fdiv); auto. apply div_zero.
  Qed.

  Lemma linear_keeps std fi ym ys : is_finite64 ys = true ->
    keeps_zeros (linear_post_nd exp64 ln64 std fi sX ym ys).
  Proof.
    intro Hy. apply post_rows_zeros.
    - intros row b H. destruct (base_post_ok std row H) as [L _].
      unfold linear_post. destruct std; cbn [fst]; [rewrite map_length|]; exact L.
    - intros row b k H Hk. destruct (base_post_ok std row H) as [_ Z]. specialize (Z k Hk).
      unfold linear_post. destruct std; cbn [fst]; [|exact Z].
      apply (map_zero (fun v => fmul v ys)); [|exact Z]. intros a Ha. now apply mul_zero.
  Qed.
  Lemma glm_keeps std fi : keeps_zeros (glm_post_nd exp64 ln64 std fi sX).
  Proof.
    apply post_rows_zeros; intros row b; [intro H|intros k H Hk]; destruct (base_post_ok std row H); cbn [glm_post fst]; auto.
  Qed.
  Lemma poisson_keeps std fi : keeps_zeros (poisson_post_nd exp64 ln64 std fi sX).
  Proof.
    assert (K : keeps_zeros (post_rows (length (scale_ sX)) (poisson_post (N := N) std fi sX) true)).
    { apply post_rows_zeros; intros row b; [intro H|intros k H Hk];
      destruct (base_post_ok std row H) as [L Z]; unfold base_post in *; unfold poisson_post; destruct std; cbn [fst]; auto. }
    intros c ic c' ic' k H. unfold poisson_post_nd in H. destruct (post_rows _ _ _ c ic) as [r|e] eqn:E; [|discriminate].
    cbn [bind] in H. destruct (std && _); [discriminate|]. injection H as ->. exact (K c ic c' ic' k E).
  Qed.
End Keeps.

Lemma all_keep_zeros exp64 ln64 (sX : scaler (Fnum exp64 ln64)) std fi ym ys :
  Forall proper (scale_ sX) -> is_finite64 ys = true ->
  keeps_zeros (linear_post_nd exp64 ln64 std fi sX ym ys) /\
  keeps_zeros (glm_post_nd exp64 ln64 std fi sX) /\
  keeps_zeros (poisson_post_nd exp64 ln64 std fi sX).
Proof.
  intros H1 H2. split; [now apply linear_keeps|]. split; [now apply glm_keeps|now apply poisson_keeps].
Qed.

(** Shapes of the arrays. *)
Lemma post_rows_shape p f sq c ic n : nd_shape c = [n; p] -> length (nd_data c) = n * p ->
  length (nd_data ic) = n ->
  exists c' ic', post_rows p f sq c ic = Ok (c', ic') /\ nd_shape ic' = nd_shape ic /\
    nd_shape c' = if sq then filter (fun k => negb (Nat.eqb k 1)) [n; p] else [n; p].
Proof.
  intros H1 H2 H3. unfold post_rows. rewrite H1, H2, H3, !Nat.eqb_refl. cbn [andb].
  eexists. eexists. split; [reflexivity|]. split; [reflexivity|]. now destruct sq.
Qed.
Lemma post_shapes exp64 ln64 (sX : scaler (Fnum exp64 ln64)) std fi ym ys c ic p :
  length (scale_ sX) = p -> nd_shape c = [1; p] -> length (nd_data c) = p -> length (nd_data ic) = 1 ->
  (exists c' ic', linear_post_nd exp64 ln64 std fi sX ym ys c ic = Ok (c', ic') /\
     nd_shape ic' = nd_shape ic /\ nd_shape c' = if Nat.eqb p 1 then [] else [p]) /\
  (exists c' ic', glm_post_nd exp64 ln64 std fi sX c ic = Ok (c', ic') /\
     nd_shape ic' = nd_shape ic /\ nd_shape c' = [1; p]) /\
  (if std && Nat.eqb p 1 then poisson_post_nd exp64 ln64 std fi sX c ic = Raise ValueError
   else exists c' ic', poisson_post_nd exp64 ln64 std fi sX c ic = Ok (c', ic') /\
     nd_shape ic' = nd_shape ic /\ nd_shape c' = if Nat.eqb p 1 then [] else [p]).
Proof.
  intros Hp H1 H2 H3. assert (H2' : length (nd_data c) = 1 * p) by lia.
  assert (F : filter (fun k => negb (Nat.eqb k 1)) [1; p] = if Nat.eqb p 1 then [] else [p])
    by (cbn; destruct (Nat.eqb p 1); reflexivity).
  split; [|split].
  - unfold linear_post_nd. rewrite Hp.
    destruct (post_rows_shape p (linear_post (N := Fnum exp64 ln64) std fi sX ym ys) true c ic 1 H1 H2' H3)
      as (c' & ic' & E & E1 & E2). rewrite F in E2. now exists c', ic'.
  - unfold glm_post_nd. rewrite Hp.
    destruct (post_rows_shape p (glm_post (N := Fnum exp64 ln64) std fi sX) false c ic 1 H1 H2' H3)
      as (c' & ic' & E & E1 & E2). now exists c', ic'.
  - unfold poisson_post_nd. rewrite Hp.
    destruct (post_rows_shape p (poisson_post (N := Fnum exp64 ln64) std fi sX) true c ic 1 H1 H2' H3)
      as (c' & ic' & E & E1 & E2). rewrite F in E2. rewrite E. cbn [bind fst]. rewrite E2.
    destruct std; cbn [andb]; [|now exists c', ic'].
    destruct (Nat.eqb p 1); cbn; [reflexivity|]. now exists c', ic'.
Qed.

Lemma glm_agreement p m s c x b : length m = p -> scales_ok p s -> length c = p -> length x = p ->
  let r := glm_post (N := Rnum) true true (mkScaler m s) c b in
  value p (fst r) (snd r) x = std_value p true m s c b x <->
  Sum p (fun j => entry m j * entry c j * (1 + / entry s j))%R = 0%R.
Proof.
  intros H1 H2 H3 H4. cbv zeta. pose proof (glm_rescaled p m s c x b H1 H2 H3 H4 true) as E. cbv zeta in E.
  cbv iota in E. rewrite E. split; intro; lra.
Qed.
Lemma masked_agreement p m s c x b : length m = p -> scales_ok p s -> length c = p -> length x = p ->
  let r := masked_post (N := Rnum) true (mkScaler m s) c b in
  value p (fst r) (snd r) x
    = (std_value p true m s c b x + Sum p (fun j => entry m j * entry (fst r) j))%R /\
  (value p (fst r) (snd r) x = std_value p true m s c b x <->
   Sum p (fun j => entry m j * entry (fst r) j)%R = 0%R).
Proof.
  intros H1 H2 H3 H4. cbv zeta. pose proof (masked_rescaled p m s c x b H1 H2 H3 H4) as E. cbv zeta in E.
  split; [exact E|]. rewrite E. split; intro; lra.
Qed.
Lemma transform_entry' p m s x : length m = p -> scales_ok p s -> length x = p ->
  forall centered j, j < p ->
  entry (transform (N := Rnum) (mkScaler m s) centered x) j
  = ((entry x j - if centered then entry m j else 0) / entry s j)%R.
Proof. intros H1 H2 H3. exact (transform_entry p m s m x H1 H2 H1 H3). Qed.
