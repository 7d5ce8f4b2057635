(** Proofs about the units of the response (C123): the estimation module and the fit. *)
From Coq Require Import ZArith String List Bool Arith Lia Reals Lra Psatz Permutation Sorted.
From Verif Require Import Prelude F64 Num Model_Intersection Model_Fit Model_Scores Model_Refit Model_Rescale Model_Poisson Model_Linear Model_Estimation Model_Selection
  Spec_Rescale Proofs_Rescale Spec_Poisson Proofs_Poisson Proofs_PoissonOpt Spec_Linear Proofs_Linear
  Proofs_LinearUnits Spec_Estimation Proofs_Estimation Proofs_Estimation2 Proofs_Estimation3 Proofs_Estimation4 Spec_Choice Proofs_Choice Spec_Units Proofs_Units.
Import ListNotations.
Local Open Scope R_scope.

(** ** The median of scaled values *)
Lemma sorted_unique (a : list R) : forall b, StronglySorted Rle a -> StronglySorted Rle b -> Permutation a b -> a = b.
Proof.
  induction a as [|x a IH]; intros b Sa Sb P; [apply Permutation_nil in P; now subst|].
  destruct b as [|z b]; [apply Permutation_sym, Permutation_nil in P; discriminate|].
  inversion Sa as [|? ? Sa' Fa]. inversion Sb as [|? ? Sb' Fb]. subst. rewrite Forall_forall in Fa, Fb.
  assert (E : x = z).
  { apply Rle_antisym.
    - destruct (Permutation_in z (Permutation_sym P) (or_introl eq_refl)) as [->|H]; [apply Rle_refl|now apply Fa].
    - destruct (Permutation_in x P (or_introl eq_refl)) as [->|H]; [apply Rle_refl|now apply Fb]. }
  subst z. f_equal. apply IH; [exact Sa'|exact Sb'|]. exact (Permutation_cons_inv P).
Qed.
Lemma median_unique l v v' : median_of l v -> median_of l v' -> v = v'.
Proof.
  intros (a & Pa & Sa & ->) (b & Pb & Sb & ->). rewrite (sorted_unique a b Sa Sb (perm_trans Pa (Permutation_sym Pb))). reflexivity.
Qed.
Lemma sorted_scaled s (l : list R) : 0 <= s -> StronglySorted Rle l -> StronglySorted Rle (map (Rmult s) l).
Proof.
  intros Hs. induction 1 as [|x l S IH F]; [constructor|]. cbn. constructor; [exact IH|]. rewrite Forall_forall in *. intros z Hz.
  apply in_map_iff in Hz as (w & <- & Hw). apply Rmult_le_compat_l; [exact Hs|now apply F].
Qed.
Lemma sorted_snoc (l : list R) x : StronglySorted Rle l -> (forall z, In z l -> z <= x) -> StronglySorted Rle (l ++ [x]).
Proof.
  induction 1 as [|y l S IH F]; intro H; [repeat constructor|]. cbn. constructor; [apply IH; intros z Hz; apply H; now right|].
  rewrite Forall_forall in *. intros z Hz. apply in_app_iff in Hz as [Hz|[<-|[]]]; [now apply F|apply H; now left].
Qed.
Lemma sorted_reversed s (l : list R) : s <= 0 -> StronglySorted Rle l -> StronglySorted Rle (rev (map (Rmult s) l)).
Proof.
  intros Hs. induction 1 as [|x l S IH F]; [constructor|]. cbn. apply sorted_snoc; [exact IH|]. rewrite Forall_forall in F.
  intros z Hz. apply in_rev, in_map_iff in Hz as (w & <- & Hw). specialize (F w Hw). nra.
Qed.
Lemma median_scaled_of s l v : l <> [] -> median_of l v -> median_of (map (Rmult s) l) (s * v).
Proof.
  intros Hl (a & P & Sa & ->). pose proof (Permutation_length P) as L.
  assert (L0 : (0 < length l)%nat) by (destruct l; [easy|cbn; lia]).
  destruct (Rle_dec 0 s) as [G|G].
  - exists (map (Rmult s) a). split; [now apply Permutation_map|]. split; [now apply sorted_scaled|]. rewrite map_length, !entry_scaled.
    destruct (Nat.even _); [field|reflexivity].
  - exists (rev (map (Rmult s) a)). split; [apply perm_trans with (map (Rmult s) a); [apply Permutation_sym, Permutation_rev|now apply Permutation_map]|].
    split; [apply sorted_reversed; [lra|exact Sa]|]. rewrite map_length. destruct (Nat.even (length l)) eqn:Ev.
    + apply Nat.even_spec in Ev as [k Ek]. assert (K : (length l / 2 = k)%nat) by (rewrite Ek, Nat.mul_comm; now apply Nat.div_mul). rewrite K.
      rewrite !entry_rev by (rewrite map_length, L; lia). rewrite map_length, L, !entry_scaled.
      replace (length l - Datatypes.S (k - 1))%nat with k by lia. replace (length l - Datatypes.S k)%nat with (k - 1)%nat by lia. field.
    + assert (Od : Nat.odd (length l) = true) by (unfold Nat.odd; now rewrite Ev). apply Nat.odd_spec in Od as [k Ek].
      assert (K : (length l / 2 = k)%nat) by (rewrite Ek; symmetry; apply (Nat.div_unique _ 2 k 1); lia). rewrite K.
      rewrite entry_rev by (rewrite map_length, L; lia). rewrite map_length, L, entry_scaled. replace (length l - Datatypes.S k)%nat with k by lia. reflexivity.
Qed.
Lemma median_scaled s (l : list R) : l <> [] -> median (N := Rnum) (map (Rmult s) l) = s * median (N := Rnum) l.
Proof.
  intro H. apply (median_unique (map (Rmult s) l)); [apply median_value; destruct l; [easy|discriminate]|].
  apply median_scaled_of; [exact H|now apply median_value].
Qed.
Lemma bagged_scaled s p best : best <> [] -> bagged (N := Rnum) p (map (map (Rmult s)) best) = map (Rmult s) (bagged (N := Rnum) p best).
Proof.
  intro H. unfold bagged. rewrite map_map. apply map_ext. intro j. rewrite map_map.
  refine (eq_trans _ (median_scaled s (map (fun e => nth j e 0) best) _)); [|destruct best; [easy|discriminate]].
  rewrite map_map. f_equal. apply map_ext. intro e. exact (entry_scaled s e j).
Qed.

(** ** argmax of shifted scores *)
Lemma argmax_from_shift k (l : list R) : forall i (best : R) besti,
  argmax_from (N := Rnum) i (best + k) besti (map (fun v => v + k) l) = argmax_from (N := Rnum) i best besti l.
Proof.
  induction l as [|v l IH]; intros i best besti; [reflexivity|]. cbn [map argmax_from]. rewrite !nan_R.
  assert (E : nleb (n := Rnum) (v + k) (best + k) = nleb (n := Rnum) v best).
  { cbn [nleb Rnum]. unfold Rleb. destruct (Rle_dec (v + k) (best + k)), (Rle_dec v best); try reflexivity; exfalso; lra. }
  rewrite E. destruct (nleb (n := Rnum) v best); apply IH.
Qed.
Lemma argmax_shift k (l : list R) : argmax (N := Rnum) (map (fun v => v + k) l) = argmax (N := Rnum) l.
Proof. destruct l as [|v l]; [reflexivity|]. cbn [map argmax]. rewrite !nan_R. f_equal. apply argmax_from_shift. Qed.
Definition carry (s k : R) (o : list R * R) : list R * R := (map (Rmult s) (fst o), snd o + k).
Lemma best_carried s k out : best_estimate (N := Rnum) (map (carry s k) out) = rmap (map (Rmult s)) (best_estimate (N := Rnum) out).
Proof.
  unfold best_estimate. rewrite !map_map.
  assert (E : map (fun x => snd (carry s k x)) out = map (fun v => v + k) (map snd out)) by (rewrite map_map; reflexivity).
  rr. rewrite E, argmax_shift. destruct (argmax (N := Rnum) (map snd out)) as [m|]; [|reflexivity]. cbn [rmap]. f_equal.
  change (fun x => fst (carry s k x)) with (fun x : list R * R => map (Rmult s) (fst x)). rewrite <- (map_map fst (map (Rmult s))).
  exact (map_nth (map (Rmult s)) (map fst out) [] m).
Qed.
Lemma mapM_carry {A} (f f2 : A -> result (list R * R)) s k l :
  (forall x, In x l -> exists o, f x = Ok o /\ f2 x = Ok (carry s k o)) ->
  exists out, mapM f l = Ok out /\ mapM f2 l = Ok (map (carry s k) out) /\ length out = length l.
Proof.
  induction l as [|x l IH]; intro H; [exists []; repeat split|].
  destruct (H x (or_introl eq_refl)) as (o & E & E2). destruct IH as (out & F & F2 & L); [intros z Hz; apply H; now right|].
  exists (o :: out). cbn. rewrite E, E2. cbn. rewrite F, F2. cbn. rewrite L. repeat split.
Qed.
Lemma mapM_best {A} (f f2 : A -> result (list R)) s l :
  (forall x, In x l -> exists o, f x = Ok o /\ f2 x = Ok (map (Rmult s) o)) ->
  exists out, mapM f l = Ok out /\ mapM f2 l = Ok (map (map (Rmult s)) out) /\ length out = length l.
Proof.
  induction l as [|x l IH]; intro H; [exists []; repeat split|].
  destruct (H x (or_introl eq_refl)) as (o & E & E2). destruct IH as (out & F & F2 & L); [intros z Hz; apply H; now right|].
  exists (o :: out). cbn. rewrite E, E2. cbn. rewrite F, F2. cbn. rewrite L. repeat split.
Qed.

Lemma distance2_converted s t (v : list R) m : distance2 (converted s t v) (s * m + t) = s * s * distance2 v m.
Proof. unfold distance2. rewrite length_converted, <- Sum_scal. apply Sum_ext. intros i Hi. rewrite entry_converted by exact Hi. ring. Qed.
Lemma estimate_scaled p mask (m : list R * R) e e2 s t : length mask = p -> estimate_of p mask m e ->
  estimate_of p mask (map (Rmult s) (fst m), s * snd m + t) e2 -> e2 = map (Rmult s) e.
Proof.
  intros Lm (L & Z & V) (L2 & Z2 & V2). apply (list_eq_entries _ _ p); [exact L2|now rewrite map_length|]. intros j Hj. rewrite entry_scaled.
  destruct (nth j mask false) eqn:Ej; [|rewrite (Z j Ej), (Z2 j Ej); ring].
  assert (Ex : existsb (fun b : bool => b) mask = true) by (apply existsb_exists; exists true; split; [rewrite <- Ej; apply nth_In; lia|reflexivity]).
  specialize (V Ex). specialize (V2 Ex). cbn [fst] in V2. rewrite <- V, map_map in V2.
  assert (Hc : In j (chosen mask)) by (apply filter_In; split; [apply in_seq; lia|exact Ej]).
  clear -V2 Hc. induction (chosen mask) as [|a l IH]; [easy|]. cbn in V2. injection V2 as V0 V2. destruct Hc as [->|Hc]; [exact V0|now apply IH].
Qed.

Section Estimate.
  Variables (has : bool) (n p : nat) (X : list (list R)) (y : list R) (s t : R).
  Hypothesis Hs : s <> 0.
  Hypothesis Ht : has = false -> t = 0.
  Hypothesis HX : matrix n p X.
  Hypothesis Ly : length y = n.
  Variable ols : solver_ls (N := Rnum).
  Variables (metric : string) (target : nat) (sp : Model_Fit.split).
  Hypothesis Hmetric : In metric ["r2"; "BIC"; "AIC"; "AICc"]%string.
  Hypothesis Htrain : forall r, In r (fst sp) -> (r < n)%nat.
  Hypothesis Hne0 : fst sp <> [].
  Notation rows := (scored target sp).
  Hypothesis Hrows : forall r, In r rows -> (r < n)%nat.
  Hypothesis Hne : rows <> [].
  Notation yr := (part_y y (fst sp)).
  Notation yt := (part_y y rows).
  Notation y2 := (converted s t y).
  Notation fit_of mask := (ols (part X (fst sp) mask) yr).
  Notation fit2_of mask := (ols (part X (fst sp) mask) (part_y y2 (fst sp))).
  Notation err mask := (model_error X y (fst sp) rows mask (fit_of mask)).
  Notation err2 mask := (model_error X y2 (fst sp) rows mask (fit2_of mask)).
  Hypothesis Hr2 : metric = "r2"%string -> (2 <= length rows)%nat /\ distance2 yt (average (length rows) yt) <> 0.

  Lemma part2_train : part_y y2 (fst sp) = converted s t yr.
  Proof. apply part_converted. intros i Hi. rewrite Ly. now apply Htrain. Qed.
  Lemma part2_rows : part_y y2 rows = converted s t yt.
  Proof. apply part_converted. intros i Hi. rewrite Ly. now apply Hrows. Qed.
  Lemma rows_pos : (0 < length rows)%nat. Proof. destruct rows; [easy|cbn; lia]. Qed.
  Lemma train_pos : (0 < length (fst sp))%nat. Proof. destruct (fst sp); [easy|cbn; lia]. Qed.

  Lemma spread2 : distance2 (part_y y2 rows) (average (length rows) (part_y y2 rows)) = s * s * distance2 yt (average (length rows) yt).
  Proof. rewrite part2_rows, average_converted; [apply distance2_converted|exact (map_length _ _)|exact rows_pos]. Qed.

  Definition shift : R := if String.eqb metric "r2"%string then 0 else - (INR (length rows) * ln (s * s)).
  Lemma grade_shift k e : (metric <> "r2"%string -> 0 < e) ->
    grade y2 metric target sp (cost metric (length rows) k (s * s * e)) = grade y metric target sp (cost metric (length rows) k e) + shift.
  Proof.
    intro He. unfold grade, cost, shift. destruct (String.eqb_spec metric "r2"%string) as [Em|Em].
    - destruct (Hr2 Em) as [_ Hd]. rewrite spread2. field. split; assumption.
    - rewrite ln_mult; [ring|nra|now apply He].
  Qed.

  Variable mask : list bool.
  Hypothesis Lm : length mask = p.
  Hypothesis Hfit : existsb (fun b => b) mask = true ->
    only_least_squares has (count (fun b => b) mask) (part X (fst sp) mask) yr (fit_of mask) /\
    least_squares has (count (fun b => b) mask) (part X (fst sp) mask) (converted s t yr) (fit2_of mask).
  Hypothesis Hpos : metric <> "r2"%string -> 0 < err mask.

  Lemma fit2 : existsb (fun b => b) mask = true -> fit2_of mask = (map (Rmult s) (fst (fit_of mask)), s * snd (fit_of mask) + t).
  Proof. intro E. destruct (Hfit E) as [U L]. exact (least_unique_scaled s t Hs has _ _ _ _ _ Ht U L). Qed.
  Lemma error2 : err2 mask = s * s * err mask.
  Proof.
    pose proof fit2 as F2. unfold model_error. destruct (existsb (fun b : bool => b) mask) eqn:E.
    - rewrite (F2 eq_refl), part2_rows. cbn [fst snd]. apply error_scaled.
    - rewrite part2_rows, part2_train, average_converted; [apply distance2_converted|exact (map_length _ _)|exact train_pos].
  Qed.
  Lemma both_estimates : exists o, estimate_support (N := Rnum) ols metric target p X y sp mask = Ok o /\
    estimate_support (N := Rnum) ols metric target p X y2 sp mask = Ok (carry s shift o).
  Proof.
    destruct (estimate_grade n p X y HX ols metric target sp Hmetric Htrain Hrows Hne Hr2 mask Lm) as (e & E & He).
    - intro Ex. exact (proj1 (proj1 (proj1 (Hfit Ex)))).
    - exact Hpos.
    - destruct (estimate_grade n p X y2 HX ols metric target sp Hmetric Htrain Hrows Hne) with (mask := mask) as (e2 & E2 & He2).
      + intro Em. destruct (Hr2 Em) as [A B]. split; [exact A|]. rewrite spread2. intro C. apply Rmult_integral in C as [C|C]; [nra|easy].
      + exact Lm.
      + intro Ex. exact (proj1 (proj2 (Hfit Ex))).
      + intro Em. rewrite error2. apply Rmult_lt_0_compat; [nra|now apply Hpos].
      + eexists. split; [exact E|]. refine (eq_trans E2 _). unfold carry. cbn [fst snd]. rewrite error2, grade_shift by exact Hpos.
        f_equal. f_equal. pose proof fit2 as F2. destruct (existsb (fun b : bool => b) mask) eqn:Ex.
        * rewrite (F2 eq_refl) in He2. exact (estimate_scaled p mask (fit_of mask) e e2 s t Lm He He2).
        * destruct He as (L & Z & _). destruct He2 as (L2 & Z2 & _). apply (list_eq_entries _ _ p); [exact L2|now rewrite map_length|].
          intros j Hj. rewrite entry_scaled, Z, Z2 by (apply existsb_false_entries; exact Ex). ring.
  Qed.
End Estimate.
