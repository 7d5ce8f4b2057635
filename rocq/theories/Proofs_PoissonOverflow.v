(** What Poisson coordinate descent does once an exponential overflows, in binary64
    arithmetic (C116). *)
From Coq Require Import ZArith List Bool Arith Lia Floats.SpecFloat.
From Verif Require Import Prelude F64 Num Model_Rescale Model_Poisson Spec_PoissonNull Proofs_Rescale Proofs_Poisson
  Proofs_PoissonFit Proofs_Lbfgs Proofs_LbfgsNan Proofs_PoissonNan.
Import ListNotations.

Definition nonfin (x : f64) : Prop := is_finite64 x = false.
Lemma nonfin_add_l x y : nonfin x -> nonfin (fadd x y).
Proof. unfold nonfin. destruct x as [[]|[]| |[]], y as [[]|[]| |[]]; cbn; intro H; try discriminate H; reflexivity. Qed.
Lemma nonfin_add_r x y : nonfin y -> nonfin (fadd x y).
Proof. unfold nonfin. destruct x as [[]|[]| |[]], y as [[]|[]| |[]]; cbn; intro H; try discriminate H; reflexivity. Qed.
Lemma nonfin_mul_l x y : nonfin x -> nonfin (fmul x y).
Proof. unfold nonfin. destruct x as [[]|[]| |[]], y as [[]|[]| |[]]; cbn; intro H; try discriminate H; reflexivity. Qed.
Lemma nonfin_div x y : nonfin x -> nonfin y -> fdiv x y = fnan.
Proof. unfold nonfin. destruct x as [[]|[]| |[]], y as [[]|[]| |[]]; cbn; intros H H'; try discriminate H; try discriminate H'; reflexivity. Qed.

Section Overflow.
  Variables exp64 ln64 : f64 -> f64.
  Notation FN := (Fnum exp64 ln64).
  Hypothesis Hexp : exp64 fnan = fnan.

  Lemma nonfin_sum (l : list f64) i : i < length l -> nonfin (nth i l fzero) -> nonfin (nsum (N := FN) l).
  Proof.
    revert i. induction l as [|a l IH]; intros i Hi H; [cbn in Hi; lia|]. unfold nsum. cbn [fold_right].
    destruct i as [|i]; [apply nonfin_add_l; exact H|]. apply nonfin_add_r. apply (IH i); [cbn in Hi; lia|exact H].
  Qed.
  Lemma nonfin_dot (a b : list f64) i : i < length a -> i < length b -> nonfin (nth i a fzero) -> nonfin (ndot (N := FN) a b).
  Proof.
    intros Ha Hb H. unfold ndot. apply (nonfin_sum _ i); [refine (eq_ind_r (fun l => i < l) _ (map2_length fmul a b)); lia|].
    refine (eq_ind_r nonfin _ (map2_nth fmul a b i fzero fzero fzero Ha Hb)). now apply nonfin_mul_l.
  Qed.
  Lemma sum_nans n : nsum (N := FN) (nans (S n)) = fnan.
  Proof. reflexivity. Qed.
  Lemma dot_nans_r n (a : list f64) : length a = S n -> ndot (N := FN) a (nans (S n)) = fnan.
  Proof.
    intro L. unfold ndot. assert (E : map2 (nmul (n := FN)) a (nans (S n)) = nans (S n)) by (apply (map2_nan_r fmul); [apply mul_nan_r|exact L]).
    rewrite E. reflexivity.
  Qed.

  Section Data.
    Variables (n : nat) (X : list (list f64)) (y sw : list f64) (c : config FN).
    Hypothesis LX : length X = S n.
    Hypothesis Ly : length y = S n.
    Hypothesis Lsw : length sw = S n.
    Hypothesis Hf : fit_intercept c = true.

    Lemma matvec_length (v : list f64) : length (matvec (N := FN) X v) = S n.
    Proof. unfold matvec. rewrite map_length. exact LX. Qed.

    (** The intercept of the sweep that follows an overflow. *)
    Lemma iter_overflow (s : list f64 * f64) active i : i < S n ->
      overflows (exp64 (fadd (snd s) (nth i (matvec (N := FN) X (fst s)) fzero))) ->
      snd (cd_iteration (N := FN) c X y sw active s) = fnan.
    Proof.
      destruct s as [v b]. cbn [fst snd]. intros Hi Ho. unfold cd_iteration, cd_sweep, adjusted_response. cbn [fst snd]. rewrite Hf.
      set (e := map (nadd (n := FN) b) (matvec (N := FN) X v)). set (w := map2 (nmul (n := FN)) (map (nexp (n := FN)) e) sw).
      pose proof (matvec_length v) as Lm.
      assert (Le : length e = S n) by (unfold e; rewrite map_length; exact Lm).
      assert (Lx : length (map (nexp (n := FN)) e) = S n) by (rewrite map_length; exact Le).
      assert (Lw : length w = S n) by (apply length_map2n; [exact Lx|exact Lsw]).
      assert (Ee : nth i e fzero = fadd b (nth i (matvec (N := FN) X v) fzero)).
      { refine (eq_trans (nth_indep e fzero (fadd b fzero) _) (map_nth (fadd b) (matvec (N := FN) X v) fzero i)).
        exact (eq_ind_r (fun l => i < l) Hi Le). }
      assert (Ex : nth i (map (nexp (n := FN)) e) fzero = S754_infinity false).
      { refine (eq_trans (nth_indep (map exp64 e) fzero (exp64 fzero) _) (eq_trans (map_nth exp64 e fzero i) (eq_trans (f_equal exp64 Ee) Ho))).
        exact (eq_ind_r (fun l => i < l) Hi Lx). }
      assert (Nw : nonfin (nth i w fzero)).
      { unfold w. pose proof (map2_nth fmul (map (nexp (n := FN)) e) sw i fzero fzero fzero) as E.
        assert (E' : nth i (map2 fmul (map (nexp (n := FN)) e) sw) fzero = fmul (nth i (map (nexp (n := FN)) e) fzero) (nth i sw fzero)).
        { apply E; [match goal with |- _ < ?l => assert (Q : l = S n) by exact Lx; rewrite Q end; exact Hi|rewrite Lsw; exact Hi]. }
        refine (eq_ind_r nonfin _ E'). apply nonfin_mul_l. rewrite Ex. reflexivity. }
      apply nonfin_div.
      - apply (nonfin_dot _ _ i); [exact (eq_ind_r (fun l => i < l) Hi Lw)| |exact Nw].
        match goal with |- _ < ?l => assert (Q : l = S n) end.
        { apply length_map2n; [|exact Lm]. rewrite map_length. apply length_map2n; [exact Le|]. apply length_map2n; [exact Ly|exact Lx]. }
        rewrite Q. exact Hi.
      - apply (nonfin_sum _ i); [exact (eq_ind_r (fun l => i < l) Hi Lw)|exact Nw].
    Qed.

    (** A NaN intercept stays. *)
    Lemma iter_nan (v : list f64) active : snd (cd_iteration (N := FN) c X y sw active (v, fnan)) = fnan.
    Proof.
      unfold cd_iteration, cd_sweep, adjusted_response. cbn [fst snd]. rewrite Hf.
      assert (Ee : map (nadd (n := FN) fnan) (matvec (N := FN) X v) = nans (S n)).
      { refine (eq_trans (eta_nan _) _). f_equal. exact (matvec_length v). }
      rewrite Ee. assert (E2 : map (nexp (n := FN)) (nans (S n)) = nans (S n)) by (apply (map_nan exp64); exact Hexp).
      rewrite E2.
      assert (E3 : nsum (N := FN) (map2 (nmul (n := FN)) (nans (S n)) sw) = fnan).
      { destruct sw as [|a l]; [discriminate|]. reflexivity. }
      rewrite E3. apply div_nan_r.
    Qed.

    (** With a NaN intercept an updated coefficient is NaN. *)
    Lemma update_nan (w z v : list f64) j k : length w = S n -> length z = S n -> j < length v ->
      nth k (cd_update (N := FN) c X w z fnan v j) fzero = if Nat.eqb k j then fnan else nth k v fzero.
    Proof.
      intros Lw Lz Hj. unfold cd_update.
      match goal with |- nth k (lset j ?q v) _ = _ => assert (E : q = fnan) end.
      { match goal with |- context [map (nadd fnan) (matvec X ?u)] =>
          assert (Ee : map (nadd (n := FN) fnan) (matvec (N := FN) X u) = nans (S n)) end.
        { refine (eq_trans (eta_nan _) _). f_equal. apply matvec_length. }
        rewrite Ee.
        assert (E1 : map2 (nsub (n := FN)) z (nans (S n)) = nans (S n)) by (apply (map2_nan_r fsub); [apply sub_nan_r|exact Lz]).
        rewrite E1.
        assert (E2 : map2 (nmul (n := FN)) (column (N := FN) X j) (nans (S n)) = nans (S n)).
        { apply (map2_nan_r fmul); [apply mul_nan_r|]. unfold column. rewrite map_length. exact LX. }
        rewrite E2. assert (E3 : ndot (N := FN) w (nans (S n)) = fnan) by now apply dot_nans_r.
        rewrite E3. reflexivity. }
      rewrite E. refine (eq_trans (nth_lset j fnan fzero v k Hj) _). reflexivity.
    Qed.

    Lemma updates_nan (w z : list f64) active : length w = S n -> length z = S n -> forall (v : list f64) k, k < length v ->
      (forall j, In j active -> j < length v) ->
      In k active \/ nth k v fzero = fnan ->
      nth k (fold_left (cd_update (N := FN) c X w z fnan) active v) fzero = fnan.
    Proof.
      intros Lw Lz. induction active as [|j active IH]; intros v k Hk Ha H; cbn [fold_left].
      - destruct H as [[]|H]; exact H.
      - assert (Lu : length (cd_update (N := FN) c X w z fnan v j) = length v) by (unfold cd_update; apply length_lset).
        apply IH; [exact (eq_ind_r (fun l => k < l) Hk Lu)|intros i Hi; exact (eq_ind_r (fun l => i < l) (Ha i (or_intror Hi)) Lu)|].
        pose proof (update_nan w z v j k Lw Lz (Ha j (or_introl eq_refl))) as E.
        assert (E' : In k active \/ (if Nat.eqb k j then fnan else nth k v fzero) = fnan); [clear E|destruct E' as [E'|E']; [now left|right; exact (eq_trans E E')]].
        destruct (Nat.eqb_spec k j) as [->|Hne]; [right; reflexivity|].
        destruct H as [[H|H]|H]; [congruence|now left|now right].
    Qed.

    Lemma iter_coef_nan (s : list f64 * f64) active k : k < length (fst s) ->
      (forall j, In j active -> j < length (fst s)) ->
      snd (cd_iteration (N := FN) c X y sw active s) = fnan ->
      In k active \/ nth k (fst s) fzero = fnan ->
      nth k (fst (cd_iteration (N := FN) c X y sw active s)) fzero = fnan.
    Proof.
      intros Hk Ha Hs H. unfold cd_iteration, cd_sweep in *. cbn [fst snd] in *. rewrite Hs.
      apply updates_nan; auto.
      - apply length_map2n; [|exact Lsw]. unfold adjusted_response. cbn [fst]. rewrite !map_length. apply matvec_length.
      - unfold adjusted_response. cbn [snd]. rewrite map_length. apply length_map2n; [rewrite map_length; apply matvec_length|].
        apply length_map2n; [exact Ly|]. rewrite !map_length. apply matvec_length.
    Qed.

    Lemma nonzeros_lt (v : list f64) j : In j (nonzeros (N := FN) v) -> j < length v.
    Proof. unfold nonzeros. intro H. apply filter_In in H. destruct H as [H _]. apply in_seq in H. exact (proj2 H). Qed.
    Lemma iteration_length (s : list f64 * f64) active : length (fst (cd_iteration (N := FN) c X y sw active s)) = length (fst s).
    Proof. unfold cd_iteration, cd_sweep. cbn [fst]. exact (updates_length (N := FN) _ _ _ _ _ _ _). Qed.

    Lemma loop_nan k : forall active (s : list f64 * f64), (forall j, In j active -> j < length (fst s)) ->
      snd s = fnan -> let r := cd_loop (N := FN) c X y sw k active s in
      snd r = fnan /\ forall j, j < length (fst s) -> nth j (fst s) fzero = fnan -> nth j (fst r) fzero = fnan.
    Proof.
      induction k as [|k IH]; intros active s Ha Hs; [split; [exact Hs|auto]|].
      cbv zeta. cbn [cd_loop].
      assert (E : snd (cd_iteration (N := FN) c X y sw active s) = fnan).
      { destruct s as [v b]. cbn [snd] in Hs. subst b. apply iter_nan. }
      pose proof (iteration_length s active) as L.
      pose proof (fun j Hj H => iter_coef_nan s active j Hj Ha E (or_intror H)) as G.
      set (s' := cd_iteration (N := FN) c X y sw active s) in *.
      destruct (nltb _ _); [split; [exact E|exact G]|].
      destruct (IH (nonzeros (N := FN) (fst s')) s') as [I1 I2]; [intros j Hj; now apply nonzeros_lt|exact E|].
      split; [exact I1|]. intros j Hj H. apply I2; [exact (eq_ind_r (fun l => j < l) Hj L)|now apply G].
    Qed.

    Lemma loop_overflow k active (s : list f64 * f64) i : i < S n -> (forall j, In j active -> j < length (fst s)) ->
      overflows (exp64 (fadd (snd s) (nth i (matvec (N := FN) X (fst s)) fzero))) ->
      let r := cd_loop (N := FN) c X y sw (S k) active s in
      snd r = fnan /\ forall j, In j active -> nth j (fst r) fzero = fnan.
    Proof.
      intros Hi Ha Ho. cbv zeta. cbn [cd_loop].
      pose proof (iter_overflow s active i Hi Ho) as E. pose proof (iteration_length s active) as L.
      pose proof (fun j Hj => iter_coef_nan s active j (Ha j Hj) Ha E (or_introl Hj)) as G.
      set (s' := cd_iteration (N := FN) c X y sw active s) in *.
      destruct (nltb _ _); [split; [exact E|exact G]|].
      destruct (loop_nan k (nonzeros (N := FN) (fst s')) s') as [I1 I2]; [intros j Hj; now apply nonzeros_lt|exact E|].
      split; [exact I1|]. intros j Hj. apply I2; [exact (eq_ind_r (fun l => j < l) (Ha j Hj) L)|now apply G].
    Qed.
  End Data.

  Lemma predict_nan (v : list f64) Xn :
    predict_mean (N := FN) (mkPoisson (N := FN) (Some v) (Some fnan)) Xn = Ok (nans (length Xn)).
  Proof.
    unfold predict_mean. cbn [coef_ intercept_]. f_equal. unfold matvec. rewrite map_map. unfold nans.
    induction Xn as [|x Xn IH]; [reflexivity|]. cbn [map length repeat]. f_equal; [exact Hexp|exact IH].
  Qed.

  Section Fit.
    Variables (n p : nat) (X : list (list f64)) (y : list f64) (swo : option (list f64)) (c : config FN).
    Variables (opt : optimizer (N := FN)) (o : poisson FN).
    Hypothesis LX : length X = S n.
    Hypothesis Ly : length y = S n.
    Hypothesis Lsw : match swo with Some s => length s = S n | None => True end.
    Hypothesis Hf : fit_intercept c = true.
    Hypothesis Hw : warm_start c = false.
    Hypothesis Hst : standardize c = false.
    Hypothesis Hc : constant_response (N := FN) y = false.
    Notation sw := (match swo with Some s => s | None => ones (N := FN) (length X) end).

    Lemma fit_loop64 m : poisson_fit (N := FN) (with_iter c m) Cd opt p X y swo o
      = let r := cd_loop (N := FN) c X y sw m (seq 0 p) (repeat fzero p, fzero) in
        (mkPoisson (N := FN) (Some (fst r)) (Some (snd r)), Ok tt).
    Proof.
      unfold poisson_fit. rewrite Hc. cbn [standardize fit_intercept with_iter]. rewrite Hst. cbn [poisson_post].
      assert (EX : map (centering_transform (N := FN) false (fit_scaler (N := FN) (columns (N := FN) p X))) X = X) by apply map_id.
      rewrite EX. clear EX.
      assert (S1 : start_coef (N := FN) (with_iter c m) p (fit_scaler (N := FN) (columns (N := FN) p X)) o = repeat fzero p) by (unfold start_coef; cbn [warm_start with_iter]; rewrite Hw; now destruct (coef_ o)).
      assert (S2 : start_intercept (N := FN) (with_iter c m) o = fzero) by (unfold start_intercept; cbn [warm_start with_iter]; rewrite Hw; now destruct (intercept_ o)).
      rewrite S1, S2. unfold cd. cbn [warm_start with_iter]. rewrite Hw. cbn [andb max_iter].
      rewrite loop_cfg, repeat_length. destruct (cd_loop _ _ _ _ _ _ _) as [v d]. cbn [fst snd]. now rewrite Hf.
    Qed.

    Lemma overflow_fit k m o1 q i : k < m -> 0 < k ->
      poisson_fit (N := FN) (with_iter c k) Cd opt p X y swo o = (o1, Ok tt) ->
      predict_mean (N := FN) o1 X = Ok q -> i < S n -> overflows (nth i q fzero) ->
      poisson_fit (N := FN) (with_iter c m) Cd opt p X y swo o = (o1, Ok tt) \/
      exists v1 v, coef_ o1 = Some v1 /\
        poisson_fit (N := FN) (with_iter c m) Cd opt p X y swo o = (mkPoisson (N := FN) (Some v) (Some fnan), Ok tt) /\
        (forall j, j < p -> nonzero64 (nth j v1 fzero) = true -> nth j v fzero = fnan) /\
        forall Xn, predict_mean (N := FN) (mkPoisson (N := FN) (Some v) (Some fnan)) Xn = Ok (nans (length Xn)).
    Proof.
      intros Hkm Hk. rewrite !fit_loop64. cbv zeta. destruct k as [|k]; [lia|].
      replace m with (S k + S (m - S k - 1)) by lia.
      assert (Lsw' : length sw = S n) by (destruct swo; [exact Lsw|unfold ones; rewrite repeat_length; exact LX]).
      destruct (loop_split (N := FN) c X y sw k (S (m - S k - 1)) (seq 0 p) (repeat fzero p, fzero)) as [E|E].
      - intros E1 _ _ _. left. rewrite E. exact E1.
      - intros E1 Eq Hi Ho. right.
        pose proof (loop_length (N := FN) c X y sw (S k) (seq 0 p) (repeat fzero p, fzero)) as L.
        set (r := cd_loop (N := FN) c X y sw (S k) (seq 0 p) (repeat fzero p, fzero)) in *.
        cbn [fst] in L. rewrite repeat_length in L.
        injection E1 as <-. unfold predict_mean in Eq. cbn [coef_ intercept_] in Eq. injection Eq as <-.
        assert (Ho' : overflows (exp64 (fadd (snd r) (nth i (matvec (N := FN) X (fst r)) fzero)))).
        { refine (eq_trans _ Ho). symmetry.
          match goal with |- nth i (map ?h ?l) _ = _ => rewrite (nth_indep (map h l) fzero (h fzero)); [apply (map_nth h)|] end.
          rewrite map_length. match goal with |- _ < ?l => assert (Q : l = S n) by (apply matvec_length; exact LX); rewrite Q end. exact Hi. }
        pose proof (loop_overflow n X y sw c LX Ly Lsw' Hf (m - S k - 1) (nonzeros (N := FN) (fst r)) r i Hi (nonzeros_lt (fst r)) Ho') as [G1 G2].
        exists (fst r), (fst (cd_loop (N := FN) c X y sw (S (m - S k - 1)) (nonzeros (N := FN) (fst r)) r)).
        split; [reflexivity|]. split; [|split].
        + rewrite E. match goal with |- (mkPoisson (Some ?a) (Some ?b), _) = _ => assert (Eb : b = fnan) by exact G1 end.
          rewrite Eb. reflexivity.
        + intros j Hj Hz. apply G2. unfold nonzeros. apply filter_In. split; [apply in_seq; split; [lia|exact (eq_ind_r (fun l => j < 0 + l) Hj L)]|].
          destruct (nnonzero (N := FN) _) eqn:Ez; [reflexivity|]. unfold nnonzero in Ez. apply negb_false_iff in Ez. apply (zero_F exp64 ln64) in Ez. exact (eq_trans (eq_sym Ez) Hz).
        + intro Xn. apply predict_nan.
    Qed.
  End Fit.
End Overflow.
