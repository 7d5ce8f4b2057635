(** After the reset between bootstraps a Poisson object fits like a new one (C27). *)
From Coq Require Import List Bool Arith Lia Reals Lra.
From Verif Require Import Prelude Num Model_Rescale Model_Refit Spec_Rescale Proofs_Rescale Model_Poisson Proofs_Poisson Proofs_PoissonFit
  Model_Lbfgs Spec_Lbfgs Proofs_LbfgsTrace Proofs_LbfgsTop Proofs_LbfgsMain Proofs_LogisticOpt Model_PoissonFit.
Import ListNotations.
Local Open Scope R_scope.

Section Reset.
  Variables (sv : solver) (opt : optimizer (N := Rnum)) (p : nat).
  Hypothesis Hopt : forall (f : list R -> R * list R) (w0 : list R) l1 k w, (forall v, length v = length w0 -> length (snd (f v)) = length v) ->
    opt f w0 l1 k = Ok w -> length (w : list R) = length w0.

  Definition sized (o : poisson Rnum) : Prop := match coef_ o with Some v => length (v : list R) = p | None => True end.
  Definition no_coef (o : poisson Rnum) : Prop := match coef_ o with Some v => v = repeat 0 p | None => True end.
  Definition no_intercept (o : poisson Rnum) : Prop := match intercept_ o with Some b => b = 0 | None => True end.
  (** Objects that differ at most in attributes that are missing in one and zero in the other. *)
  Definition alike (o o' : poisson Rnum) : Prop :=
    (coef_ o = coef_ o' \/ no_coef o /\ no_coef o') /\ (intercept_ o = intercept_ o' \/ no_intercept o /\ no_intercept o').

  Lemma scaled_zeros (s : list R) : length s = p -> map2 Rmult (repeat 0 p) s = repeat 0 p.
  Proof. revert s. induction p as [|k IH]; intros [|a s] L; try discriminate; [reflexivity|]. cbn. rewrite IH by (now injection L). f_equal. ring. Qed.
  Lemma start_none c (X : list (list R)) o : no_coef o -> start_coef (N := Rnum) c p (fit_scaler (columns (N := Rnum) p X)) o = repeat 0 p.
  Proof.
    unfold no_coef, start_coef. destruct (coef_ o) as [v|]; [|reflexivity]. intros ->.
    destruct (warm_start c); [|reflexivity]. destruct (standardize c); [|reflexivity].
    apply scaled_zeros. exact (scale_length (N := Rnum) p X).
  Qed.
  Lemma start_coef_alike c (X : list (list R)) o o' : alike o o' ->
    start_coef (N := Rnum) c p (fit_scaler (columns (N := Rnum) p X)) o = start_coef (N := Rnum) c p (fit_scaler (columns (N := Rnum) p X)) o'.
  Proof.
    intros [[E|[A B]] _].
    - unfold start_coef. rewrite E. reflexivity.
    - rewrite (start_none c X o A), (start_none c X o' B). reflexivity.
  Qed.
  Lemma intercept_none c o : no_intercept o -> start_intercept (N := Rnum) c o = 0.
  Proof. unfold no_intercept, start_intercept. destruct (intercept_ o) as [b|]; [intros ->; now destruct (_ && _)|reflexivity]. Qed.
  Lemma start_intercept_alike c o o' : alike o o' -> start_intercept (N := Rnum) c o = start_intercept (N := Rnum) c o'.
  Proof.
    intros [_ [E|[A B]]].
    - unfold start_intercept. rewrite E. reflexivity.
    - rewrite (intercept_none c o A), (intercept_none c o' B). reflexivity.
  Qed.

  Lemma fit_alike c X y sw o o' : alike o o' ->
    let a := poisson_fit (N := Rnum) c sv opt p X y sw o in let b := poisson_fit (N := Rnum) c sv opt p X y sw o' in
    snd a = snd b /\ alike (fst a) (fst b) /\
    (snd a = Ok tt -> coef_ (fst a) = coef_ (fst b) /\ (fit_intercept c = true -> intercept_ (fst a) = intercept_ (fst b))).
  Proof.
    intros H. cbv zeta. unfold poisson_fit. cbv zeta.
    destruct (constant_response y).
    { cbn [fst snd]. split; [reflexivity|]. split; [split; left; reflexivity|]. intros _. split; [reflexivity|]. intros _. reflexivity. }
    rewrite (start_coef_alike c X o o' H), (start_intercept_alike c o o' H).
    match goal with |- context [match ?r with Ok _ => _ | Raise _ => _ end] => destruct r as [[v b]|e] end; cbn [fst snd].
    - split; [reflexivity|]. split.
      + split; [left; reflexivity|]. cbn [intercept_]. destruct (fit_intercept c); [left; reflexivity|exact (proj2 H)].
      + intros _. split; [reflexivity|]. intros ->. reflexivity.
    - split; [reflexivity|]. split; [exact H|]. intros C; discriminate C.
  Qed.

  Lemma reset_no_coef o : no_coef o -> no_coef (reset_poisson o).
  Proof.
    unfold no_coef, reset_poisson. cbn [coef_]. destruct (coef_ o) as [v|]; [|trivial]. intros ->. cbn [option_map].
    induction p as [|k IH]; [reflexivity|]. cbn [repeat map]. rewrite IH. f_equal. exact (Rmult_0_l 0).
  Qed.
  Lemma reset_no_intercept o : no_intercept o -> no_intercept (reset_poisson o).
  Proof. unfold no_intercept, reset_poisson. cbn [intercept_]. destruct (intercept_ o) as [v|]; [|trivial]. intros ->. exact (Rmult_0_l 0). Qed.

  Lemma calls_alike h o o' : alike o o' -> alike (calls sv opt p h o) (calls sv opt p h o').
  Proof.
    revert o o'. induction h as [|k h IH]; intros o o' H; [exact H|]. cbn [calls fold_left]. apply IH.
    destruct k as [c X y sw|].
    - destruct (fit_alike c X y sw o o' H) as (_ & G & _). exact G.
    - cbn [run_call fst]. destruct H as [H1 H2]. split.
      + destruct H1 as [E|[A B]]; [left|right; split; now apply reset_no_coef]. unfold reset_poisson. cbn [coef_]. rewrite E. reflexivity.
      + destruct H2 as [E|[A B]]; [left|right; split; now apply reset_no_intercept]. unfold reset_poisson. cbn [intercept_]. rewrite E. reflexivity.
  Qed.

  Lemma sweep_length c X w z b active (l : list R) : length (fold_left (cd_update (N := Rnum) c X w z b) active l : list R) = length l.
  Proof. revert l. induction active as [|j a IHa]; intros l; [reflexivity|]. cbn [fold_left]. etransitivity; [apply IHa|]. unfold cd_update. apply length_lset. Qed.
  Lemma loop_length c X y sw k active (s : list R * R) : length (fst (cd_loop (N := Rnum) c X y sw k active s)) = length (fst s).
  Proof.
    revert active s. induction k as [|k IH]; intros active s; [reflexivity|]. cbn [cd_loop].
    assert (E : length (fst (cd_iteration (N := Rnum) c X y sw active s)) = length (fst s)).
    { unfold cd_iteration, cd_sweep. cbn [fst]. apply sweep_length. }
    destruct (nltb _ _); [exact E|]. rewrite IH. exact E.
  Qed.
  Lemma ext_len (m : list R) x q : length m = p -> q = p \/ q = S p -> length (if Nat.ltb p q then m ++ [x] else m) = q.
  Proof. intros Lm Hq. destruct (Nat.ltb_spec p q); rewrite ?app_length; cbn [length]; lia. Qed.
  Lemma loss_length X y l2 sw (u : list R) : length u = p \/ length u = S p -> length (snd (poisson_loss_and_grad (N := Rnum) p X y l2 sw u) : list R) = length u.
  Proof.
    intros H. unfold poisson_loss_and_grad. cbv zeta. cbn [snd].
    assert (L : forall a b : list R, length a = p -> length b = p -> length (map2 Rplus a b) = p) by (intros; now apply length_map2n).
    refine (ext_len _ _ (length u) _ H).
    apply L; rewrite map_length; [unfold tmatvec; rewrite map_length, seq_length; reflexivity|rewrite firstn_length; rr; lia].
  Qed.
  Lemma fit_sized c X y sw o : sized o -> sized (fst (poisson_fit (N := Rnum) c sv opt p X y sw o)).
  Proof.
    intros H. unfold poisson_fit. cbv zeta. destruct (constant_response y); [apply repeat_length|].
    pose proof (scale_length (N := Rnum) p X) as Ls. set (s := fit_scaler (columns p X)) in *.
    assert (L0 : length (start_coef (N := Rnum) c p s o : list R) = p).
    { unfold start_coef, sized in *. destruct (coef_ o) as [v|]; [|apply repeat_length]. destruct (warm_start c); [|apply repeat_length].
      destruct (standardize c); [|exact H]. apply length_map2n; assumption. }
    match goal with |- context [match ?r with Ok _ => _ | Raise _ => _ end] => assert (Lr : match r with Ok q => length (fst q : list R) = p | Raise _ => True end) end.
    { destruct sv.
      - match goal with |- context [opt ?a ?b ?d ?e] => destruct (opt a b d e) as [w|] eqn:E; [|exact Logic.I] end.
        apply Hopt in E; [|intros u Lu; apply loss_length; destruct (fit_intercept c); rewrite ?app_length in Lu; cbn [length] in Lu; rr; lia]. cbn [bind]. destruct (fit_intercept c); cbn [fst].
        + rewrite app_length in E. cbn [length] in E. rewrite firstn_length. rr. lia.
        + rr. lia.
      - unfold cd. match goal with |- context [if ?b then _ else _] => destruct b end; [exact Logic.I|]. rewrite loop_length. exact L0.
      - exact Logic.I. }
    match goal with |- context [match ?r with Ok _ => _ | Raise _ => _ end] => destruct r as [[v b]|e] end; cbn [fst snd].
    - unfold sized. cbn [coef_]. unfold poisson_post. cbn [fst] in Lr. destruct (standardize c); cbn [fst]; [apply length_map2n; assumption|exact Lr].
    - exact H.
  Qed.
  Lemma calls_sized h o : sized o -> sized (calls sv opt p h o).
  Proof.
    revert o. induction h as [|k h IH]; intros o H; [exact H|]. cbn [calls fold_left]. apply IH. destruct k as [c X y sw|].
    - exact (fit_sized c X y sw o H).
    - unfold sized, run_call, reset_poisson in *. cbn [fst coef_]. destruct (coef_ o); cbn [option_map]; [rewrite map_length|]; exact H.
  Qed.

  Lemma reset_fresh o : sized o -> alike (reset_poisson o) fresh_poisson.
  Proof.
    intros H. unfold reset_poisson, sized, alike, no_coef, no_intercept in *. cbn [coef_ intercept_ fresh_poisson]. split; right; (split; [|exact Logic.I]).
    - destruct (coef_ o) as [v|]; [|exact Logic.I]. cbn [option_map]. rewrite <- H. clear. induction (v : list R) as [|a w IH]; [reflexivity|].
      cbn [map length repeat]. rewrite <- IH. f_equal. exact (Rmult_0_r a).
    - destruct (intercept_ o) as [b|]; [|exact Logic.I]. exact (Rmult_0_r b).
  Qed.

  Lemma reset_like_new h1 h2 c X y sw :
    let a := poisson_fit (N := Rnum) c sv opt p X y sw (calls sv opt p (h1 ++ CallReset :: h2) fresh_poisson) in
    let b := poisson_fit (N := Rnum) c sv opt p X y sw (calls sv opt p h2 fresh_poisson) in
    snd a = snd b /\
    (snd a = Ok tt -> coef_ (fst a) = coef_ (fst b) /\ (fit_intercept c = true -> intercept_ (fst a) = intercept_ (fst b))).
  Proof.
    cbv zeta.
    assert (H : alike (calls sv opt p (h1 ++ CallReset :: h2) fresh_poisson) (calls sv opt p h2 fresh_poisson)).
    { unfold calls at 1. rewrite fold_left_app. cbn [fold_left]. apply (calls_alike h2). apply reset_fresh. apply calls_sized. exact Logic.I. }
    destruct (fit_alike c X y sw _ _ H) as (A & _ & B). split; [exact A|exact B].
  Qed.
End Reset.

(** The modelled optimizer returns as many numbers as it gets. *)
Lemma lbfgs_opt_sized werror tol mi fuel lsfuel (f : list R -> R * list R) (w0 : list R) l1 k w :
  (forall v, length v = length w0 -> length (snd (f v)) = length v) ->
  lbfgs_opt (N := Rnum) werror tol mi fuel lsfuel f w0 l1 k = Ok w -> length (w : list R) = length w0.
Proof.
  intros Hf H.
  assert (Hc : computes (St := unit) (length w0) nowhere (poisson_objective (N := Rnum) f) (fun v => fst (f v)) (fun v => snd (f v))).
  { intros st x g Lx _. split; [reflexivity|]. split; [rewrite Hf by exact Lx; exact Lx|]. intros i C. discriminate C. }
  unfold lbfgs_opt in H.
  destruct (fmin_lbfgs _ _ None fuel lsfuel tt w0) as [[st' [x wn|ex|]]|] eqn:E; try discriminate.
  destruct (recorded_of _ _ _ _ _ _ _ _ _ E) as (log & Hlog).
  destruct (stays_zero (length w0) nowhere _ _ _ _ _ _ _ _ _ Hc eq_refl (fun i (C : nowhere i = true) => match Bool.diff_false_true C with end) _ _ _ Hlog) as (_ & _ & K).
  destruct (K x wn eq_refl) as (K1 & _). destruct wn; [destruct werror; [discriminate|]|]; injection H as <-; exact K1.
Qed.
