(** Proofs about PycLasso (C68). *)
From Coq Require Import String List Bool Arith Lia.
From Verif Require Import Prelude Num Model_Pyc Spec_Pyc.
Import ListNotations.

Section Proofs.
  Context {N : NumOps} {V : Type}.
  Variables is_None is_False : V -> bool.
  Variable pycasso : option (list (list N) -> list N -> V -> V -> V -> V -> result (list (list N) * list N)).
  Notation solves := (solves is_None is_False pycasso).
  Notation pyc_fit := (pyc_fit is_None is_False pycasso).
  Notation after := (pyc_after is_None is_False pycasso).
  Notation step := (pyc_step is_None is_False pycasso).

  Lemma fit_cases (o : pyc N V) X y :
    (exists s, solves o X y s /\
       pyc_fit X y o = (mkPyc (max_iter o) (tol o) (fit_intercept o) (alphas o) true (Some s), Ok tt)) \/
    (exists e, pyc_fit X y o = (o, Raise e) /\ forall s, ~ solves o X y s).
  Proof.
    unfold Model_Pyc.pyc_fit, Spec_Pyc.solves.
    destruct (is_None (alphas o)) eqn:E1; [right; eexists; split; [reflexivity|]; intros s (A & _); discriminate|].
    destruct (is_False (fit_intercept o)) eqn:E2;
      [right; eexists; split; [reflexivity|]; intros s (_ & A & _); discriminate|].
    destruct pycasso as [solver|] eqn:E3;
      [|right; eexists; split; [reflexivity|]; intros s (_ & _ & f & A & _); discriminate].
    destruct (solver X y (fit_intercept o) (alphas o) (max_iter o) (tol o)) as [r|e] eqn:E4.
    - left. exists r. split; [|reflexivity]. repeat split. now exists solver.
    - right. exists e. split; [reflexivity|]. intros s (_ & _ & f & A & B).
      injection A as <-. rewrite E4 in B. discriminate.
  Qed.

  Lemma solves_fun o X y s s' : solves o X y s -> solves o X y s' -> s = s'.
  Proof.
    intros (_ & _ & f & E & H) (_ & _ & g & E' & H'). rewrite E in E'. injection E' as <-.
    rewrite H in H'. now injection H'.
  Qed.

  (** Exactly when fit returns, and what it raises otherwise. *)
  Lemma fit_result o X y : 
    snd (pyc_fit X y o)
    = if is_None (alphas o) then Raise OtherError
      else if is_False (fit_intercept o) then Raise ValueError
      else match pycasso with
           | None => Raise AttributeError
           | Some f => rmap (fun _ => tt) (f X y (fit_intercept o) (alphas o) (max_iter o) (tol o))
           end.
  Proof.
    unfold Model_Pyc.pyc_fit. destruct (is_None _); [reflexivity|]. destruct (is_False _); [reflexivity|].
    destruct pycasso as [f|]; [|reflexivity]. destruct (f _ _ _ _ _ _); reflexivity.
  Qed.

  Lemma fit_failed o X y e : snd (pyc_fit X y o) = Raise e -> fst (pyc_fit X y o) = o.
  Proof.
    destruct (fit_cases o X y) as [(s & _ & E)|(e' & E & _)]; rewrite E; cbn; [discriminate|reflexivity].
  Qed.

  Lemma set_solution kw : forall o : pyc N V,
    isfitted (fst (set_params kw o)) = isfitted o /\ solution (fst (set_params kw o)) = solution o /\
    tol (fst (set_params kw o)) = tol o.
  Proof.
    induction kw as [|[k v] kw IH]; intro o; cbn [set_params]; [now repeat split|].
    destruct (String.eqb k "alphas"); [apply (IH (mkPyc _ _ _ _ _ _))|].
    destruct (String.eqb k "fit_intercept"); [apply (IH (mkPyc _ _ _ _ _ _))|].
    destruct (String.eqb k "max_iter"); [apply (IH (mkPyc _ _ _ _ _ _))|]. now repeat split.
  Qed.

  Lemma after_app o h1 h2 : after o (h1 ++ h2) = after (after o h1) h2.
  Proof. apply fold_left_app. Qed.

  (** The fitted state after a history. *)
  Lemma after_state o h : isfitted o = false -> solution o = None ->
    (isfitted (after o h) = false /\ solution (after o h) = None /\
     never_fitted is_None is_False pycasso o h) \/
    (exists s, isfitted (after o h) = true /\ solution (after o h) = Some s /\
     last_fit is_None is_False pycasso o h s).
  Proof.
    intros F0 S0. induction h as [|c h IH] using rev_ind.
    - left. repeat split; [exact F0|exact S0|]. intros h1 X y h2 s H.
      symmetry in H. apply app_eq_nil in H. destruct H. discriminate.
    - rewrite after_app. cbn [Model_Pyc.pyc_after fold_left].
      assert (K : (forall X y, c <> PFit X y) ->
        isfitted (step (after o h) c) = isfitted (after o h) /\
        solution (step (after o h) c) = solution (after o h)).
      { intro NF. destruct c as [kw|X y|X]; cbn [Model_Pyc.pyc_step].
        - destruct (set_solution kw (after o h)) as (A & B & _). now split.
        - exfalso. exact (NF X y eq_refl).
        - now split. }
      assert (L : forall (h1 : list (@pyc_op N V)) X y h2, h ++ [c] = h1 ++ PFit X y :: h2 ->
        (h2 = [] /\ h1 = h /\ c = PFit X y) \/ (exists h3, h2 = h3 ++ [c] /\ h = h1 ++ PFit X y :: h3)).
      { intros h1 X y h2 H. destruct h2 as [|d h2 _] using rev_ind.
        - apply app_inj_tail in H. destruct H as [-> ->]. now left.
        - right. exists h2. change (h1 ++ PFit X y :: h2 ++ [d])
            with (h1 ++ (PFit X y :: h2) ++ [d]) in H. rewrite app_assoc in H.
          apply app_inj_tail in H. destruct H as [-> ->]. now split. }
      assert (Q : (forall X y s, c = PFit X y -> ~ solves (after o h) X y s) ->
        isfitted (step (after o h) c) = isfitted (after o h) /\
        solution (step (after o h) c) = solution (after o h)).
      { intro NS. destruct c as [kw|X y|X]; [now apply K|..|now apply K]. 
        cbn [Model_Pyc.pyc_step]. destruct (fit_cases (after o h) X y) as [(s & Hs & E)|(e & E & _)].
        - exfalso. exact (NS X y s eq_refl Hs).
        - rewrite E. now split. }
      assert (D : (exists X y s, c = PFit X y /\ solves (after o h) X y s) \/
                  (forall X y s, c = PFit X y -> ~ solves (after o h) X y s)).
      { destruct c as [kw|X y|X]; try (right; intros ? ? ? E; discriminate).
        destruct (fit_cases (after o h) X y) as [(s & Hs & E)|(e & E & Hn)].
        - left. now exists X, y, s.
        - right. intros X' y' s E'. injection E' as <- <-. apply Hn. }
      destruct D as [(X & y & s & -> & Hs)|Hn].
      + right. exists s. cbn [Model_Pyc.pyc_step].
        destruct (fit_cases (after o h) X y) as [(s' & Hs' & E)|(e & E & Hn)];
          [|exfalso; exact (Hn s Hs)].
        rewrite (solves_fun _ _ _ _ _ Hs Hs'). rewrite E. repeat split.
        exists h, X, y, []. split; [reflexivity|]. split; [exact Hs'|].
        intros g1 X' y' g2 H. symmetry in H. apply app_eq_nil in H. destruct H. discriminate.
      + destruct (Q Hn) as [Q1 Q2]. rewrite Q1, Q2.
        destruct IH as [(A & B & C)|(s & A & B & (h1 & X & y & h2 & -> & Hs & Hl))].
        * left. repeat split; [exact A|exact B|]. intros h1 X y h2 s H.
          destruct (L h1 X y h2 H) as [(-> & -> & ->)|(h3 & -> & Eh)].
          -- now apply Hn.
          -- now apply (C h1 X y h3).
        * right. exists s. repeat split; [exact A|exact B|].
          exists h1, X, y, (h2 ++ [c]). split; [now rewrite <- app_assoc|]. split; [exact Hs|].
          intros g1 X' y' g2 H s'. destruct g2 as [|d g2 _] using rev_ind.
          -- apply app_inj_tail in H. destruct H as [<- ->]. now apply Hn.
          -- change (g1 ++ PFit X' y' :: g2 ++ [d]) with (g1 ++ (PFit X' y' :: g2) ++ [d]) in H.
             rewrite app_assoc in H. apply app_inj_tail in H. destruct H as [-> _].
             now apply (Hl g1 X' y' g2).
  Qed.

  Lemma init_state a fi mi t (o : pyc N V) : pyc_init is_False a fi mi t = Ok o ->
    isfitted o = false /\ solution o = None /\ is_False (fit_intercept o) = false /\
    alphas o = a /\ fit_intercept o = fi /\ max_iter o = mi /\ tol o = t.
  Proof.
    unfold pyc_init. destruct (is_False fi) eqn:E; [discriminate|]. intro H. injection H as <-.
    now repeat split.
  Qed.

  Lemma predict_history a fi mi t (o : pyc N V) h X : pyc_init is_False a fi mi t = Ok o ->
    (predict X (after o h) = Raise NotFittedError /\ never_fitted is_None is_False pycasso o h) \/
    (exists coef ic, last_fit is_None is_False pycasso o h (coef, ic) /\
       predict X (after o h)
       = if forallb (fun x => forallb (fun c => Nat.eqb (length c) (length x)) coef) X
         then Ok (map (fun x => map2 nadd (map (ndot x) coef) ic) X)
         else Raise ValueError).
  Proof.
    intro I. destruct (init_state _ _ _ _ _ I) as (F & S & _).
    unfold predict. destruct (after_state o h F S) as [(A & B & C)|([coef ic] & A & B & C)].
    - left. now rewrite A.
    - right. exists coef, ic. rewrite A, B. now split.
  Qed.

  (** set_params *)
  Lemma set_known kw : forall o : pyc N V, Forall (fun kv => settable (fst kv)) kw ->
    set_params kw o
    = (mkPyc (given "max_iter" kw (max_iter o)) (tol o) (given "fit_intercept" kw (fit_intercept o))
         (given "alphas" kw (alphas o)) (isfitted o) (solution o), Ok tt).
  Proof.
    induction kw as [|[k v] kw IH]; intros o H.
    - destruct o; reflexivity.
    - inversion H as [|? ? Hk Hr]; subst. cbn [set_params given fst] in *.
      destruct Hk as [->|[->| ->]]; cbn [String.eqb Ascii.eqb Bool.eqb]; rewrite (IH _ Hr); reflexivity.
  Qed.

  Lemma set_unknown kw1 k v kw2 : forall o : pyc N V, Forall (fun kv => settable (fst kv)) kw1 ->
    ~ settable k ->
    set_params (kw1 ++ (k, v) :: kw2) o = (fst (set_params kw1 o), Raise ValueError).
  Proof.
    induction kw1 as [|[k1 v1] kw1 IH]; intros o H Hk; cbn [app set_params].
    - destruct (String.eqb k "alphas") eqn:E1; [apply String.eqb_eq in E1; exfalso; apply Hk; now left|].
      destruct (String.eqb k "fit_intercept") eqn:E2;
        [apply String.eqb_eq in E2; exfalso; apply Hk; right; now left|].
      destruct (String.eqb k "max_iter") eqn:E3;
        [apply String.eqb_eq in E3; exfalso; apply Hk; right; now right|]. reflexivity.
    - inversion H as [|? ? Hk1 Hr]; subst. cbn [fst] in Hk1.
      destruct Hk1 as [->|[->| ->]]; cbn [String.eqb Ascii.eqb Bool.eqb]; rewrite (IH _ Hr Hk); reflexivity.
  Qed.

  (** The sweep forgets. *)
  Lemma sweep_result path X y (o : pyc N V) :
    snd (pyc_sweep is_None is_False pycasso path X y o)
    = if is_None path then Raise OtherError
      else if is_False (fit_intercept o) then Raise ValueError
      else match pycasso with
           | None => Raise AttributeError
           | Some f => rmap fst (f X y (fit_intercept o) path (max_iter o) (tol o))
           end.
  Proof.
    unfold pyc_sweep. cbn [set_params String.eqb Ascii.eqb Bool.eqb].
    unfold Model_Pyc.pyc_fit. cbn [alphas fit_intercept max_iter tol].
    destruct (is_None path); [reflexivity|]. destruct (is_False (fit_intercept o)); [reflexivity|].
    destruct pycasso as [f|]; [|reflexivity]. destruct (f _ _ _ _ _ _); reflexivity.
  Qed.
  Lemma sweep_params path X y (o : pyc N V) :
    let o' := fst (pyc_sweep is_None is_False pycasso path X y o) in
    fit_intercept o' = fit_intercept o /\ max_iter o' = max_iter o /\ tol o' = tol o.
  Proof.
    unfold pyc_sweep. cbn [set_params String.eqb Ascii.eqb Bool.eqb].
    unfold Model_Pyc.pyc_fit. cbn [alphas fit_intercept max_iter tol].
    destruct (is_None path); [now repeat split|]. destruct (is_False (fit_intercept o)); [now repeat split|].
    destruct pycasso as [f|]; [|now repeat split]. destruct (f _ _ _ _ _ _); now repeat split.
  Qed.

  Lemma sweeps_forget init (fs : list (list (list N) * list N * V)) path X y (o : pyc N V) :
    (forall a : pyc N V, fit_intercept (init a) = fit_intercept a /\ max_iter (init a) = max_iter a /\
       tol (init a) = tol a) ->
    snd (pyc_sweep is_None is_False pycasso path X y
      (fold_left (fun o f => init (fst (pyc_sweep is_None is_False pycasso (snd f) (fst (fst f)) (snd (fst f)) o))) fs o))
    = snd (pyc_sweep is_None is_False pycasso path X y o).
  Proof.
    intro I. revert o. induction fs as [|f fs IH]; intro o; [reflexivity|]. cbn [fold_left].
    rewrite IH, !sweep_result.
    destruct (I (fst (pyc_sweep is_None is_False pycasso (snd f) (fst (fst f)) (snd (fst f)) o))) as (A & B & C).
    destruct (sweep_params (snd f) (fst (fst f)) (snd (fst f)) o) as (A' & B' & C').
    cbv zeta in A', B', C'. now rewrite A, B, C, A', B', C'.
  Qed.
End Proofs.

Lemma reset_keeps (N : NumOps) V (o : pyc N V) :
  let o' := pyc_reset o in
  isfitted o' = isfitted o /\ alphas o' = alphas o /\ fit_intercept o' = fit_intercept o /\
  max_iter o' = max_iter o /\ tol o' = tol o /\
  (solution o' = None <-> solution o = None) /\
  forall X, is_ok (predict X o') = is_ok (predict X o).
Proof.
  cbv zeta. unfold pyc_reset. cbn [isfitted alphas fit_intercept max_iter tol solution].
  do 5 (split; [reflexivity|]). split.
  - destruct (solution o) as [[c ic]|]; split; intro H; (discriminate || reflexivity).
  - intro X. unfold predict. cbn [isfitted solution]. destruct (isfitted o); [|reflexivity].
    destruct (solution o) as [[c ic]|]; [|reflexivity].
    assert (E : forallb (fun x => forallb (fun c => Nat.eqb (length c) (length x)) (map (map (fun v => nmul v nzero)) c)) X
                = forallb (fun x : list N => forallb (fun c : list N => Nat.eqb (length c) (length x)) c) X).
    { induction X as [|x X IH]; [reflexivity|]. cbn [forallb]. rewrite IH. f_equal. clear IH.
      induction c as [|r c IHc]; [reflexivity|]. cbn [map forallb]. now rewrite map_length, IHc. }
    rewrite E. clear E. destruct (forallb _ X); reflexivity.
Qed.
