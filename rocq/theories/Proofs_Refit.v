(** Proofs about histories of fit calls. *)
From Coq Require Import ZArith List Bool Arith.
From Verif Require Import Prelude Model_Refit.
Import ListNotations.

Section Refit.
  Context {D L A St Sel Coef : Type}.
  Variable constant : D -> bool.
  Variable const_fit : D -> result Coef.
  Variable run : D -> list (reg_param L A) -> St -> St * result (Sel * Coef).

  Section Any.
    Variable get : cache (L := L) -> D -> cache (L := L) * result (list (reg_param L A)).
    Notation obj := (object L A St Sel Coef).
    Notation call := (fit_call get constant const_fit run).
    Notation hist := (history get constant const_fit run).

    Lemma history_app h1 h2 (o : obj) : hist (h1 ++ h2) o = hist h2 (hist h1 o).
    Proof. apply fold_left_app. Qed.

    Lemma constant_call x (o : obj) c : constant x = true -> const_fit x = Ok c ->
      call x o = (mkObject (o_cache o) (o_params o) (o_sel o) (Some c) (o_state o), Ok tt).
    Proof. intros H1 H2. unfold fit_call. now rewrite H1, H2. Qed.

    Lemma constant_cache x (o : obj) : constant x = true -> o_cache (fst (call x o)) = o_cache o.
    Proof. intro H. unfold fit_call. rewrite H. now destruct (const_fit x). Qed.

    Lemma constants_cache h (o : obj) : Forall (fun x => constant x = true) h ->
      o_cache (hist h o) = o_cache o.
    Proof.
      intro F. revert o. induction F as [|x h Hx F IH]; intro o; [reflexivity|].
      unfold history in *. cbn [fold_left]. rewrite IH. now apply constant_cache.
    Qed.

    Lemma call_cache x (o : obj) : constant x = false ->
      o_cache (fst (call x o)) = fst (get (o_cache o) x).
    Proof.
      intro H. unfold fit_call. rewrite H. destruct (snd (get (o_cache o) x)); [|reflexivity].
      now destruct (snd (run x a (o_state o))).
    Qed.
    Lemma call_params x (o : obj) ps : constant x = false -> snd (get (o_cache o) x) = Ok ps ->
      o_params (fst (call x o)) = Some ps.
    Proof.
      intros H G. unfold fit_call. rewrite H, G. now destruct (snd (run x ps (o_state o))).
    Qed.

    (** A filled cache is never replaced. *)
    Hypothesis keep : forall l x, fst (get (Some l) x) = Some l.
    Lemma cache_kept h (o : obj) l : o_cache o = Some l -> o_cache (hist h o) = Some l.
    Proof.
      revert o. induction h as [|x h IH]; intros o H; [exact H|].
      unfold history in *. cbn [fold_left]. apply IH.
      destruct (constant x) eqn:E; [now rewrite constant_cache|]. rewrite call_cache, H by assumption. apply keep.
    Qed.

    Lemma stale h1 x1 h2 x st l ps : Forall (fun x => constant x = true) h1 ->
      constant x1 = false -> fst (get None x1) = Some l ->
      constant x = false -> snd (get (Some l) x) = Ok ps ->
      o_params (fst (call x (hist (h1 ++ x1 :: h2) (fresh st)))) = Some ps.
    Proof.
      intros F H1 G1 H2 G2. apply call_params; [assumption|].
      rewrite history_app. change (x1 :: h2) with ([x1] ++ h2). rewrite history_app.
      rewrite (cache_kept h2 _ l); [exact G2|]. unfold history at 1. cbn [fold_left].
      rewrite call_cache by assumption. rewrite constants_cache by assumption. exact G1.
    Qed.

    Lemma constant_refit h x0 x st v c st' :
      constant x0 = false -> constant x = true -> const_fit x = Ok c ->
      (exists ps, snd (get (o_cache (hist h (fresh st))) x0) = Ok ps /\
         run x0 ps (o_state (hist h (fresh st))) = (st', Ok v)) ->
      let o := fst (call x (hist (h ++ [x0]) (fresh st))) in
      snd (call x (hist (h ++ [x0]) (fresh st))) = Ok tt /\
      o_coef o = Some c /\ o_sel o = Some (fst v) /\
      o_params o = o_params (hist (h ++ [x0]) (fresh st)).
    Proof.
      intros H0 H1 H2 (ps & G & R) o. unfold o. rewrite (constant_call x _ c H1 H2). cbn.
      split; [reflexivity|]. split; [reflexivity|]. split; [|reflexivity].
      rewrite history_app. unfold history at 1. cbn [fold_left]. unfold fit_call. rewrite H0, G, R. reflexivity.
    Qed.
    Lemma constant_fresh h x st c : Forall (fun x => constant x = true) h ->
      constant x = true -> const_fit x = Ok c ->
      let o := fst (call x (hist h (fresh st))) in
      o_coef o = Some c /\ o_sel o = None /\ o_params o = None.
    Proof.
      intros F H1 H2 o. unfold o. rewrite (constant_call x _ c H1 H2). cbn. split; [reflexivity|].
      assert (G : forall o : obj, o_sel o = None -> o_params o = None ->
                  o_sel (hist h o) = None /\ o_params (hist h o) = None).
      { clear -F. induction F as [|y h Hy F IH]; intros o G1 G2; [auto|].
        unfold history in *. cbn [fold_left]. apply IH; unfold fit_call; rewrite Hy; destruct (const_fit y); auto. }
      now apply G.
    Qed.
  End Any.

  Lemma lasso_forgets grid (o1 o2 : object L A St Sel Coef) x g : constant x = false -> grid x = Ok g ->
    o_params (fst (fit_call (lasso_params grid) constant const_fit run x o1)) = Some (map RegAlpha g) /\
    (o_state o1 = o_state o2 -> is_ok (snd (fit_call (lasso_params grid) constant const_fit run x o1)) = true ->
     let a := fit_call (lasso_params grid) constant const_fit run x o1 in
     let b := fit_call (lasso_params grid) constant const_fit run x o2 in
     snd a = snd b /\ o_sel (fst a) = o_sel (fst b) /\ o_coef (fst a) = o_coef (fst b) /\
     o_params (fst a) = o_params (fst b)).
  Proof.
    intros H G. split.
    - apply call_params; [assumption|]. cbn. now rewrite G.
    - intros E Ho. cbv zeta. unfold fit_call in *. rewrite H in *. cbn [lasso_params fst snd] in *. rewrite G in *.
      cbn [rmap] in *. rewrite <- E. destruct (snd (run x (map RegAlpha g) (o_state o1))); [|discriminate].
      cbn. auto.
  Qed.

  Lemma fill_ok (grid : A -> result (list L)) rows zeros alphas : (forall a, In a alphas -> grid a = Ok (rows a)) ->
    fill grid zeros alphas = (map rows alphas, None).
  Proof.
    induction alphas as [|a r IH]; intro H; [reflexivity|].
    cbn [fill]. rewrite (H a) by now left. rewrite IH by (intros; apply H; now right). reflexivity.
  Qed.
  Lemma fill_raise (grid : A -> result (list L)) rows zeros pre a post e :
    (forall a, In a pre -> grid a = Ok (rows a)) -> grid a = Raise e ->
    fill grid zeros (pre ++ a :: post) = (map rows pre ++ map (fun _ => zeros) (a :: post), Some e).
  Proof.
    intros H Ha. induction pre as [|b r IH].
    - cbn [app fill]. rewrite Ha. reflexivity.
    - cbn [app fill]. rewrite (H b) by now left. rewrite IH by (intros; apply H; now right). reflexivity.
  Qed.

  Lemma pairs_map (rows : A -> list L) alphas :
    pairs alphas (map rows alphas) = flat_map (fun a => map (fun l => RegPair l a) (rows a)) alphas.
  Proof.
    unfold pairs. induction alphas as [|a r IH]; [reflexivity|]. cbn. now rewrite IH.
  Qed.

  Lemma pairs_stale alphas zeros grid rows h1 x1 h2 x st :
    Forall (fun x => constant x = true) h1 -> constant x1 = false -> constant x = false ->
    (forall a, In a alphas -> grid x1 a = Ok (rows a)) ->
    o_params (fst (fit_call (pair_params alphas zeros grid) constant const_fit run x
      (history (pair_params alphas zeros grid) constant const_fit run (h1 ++ x1 :: h2)
         (fresh (L := L) (A := A) (Sel := Sel) (Coef := Coef) st))))
    = Some (flat_map (fun a => map (fun l => RegPair l a) (rows a)) alphas).
  Proof.
    intros F H1 H2 G. rewrite <- pairs_map.
    apply (stale (pair_params alphas zeros grid)) with (l := map rows alphas); auto.
    - cbn. now rewrite (fill_ok _ rows).
  Qed.

  Lemma pairs_failed alphas zeros grid rows pre a post e h1 x1 h2 x st :
    Forall (fun x => constant x = true) h1 -> constant x1 = false -> constant x = false ->
    alphas = pre ++ a :: post -> (forall a, In a pre -> grid x1 a = Ok (rows a)) -> grid x1 a = Raise e ->
    snd (fit_call (pair_params alphas zeros grid) constant const_fit run x1
           (fresh (L := L) (A := A) (Sel := Sel) (Coef := Coef) st)) = Raise e /\
    o_params (fst (fit_call (pair_params alphas zeros grid) constant const_fit run x
      (history (pair_params alphas zeros grid) constant const_fit run (h1 ++ x1 :: h2)
         (fresh (L := L) (A := A) (Sel := Sel) (Coef := Coef) st))))
    = Some (flat_map (fun a => map (fun l => RegPair l a) (rows a)) pre
            ++ flat_map (fun a => map (fun l => RegPair l a) zeros) (a :: post)).
  Proof.
    intros F H1 H2 -> G Ge.
    assert (Ef : fill (grid x1) zeros (pre ++ a :: post) = (map rows pre ++ map (fun _ => zeros) (a :: post), Some e))
      by now apply fill_raise.
    split.
    - unfold fit_call, pair_params, fresh. rewrite H1. cbn [o_cache]. rewrite Ef. reflexivity.
    - apply (stale (pair_params (pre ++ a :: post) zeros grid)) with (l := map rows pre ++ map (fun _ => zeros) (a :: post)); auto.
      { unfold pair_params. cbn [fst snd]. rewrite Ef. reflexivity. }
      unfold pair_params. cbn [snd]. f_equal.
      rewrite <- (pairs_map (fun _ => zeros)), <- pairs_map. unfold pairs. rewrite <- flat_map_app. f_equal.
      clear. induction pre as [|b r IH]; [reflexivity|]. cbn [app map combine]. f_equal. exact IH.
  Qed.

  Lemma logistic_stale grid h1 x1 h2 x st cs :
    Forall (fun x => constant x = true) h1 -> constant x1 = false -> constant x = false ->
    grid x1 = Ok cs ->
    o_params (fst (fit_call (logistic_params grid) constant const_fit run x
      (history (logistic_params grid) constant const_fit run (h1 ++ x1 :: h2)
         (fresh (L := L) (A := A) (Sel := Sel) (Coef := Coef) st))))
    = Some (map RegC cs).
  Proof.
    intros F H1 H2 G.
    apply (stale (logistic_params grid)) with (l := [cs]); auto.
    - cbn. now rewrite G.
    - cbn. now rewrite app_nil_r.
  Qed.
End Refit.

(** Toy estimator: data are penalties, 0 means a constant response. *)
Definition toy_grid (x : nat) : result (list nat) := Ok [x; x + 1].
Definition toy_run (x : nat) (ps : list (reg_param nat nat)) (s : unit) : unit * result (nat * nat) :=
  (s, Ok (x, x)).
