(** Distributed fit against serial fit: proofs for C18 and C27. *)
From Coq Require Import ZArith List Bool Arith Lia.
From Verif Require Import Prelude F64 Model_Intersection Spec_Intersection Proofs_Intersection
  Model_Mpi Spec_Mpi Proofs_MpiSem Proofs_Mpi Model_Fit Spec_Fit Proofs_FitMpi Proofs_FitRuns.
Import ListNotations.

(** * Loops that may raise *)
Lemma mapM_ext {A B} (f g : A -> result B) l : (forall x, In x l -> f x = g x) ->
  mapM f l = mapM g l.
Proof.
  induction l as [|x l IH]; simpl; intro H; auto.
  rewrite H by auto. destruct (g x); simpl; auto. rewrite IH by auto. reflexivity.
Qed.
Lemma mapM_app {A B} (f : A -> result B) l l' :
  mapM f (l ++ l') = (let* a := mapM f l in let* b := mapM f l' in Ok (a ++ b)).
Proof.
  induction l as [|x l IH]; simpl.
  - destruct (mapM f l'); reflexivity.
  - destruct (f x); simpl; auto. rewrite IH. destruct (mapM f l); simpl; auto.
    destruct (mapM f l'); reflexivity.
Qed.
Lemma mapM_concat_ok {A B I} (f : A -> result B) (T : I -> list A) l : forall out,
  mapM f (concat (map T l)) = Ok out ->
  (forall i, In i l -> mapM f (T i) = Ok (ok_or [] (mapM f (T i)))) /\
  concat (map (fun i => ok_or [] (mapM f (T i))) l) = out.
Proof.
  induction l as [|i l IH]; simpl; intros out H.
  - injection H as <-. split; [tauto|reflexivity].
  - rewrite mapM_app in H. destruct (mapM f (T i)) as [a|] eqn:Ea; simpl in H; [|discriminate].
    destruct (mapM f (concat (map T l))) as [b|] eqn:Eb; simpl in H; [|discriminate].
    injection H as <-. destruct (IH b eq_refl) as [IH1 IH2]. split.
    + intros j [<-|Hj]; [rewrite Ea; reflexivity|auto].
    + simpl. now rewrite IH2.
Qed.
Lemma mapM_nth {A B} (f : A -> result B) l da db : forall out, mapM f l = Ok out ->
  forall k, k < length l -> f (nth k l da) = Ok (nth k out db).
Proof.
  induction l as [|x l IH]; simpl; intros out H k Hk; [lia|].
  destruct (f x) eqn:Ef; simpl in H; [|discriminate].
  destruct (mapM f l) as [ys|] eqn:El; simpl in H; [|discriminate]. injection H as <-.
  destruct k; [exact Ef|]. simpl. apply (IH ys eq_refl). lia.
Qed.
Lemma mapM_map {A B C} (f : B -> result C) (g : A -> B) l :
  mapM f (map g l) = mapM (fun x => f (g x)) l.
Proof. induction l as [|x l IH]; simpl; auto. rewrite IH. reflexivity. Qed.

(** A flat loop over a * b tasks is a loop over a of loops over b. *)
Lemma seq_split b : forall a s, seq (s * b) (a * b) = flat_map (fun i => map (fun j => i * b + j) (seq 0 b)) (seq s a).
Proof.
  induction a as [|a IH]; intro s; simpl; auto.
  rewrite seq_app. f_equal.
  - rewrite <- (Nat.add_0_r (s * b)) at 1.
    assert (G : forall k n o, seq (k + o) n = map (fun j => k + j) (seq o n)).
    { intros k n. induction n as [|n IHn]; intro o; simpl; auto. f_equal.
      replace (Datatypes.S (k + o)) with (k + Datatypes.S o) by lia. apply IHn. }
    apply G.
  - rewrite <- IH. f_equal. simpl. lia.
Qed.
Lemma mapM_flat {A B} (f : A -> result B) (T : nat -> list A) l :
  mapM f (flat_map T l) = rmap (@concat B) (mapM (fun i => mapM f (T i)) l).
Proof.
  induction l as [|i l IH]; simpl; auto.
  rewrite mapM_app, IH. destruct (mapM f (T i)); simpl; auto.
  destruct (mapM (fun i => mapM f (T i)) l); reflexivity.
Qed.
Lemma mapM_grid {B} (g : nat -> nat -> result B) a b :
  mapM (fun t => g (t / b) (t mod b)) (seq 0 (a * b))
  = rmap (@concat B) (mapM (fun i => mapM (g i) (seq 0 b)) (seq 0 a)).
Proof.
  replace (seq 0 (a * b)) with (seq (0 * b) (a * b)) by reflexivity.
  rewrite seq_split, mapM_flat. f_equal. apply mapM_ext. intros i _.
  rewrite mapM_map. apply mapM_ext. intros j Hj. apply in_seq in Hj.
  rewrite (Nat.add_comm (i * b)), Nat.div_add, Nat.div_small by lia.
  rewrite Nat.mod_add, Nat.mod_small by lia. reflexivity.
Qed.

Lemma lookup_own keys l b : In b keys -> lookup b (own keys l) = lookup b l.
Proof.
  intro Hb. induction l as [|[k s] l IH]; simpl; auto.
  destruct (k =? b) eqn:Ek.
  - apply Nat.eqb_eq in Ek. subst k.
    assert (E : existsb (Nat.eqb b) keys = true).
    { apply existsb_exists. exists b. split; [exact Hb|apply Nat.eqb_refl]. }
    rewrite E. simpl. now rewrite Nat.eqb_refl.
  - destruct (existsb (Nat.eqb k) keys); simpl; [rewrite Ek|]; exact IH.
Qed.
Lemma lookup_numbered l : forall b k, b <= k < b + length l ->
  lookup k (numbered b l) = Ok (nth (k - b) l ([], [])).
Proof.
  unfold numbered. induction l as [|s l IH]; intros b k H; simpl in *; [lia|].
  destruct (b =? k) eqn:E.
  - apply Nat.eqb_eq in E. subst. now rewrite Nat.sub_diag.
  - apply Nat.eqb_neq in E. rewrite IH by lia.
    replace (k - b) with (Datatypes.S (k - Datatypes.S b)) by lia. reflexivity.
Qed.

(** * The selection loop *)
Section Sel.
  Context {S E : Type}.
  Variable d : dims.
  Variable sol : solver S E.
  Variable Inv : S -> Prop.
  Hypothesis Hreset : forall s, Inv s -> Inv (reset sol s).
  Hypothesis Hsweep : forall s regs tr s' rows, Inv s -> sweep sol s regs tr = Ok (s', rows) -> Inv s'.

  (** Few ranks: each task is a whole bootstrap and starts from a reset state. *)
  Variable G : list nat -> result (list (list f64)).
  Lemma sel_loop_few n boots : many d n = false -> from_reset d sol Inv G ->
    forall k a curr s, Inv s ->
    (match curr with Some c => c < a | None => True end) ->
    rmap snd (sel_loop d sol n boots (seq a k) curr s)
    = mapM (fun t => let* sp := lookup t boots in
                     let* rows := G (fst sp) in
                     store_sweep d false rows) (seq a k).
  Proof.
    intros Hm Hf. induction k as [|k IH]; intros a curr s Hs Hc; [reflexivity|].
    cbn [seq sel_loop mapM]. unfold sel_boot, sel_regs. rewrite Hm.
    assert (E0 : match curr with Some c => c =? a | None => false end = false).
    { destruct curr; auto. apply Nat.eqb_neq. lia. }
    rewrite E0. destruct (lookup a boots) as [sp|]; simpl bind; [|reflexivity].
    pose proof (Hf s (fst sp) Hs) as Hg.
    destruct (sweep sol (reset sol s) (seq 0 (n_reg d)) (fst sp)) as [[s' rows]|e] eqn:Es;
      simpl in Hg; rewrite <- Hg; simpl bind; [|reflexivity].
    destruct (store_sweep d false rows) as [row|e]; simpl bind; [|reflexivity].
    specialize (IH (Datatypes.S a) (Some a) s' (Hsweep _ _ _ _ _ (Hreset _ Hs) Es) (Nat.lt_succ_diag_r a)).
    rewrite <- IH. destruct (sel_loop d sol n boots (seq (Datatypes.S a) k) (Some a) s'); reflexivity.
  Qed.

  (** Any ranks, a solver whose answers do not depend on its state. *)
  Variable F : nat -> list nat -> result (list f64).
  Lemma sel_loop_indep n boots : state_independent sol Inv F ->
    forall tasks curr s, Inv s ->
    rmap snd (sel_loop d sol n boots tasks curr s)
    = mapM (fun t => let* sp := lookup (sel_boot d n t) boots in
                     let* rows := mapM (fun r => F r (fst sp)) (sel_regs d n t) in
                     store_sweep d (many d n) rows) tasks.
  Proof.
    intro Hf. induction tasks as [|t ts IH]; intros curr s Hs; [reflexivity|].
    cbn [sel_loop mapM].
    set (s1 := if match curr with Some c => c =? sel_boot d n t | None => false end then s else reset sol s).
    assert (Hs1 : Inv s1) by (unfold s1; destruct (match curr with Some c => c =? sel_boot d n t | None => false end); auto).
    destruct (lookup (sel_boot d n t) boots) as [sp|]; simpl bind; [|reflexivity].
    rewrite <- (Hf s1 (sel_regs d n t) (fst sp) Hs1).
    destruct (sweep sol s1 (sel_regs d n t) (fst sp)) as [[s' rows]|e] eqn:Es; simpl; [|reflexivity].
    destruct (store_sweep d (many d n) rows) as [row|e]; simpl; [|reflexivity].
    rewrite <- (IH (Some (sel_boot d n t)) s' (Hsweep _ _ _ _ _ Hs1 Es)).
    destruct (sel_loop d sol n boots ts (Some (sel_boot d n t)) s'); reflexivity.
  Qed.
End Sel.

(** * Serial fit *)
Section Serial.
  Context {S E Rng : Type}.
  Variable env : np_env.
  Variable d : dims.
  Variable sol : solver S E.
  Variable draw : bool -> Rng -> result (split * Rng).
  Variable post : nd -> nd -> result (nd * nd).
  Hypothesis Hnb : 1 <= n_boots_sel d.
  Hypothesis Hshape : shapes_ok d sol.

  Lemma many_1 : many d 1 = false.
  Proof. unfold many. apply Nat.ltb_ge. exact Hnb. Qed.
  Lemma split_1 m : array_split_arange m 1 0 = seq 0 m.
  Proof.
    pose proof (array_split_concat m 1 (le_n 1)) as H. simpl in H. now rewrite app_nil_r in H.
  Qed.

  Definition serial_result (rng : Rng) (s : S) : result fitted :=
    let* x := draw_list draw true (n_boots_sel d) rng in
    let* rows := rmap snd (sel_loop d sol 1 (numbered 0 (fst x)) (seq 0 (n_boots_sel d)) None s) in
    let* sup := intersect d (coefs_of d (concat rows)) in
    let* ns := n_supports sup in
    let* y := draw_list draw false (n_boots_est d) (snd x) in
    let* out := mapM (est_task d sol sup ns (numbered 0 (fst y))) (seq 0 (n_boots_est d * ns)) in
    let* z := finish d sol ns (concat (map fst out)) (map snd out) in
    package post sup z.

  Lemma serial_eq rng s :
    fit_body env d sol draw post 1 0 rng s = Done (serial_result rng s).
  Proof.
    unfold fit_body, serial_result. rewrite draw_boots_serial.
    destruct (draw_list draw true (n_boots_sel d) rng) as [[sps r1]|e]; simpl rmap; [|reflexivity].
    cbn [pbind lift bind fst snd].
    assert (Et : sel_tasks d 1 0 = seq 0 (n_boots_sel d)).
    { unfold sel_tasks. rewrite many_1. apply split_1. }
    rewrite Et.
    destruct (sel_loop d sol 1 (numbered 0 sps) (seq 0 (n_boots_sel d)) None s) as [x|e] eqn:El;
      simpl rmap; [|reflexivity].
    cbn [pbind lift bind fst snd]. change (1 <? 1) with false. cbv iota.
    assert (Ec : sel_coefs d 1 (sel_array d 1 (snd x)) = coefs_of d (concat (snd x))).
    { unfold sel_coefs, coefs_of. rewrite many_1. unfold sel_array. rewrite floats_nd. simpl hd.
      destruct (sel_loop_rows d (fun _ => sol) 1 (fun _ => Hshape) 0 _ _ _ _ _ El) as [Hl _].
      rewrite seq_length in Hl. rewrite Hl. reflexivity. }
    rewrite Ec.
    destruct (intersect d (coefs_of d (concat (snd x)))) as [sup|e]; [|reflexivity].
    cbn [pbind lift bind].
    destruct (n_supports sup) as [ns|e]; [|reflexivity]. cbn [pbind lift bind].
    rewrite draw_boots_serial.
    destruct (draw_list draw false (n_boots_est d) r1) as [[sps2 r2]|e]; simpl rmap; [|reflexivity].
    cbn [pbind lift bind fst snd]. unfold est_tasks. rewrite split_1.
    destruct (mapM (est_task d sol sup ns (numbered 0 sps2)) (seq 0 (n_boots_est d * ns))) as [out|e];
      [|reflexivity].
    cbn [pbind lift bind].
    destruct (finish d sol ns (concat (map fst out)) (map snd out)) as [z|e]; [|reflexivity].
    cbn [pbind lift bind]. destruct z as [[[[a b] c] e] f]. unfold package.
    destruct (post e f); reflexivity.
  Qed.

  (** ** Estimation: the distributed loops together do what the serial loop does. *)
  Lemma in_split_lt m n i t : i < n -> In t (array_split_arange m n i) -> t < m.
  Proof.
    intros Hi H. assert (1 <= n) by lia.
    assert (G : In t (concat (map (array_split_arange m n) (seq 0 n)))).
    { apply in_concat. exists (array_split_arange m n i). split; [|exact H].
      apply in_map. apply in_seq. lia. }
    rewrite array_split_concat in G by assumption. apply in_seq in G. lia.
  Qed.

  Lemma est_concat n sup ns sps out : 1 < n ->
    mapM (est_task d sol sup ns (numbered 0 sps)) (seq 0 (n_boots_est d * ns)) = Ok out ->
    (forall i, i < n -> est_result d (fun _ => sol) n sup ns sps i
       = Ok (ok_or [] (est_result d (fun _ => sol) n sup ns sps i))) /\
    concat (map (fun i => ok_or [] (est_result d (fun _ => sol) n sup ns sps i)) (seq 0 n)) = out.
  Proof.
    intros Hn H.
    assert (Eq : forall i, i < n -> est_result d (fun _ => sol) n sup ns sps i
      = mapM (est_task d sol sup ns (numbered 0 sps)) (est_tasks d n i ns)).
    { intros i Hi. unfold est_result. apply mapM_ext. intros t Ht. unfold est_task.
      rewrite lookup_own; [reflexivity|]. unfold est_keys. exact (in_map (fun t => t / ns) _ _ Ht). }
    rewrite <- (array_split_concat (n_boots_est d * ns) n) in H by lia.
    destruct (mapM_concat_ok _ _ _ _ H) as [H1 H2]. split.
    - intros i Hi. rewrite (Eq i Hi). apply H1. apply in_seq. lia.
    - rewrite <- H2. f_equal. apply map_ext_in. intros i Hi. apply in_seq in Hi.
      rewrite Eq by lia. reflexivity.
  Qed.

  (** The distributed outcome from a selection that agrees with the serial one. *)
  Lemma same_selection n (R : nat -> Rng) (s0 : nat -> S) s F sps r1 x :
    1 < n ->
    serial_result (R 0) s = Ok F ->
    draw_list draw true (n_boots_sel d) (R 0) = Ok (sps, r1) ->
    sel_loop d sol 1 (numbered 0 sps) (seq 0 (n_boots_sel d)) None s = Ok x ->
    (forall i, i < n -> sel_result d (fun _ => sol) n s0 sps i
       = Ok (ok_or [] (sel_result d (fun _ => sol) n s0 sps i))) ->
    gathered n (fun i => ok_or [] (sel_result d (fun _ => sol) n s0 sps i)) = concat (snd x) ->
    forall i, outcome d (fun _ => sol) draw post n R s0 i = Some (Ok F).
  Proof.
    intros Hn HF Hd Hl Hok Hg i. unfold serial_result in HF. unfold outcome. rewrite Hd in *.
    cbn [bind fst snd] in HF. rewrite Hl in HF. cbn [bind rmap] in HF.
    assert (Ea : all_ok n (sel_result d (fun _ => sol) n s0 sps) = true).
    { unfold all_ok. apply forallb_forall. intros j Hj. apply in_seq in Hj.
      rewrite Hok by lia. reflexivity. }
    rewrite Ea. rewrite Hg.
    destruct (intersect d (coefs_of d (concat (snd x)))) as [sup|e]; [|discriminate].
    cbn [bind] in HF. destruct (n_supports sup) as [ns|e]; [|discriminate]. cbn [bind] in HF.
    destruct (draw_list draw false (n_boots_est d) r1) as [[sps2 r2]|e]; [|discriminate].
    cbn [bind fst snd] in HF.
    destruct (mapM (est_task d sol sup ns (numbered 0 sps2)) (seq 0 (n_boots_est d * ns))) as [out|e] eqn:Eo;
      [|discriminate].
    cbn [bind] in HF.
    destruct (est_concat n sup ns sps2 out Hn Eo) as [Hok2 Hc2].
    assert (Ea2 : all_ok n (est_result d (fun _ => sol) n sup ns sps2) = true).
    { unfold all_ok. apply forallb_forall. intros j Hj. apply in_seq in Hj.
      rewrite Hok2 by lia. reflexivity. }
    rewrite Ea2. cbv zeta. unfold all_estimates, all_scores. rewrite Hc2.
    destruct (finish d sol ns (concat (map fst out)) (map snd out)) as [z|e]; [|discriminate].
    cbn [bind] in HF. rewrite HF. reflexivity.
  Qed.

  Lemma serial_steps rng s F : serial_result rng s = Ok F ->
    exists sps r1 x, draw_list draw true (n_boots_sel d) rng = Ok (sps, r1) /\
      sel_loop d sol 1 (numbered 0 sps) (seq 0 (n_boots_sel d)) None s = Ok x.
  Proof.
    unfold serial_result. destruct (draw_list draw true (n_boots_sel d) rng) as [[sps r1]|e];
      simpl bind; [|discriminate].
    destruct (sel_loop d sol 1 (numbered 0 sps) (seq 0 (n_boots_sel d)) None s) as [x|e] eqn:El;
      simpl bind; [|discriminate].
    intros _. eauto.
  Qed.

  Section Reset.
    Variable Inv : S -> Prop.
    Hypothesis Hreset : forall s, Inv s -> Inv (reset sol s).
    Hypothesis Hsweep : forall s regs tr s' rows, Inv s -> sweep sol s regs tr = Ok (s', rows) -> Inv s'.

    Lemma few_ranks n (R : nat -> Rng) (s0 : nat -> S) s F G :
      1 < n -> n <= n_boots_sel d -> from_reset d sol Inv G ->
      (forall i, Inv (s0 i)) -> Inv s ->
      serial_result (R 0) s = Ok F ->
      forall i, outcome d (fun _ => sol) draw post n R s0 i = Some (Ok F).
    Proof.
      intros Hn Hle HG Hs0 Hs HF.
      destruct (serial_steps _ _ _ HF) as (sps & r1 & x & Hd & Hl).
      pose proof (draw_list_length _ _ _ _ _ Hd) as Hlen. simpl in Hlen.
      assert (Hm : many d n = false) by (unfold many; apply Nat.ltb_ge; exact Hle).
      set (g := fun t => let* sp := lookup t (numbered 0 sps) in
                         let* rows := G (fst sp) in store_sweep d false rows).
      assert (Hser : mapM g (seq 0 (n_boots_sel d)) = Ok (snd x)).
      { pose proof (sel_loop_few d sol Inv Hreset Hsweep G 1 (numbered 0 sps) many_1 HG
                      (n_boots_sel d) 0 None s Hs I) as H.
        rewrite Hl in H. simpl in H. symmetry. exact H. }
      rewrite <- (array_split_concat (n_boots_sel d) n) in Hser by lia.
      destruct (mapM_concat_ok _ _ _ _ Hser) as [H1 H2].
      assert (Hres : forall i, i < n -> sel_result d (fun _ => sol) n s0 sps i
                = mapM g (array_split_arange (n_boots_sel d) n i)).
      { intros i Hi. unfold sel_result, sel_keys, sel_tasks. rewrite Hm.
        unfold array_split_arange.
        rewrite (sel_loop_few d sol Inv Hreset Hsweep G n _ Hm HG _ _ None (s0 i) (Hs0 i) I).
        apply mapM_ext. intros t Ht. unfold g.
        rewrite lookup_own; [reflexivity|].
        apply in_map_iff. exists t. unfold sel_boot. rewrite Hm. auto. }
      apply (same_selection n R s0 s F sps r1 x); auto.
      - intros i Hi. rewrite (Hres i Hi). apply H1. apply in_seq. lia.
      - unfold gathered. f_equal. rewrite <- H2. f_equal. apply map_ext_in.
        intros i Hi. apply in_seq in Hi. rewrite Hres by lia. reflexivity.
    Qed.

    Lemma any_ranks n (R : nat -> Rng) (s0 : nat -> S) s F f :
      1 < n -> state_independent sol Inv f ->
      (forall i, Inv (s0 i)) -> Inv s ->
      serial_result (R 0) s = Ok F ->
      forall i, outcome d (fun _ => sol) draw post n R s0 i = Some (Ok F).
    Proof.
      intros Hn Hind Hs0 Hs HF.
      destruct (le_lt_dec n (n_boots_sel d)) as [Hle|Hgt].
      - apply (few_ranks n R s0 s F (fun tr => mapM (fun r => f r tr) (seq 0 (n_reg d)))); auto.
        intros s1 tr Hs1. apply Hind. auto.
      - destruct (serial_steps _ _ _ HF) as (sps & r1 & x & Hd & Hl).
        assert (Hm : many d n = true) by (unfold many; apply Nat.ltb_lt; exact Hgt).
        set (h := fun b r => let* sp := lookup b (numbered 0 sps) in f r (fst sp)).
        assert (Hser : exists y, mapM (fun b => mapM (h b) (seq 0 (n_reg d))) (seq 0 (n_boots_sel d)) = Ok y
                    /\ snd x = map (@concat f64) y).
        { pose proof (sel_loop_indep d sol Inv Hreset Hsweep f 1 (numbered 0 sps) Hind
                      (seq 0 (n_boots_sel d)) None s Hs) as H.
          rewrite Hl in H. cbn [rmap] in H. unfold sel_boot, sel_regs in H. rewrite many_1 in H.
          revert H. generalize (snd x). generalize (seq 0 (n_boots_sel d)).
          assert (Hnil : n_reg d = 0 \/ 1 <= n_reg d) by lia.
          induction l as [|b l IH]; intros out H.
          - simpl in H. injection H as ->. exists []. auto.
          - cbn [mapM] in H.
            destruct (lookup b (numbered 0 sps)) as [sp|] eqn:Eb; cbn [bind] in H; [|discriminate].
            destruct (mapM (fun r => f r (fst sp)) (seq 0 (n_reg d))) as [rows|] eqn:Er;
              cbn [bind] in H; [|discriminate].
            unfold store_sweep in H at 1.
            destruct (negb false && (n_coef d =? 1) && (1 <? n_reg d)); cbn [bind] in H; [discriminate|].
            match goal with H : Ok _ = bind ?m _ |- _ => destruct m as [rest|] eqn:Em; cbn [bind] in H end;
              [|discriminate].
            injection H as ->. destruct (IH rest) as (y & Hy & ->); [reflexivity|].
            exists (rows :: y). split; [|reflexivity].
            cbn [mapM].
            assert (Eh : mapM (h b) (seq 0 (n_reg d)) = Ok rows).
            { rewrite <- Er. apply mapM_ext. intros r _. unfold h. rewrite Eb. reflexivity. }
            rewrite Eh. cbn [bind]. rewrite Hy. reflexivity. }
        destruct Hser as (y & Hy & Ex).
        pose proof (mapM_grid h (n_boots_sel d) (n_reg d)) as Hgrid.
        rewrite Hy in Hgrid. simpl in Hgrid.
        rewrite <- (array_split_concat (n_boots_sel d * n_reg d) n) in Hgrid by lia.
        destruct (mapM_concat_ok _ _ _ _ Hgrid) as [H1 H2].
        assert (Hres : forall i, i < n -> sel_result d (fun _ => sol) n s0 sps i
                  = mapM (fun t => h (t / n_reg d) (t mod n_reg d))
                         (array_split_arange (n_boots_sel d * n_reg d) n i)).
        { intros i Hi. unfold sel_result, sel_keys.
          rewrite (sel_loop_indep d sol Inv Hreset Hsweep f n _ Hind _ None (s0 i) (Hs0 i)).
          unfold sel_tasks. rewrite Hm. apply mapM_ext. intros t Ht.
          rewrite lookup_own by (apply in_map; exact Ht).
          unfold sel_boot, sel_regs. rewrite Hm. unfold h.
          destruct (lookup (t / n_reg d) (numbered 0 sps)) as [sp|]; simpl; [|reflexivity].
          destruct (f (t mod n_reg d) (fst sp)) as [row|]; simpl; [|reflexivity].
          unfold store_sweep. simpl. now rewrite app_nil_r. }
        apply (same_selection n R s0 s F sps r1 x); auto.
        + intros i Hi. rewrite (Hres i Hi). apply H1. apply in_seq. lia.
        + unfold gathered. rewrite Ex.
          replace (concat (map (@concat f64) y)) with (concat (concat y)).
          * f_equal. rewrite <- H2. f_equal. apply map_ext_in.
            intros i Hi. apply in_seq in Hi. rewrite Hres by lia. reflexivity.
          * clear. induction y as [|a y IH]; simpl; auto. now rewrite concat_app, IH.
    Qed.
  End Reset.
End Serial.
