(** The outcome of a distributed [fit] on every rank, for every behaviour of the
    solvers: Proofs for C16, C17, C20. *)
From Coq Require Import ZArith List Bool Arith Lia.
From Verif Require Import Prelude F64 Model_Intersection Spec_Intersection Proofs_Intersection
  Model_Mpi Spec_Mpi Proofs_MpiSem Proofs_Mpi Model_Fit Spec_Fit Proofs_FitMpi.
Import ListNotations.

(** * Arrays *)
Lemma nats_nd l : nats_of_nd (nd_of_nats l) = l.
Proof.
  unfold nats_of_nd, nd_of_nats. simpl. rewrite map_map. simpl.
  rewrite <- (map_id l) at 2. apply map_ext. intro. apply Nat2Z.id.
Qed.
Lemma wf_nd_of_nats l : wf_nd (nd_of_nats l).
Proof. unfold wf_nd, nd_of_nats. simpl. rewrite map_length. lia. Qed.
Lemma contiguous_nd_of_nats l : contiguous (nd_of_nats l) = nd_of_nats l.
Proof. reflexivity. Qed.

Lemma floats_nd sh l : floats_of_nd (nd_of_floats sh l) = l.
Proof.
  unfold floats_of_nd, nd_of_floats. simpl. rewrite map_map. simpl. apply map_id.
Qed.
Lemma map_float_flt l : map float_of_scalar (map SFlt l) = l.
Proof. rewrite map_map. simpl. apply map_id. Qed.

Definition wf_barray (a : barray) : Prop :=
  match a with
  | Arr0 _ => False
  | Arr1 _ => True
  | Arr2 p rows => Forall (fun r => length r = p) rows
  end.

Lemma bools_scalars l : map bool_of_scalar (map scalar_of_bool l) = l.
Proof.
  rewrite map_map. rewrite <- (map_id l) at 2. apply map_ext. intros []; reflexivity.
Qed.
Lemma barray_nd a : wf_barray a -> barray_of_nd (nd_of_barray a) = a.
Proof.
  destruct a as [b|l|p rows]; simpl; intro H; [destruct H| |]; unfold barray_of_nd; simpl.
  - now rewrite bools_scalars.
  - rewrite bools_scalars, chunks_concat by assumption. reflexivity.
Qed.
Lemma wf_nd_of_barray a : wf_barray a -> wf_nd (nd_of_barray a).
Proof.
  destruct a as [b|l|p rows]; simpl; intro H; [destruct H| |]; unfold wf_nd; simpl.
  - rewrite map_length. lia.
  - rewrite map_length, (concat_length_const p) by assumption. lia.
Qed.
Lemma contiguous_nd_of_barray a : wf_barray a -> contiguous (nd_of_barray a) = nd_of_barray a.
Proof. destruct a; simpl; tauto. Qed.

Lemma support_rows_length c t : Forall (fun r => length r = c_feat c) (support_rows c t).
Proof.
  rewrite Forall_forall. intros x Hx. rewrite support_rows_eq in Hx.
  apply in_map_iff in Hx as (r & <- & _). apply row_of_length.
Qed.
Lemma usort_rows_length p rows : Forall (fun r => length r = p) rows ->
  Forall (fun r => length r = p) (usort row_cmp rows).
Proof.
  rewrite !Forall_forall. intros H x Hx. apply H. now apply usort_rows_in.
Qed.
Lemma intersection_wf c ts s : intersection c ts = Ok s -> wf_barray s.
Proof.
  unfold intersection. set (tl := match ts with Some l => l | None => _ end).
  assert (F : Forall (fun r => length r = c_feat c) (all_support_rows c tl)).
  { rewrite Forall_forall. intros x Hx. apply all_rows_in in Hx as (t & r & _ & _ & ->).
    apply row_of_length. }
  unfold squeeze2. destruct (length _ =? 1), (c_feat c =? 1); simpl; intro H;
    try discriminate; injection H as <-; simpl; auto.
  now apply usort_rows_length.
Qed.
Lemma chunks_lengths {A} k m (l : list A) : m * k <= length l ->
  Forall (fun r => length r = k) (chunks k m l).
Proof.
  revert l. induction m as [|m IH]; intros l H; simpl; constructor.
  - rewrite firstn_length. simpl in H. lia.
  - apply IH. rewrite skipn_length. simpl in H. lia.
Qed.
Lemma intersect_wf d c s : intersect d c = Ok s -> wf_barray s.
Proof.
  unfold intersect. destruct (glm d).
  - unfold glm_intersect. destruct (intersection c (Some (thresholds d))) as [a|e] eqn:E; simpl;
      [|discriminate].
    destruct ((1 <? out_dim d) && shared d).
    + unfold union_over_classes. set (nf := last_axis a / out_dim d).
      destruct (out_dim d * nf =? 0) eqn:E0; [discriminate|].
      destruct (negb (length (flat a) mod (out_dim d * nf) =? 0)) eqn:E1; [discriminate|].
      intro H. injection H as <-. simpl. apply usort_rows_length.
      apply negb_false_iff, Nat.eqb_eq in E1. apply Nat.eqb_neq in E0.
      rewrite Forall_forall. intros x Hx. apply in_map_iff in Hx as (g & <- & Hg).
      apply or_rows_length. apply chunks_lengths.
      pose proof (chunks_lengths (out_dim d * nf) (length (flat a) / (out_dim d * nf)) (flat a)) as F.
      rewrite Forall_forall in F. rewrite (F) with (x := g); [lia| |exact Hg].
      rewrite Nat.mul_comm. apply Nat.mul_div_le. exact E0.
    + intro H. injection H as <-. exact (intersection_wf _ _ _ E).
  - exact (intersection_wf _ _ _).
Qed.
Lemma intersect_n_supports d c s : intersect d c = Ok s -> exists ns, n_supports s = Ok ns.
Proof.
  intro H. apply intersect_wf in H. destruct s; simpl in *; [destruct H|eauto|eauto].
Qed.

(** * Tasks *)
Lemma sum_app l l' : sum (l ++ l') = sum l + sum l'.
Proof. unfold sum. induction l; simpl; lia. Qed.
Lemma sum_lengths {A} (ls : list (list A)) : sum (map (@length A) ls) = length (concat ls).
Proof.
  induction ls as [|x ls IH]; simpl; auto. rewrite app_length. unfold sum in *. simpl. lia.
Qed.
Lemma split_lengths m n : 1 <= n ->
  sum (map (fun i => length (array_split_arange m n i)) (seq 0 n)) = m.
Proof.
  intro H. transitivity (length (concat (map (array_split_arange m n) (seq 0 n)))).
  - rewrite <- sum_lengths, map_map. reflexivity.
  - rewrite array_split_concat by assumption. apply seq_length.
Qed.

Lemma mapM_length {A B} (f : A -> result B) l : forall r, mapM f l = Ok r -> length r = length l.
Proof.
  induction l as [|x l IH]; simpl; intros r H; [injection H as <-; reflexivity|].
  destruct (f x); simpl in H; [|discriminate].
  destruct (mapM f l); simpl in H; [|discriminate]. injection H as <-. simpl. now rewrite (IH _ eq_refl).
Qed.
Lemma mapM_Forall {A B} (f : A -> result B) (P : B -> Prop) l : (forall x y, In x l -> f x = Ok y -> P y) ->
  forall r, mapM f l = Ok r -> Forall P r.
Proof.
  induction l as [|x l IH]; simpl; intros HP r H; [injection H as <-; constructor|].
  destruct (f x) eqn:E; simpl in H; [|discriminate].
  destruct (mapM f l); simpl in H; [|discriminate]. injection H as <-.
  constructor; [eapply HP; eauto|]. apply IH; auto. intros; eapply HP; eauto.
Qed.

Lemma scatter_length mask : forall v, length (scatter mask v) = length mask.
Proof. induction mask as [|[] m IH]; intros [|x v]; simpl; auto. Qed.
Lemma assign_masked_length nc m v r : assign_masked nc m v = Ok r -> length r = nc.
Proof.
  unfold assign_masked. destruct (length m =? nc) eqn:E; simpl; [|discriminate].
  apply Nat.eqb_eq in E.
  destruct (length v =? _); [intro H; injection H as <-; now rewrite scatter_length|].
  destruct (length v =? 1); [intro H; injection H as <-; now rewrite scatter_length|discriminate].
Qed.
Lemma assign_row_length nc v r : assign_row nc v = Ok r -> length r = nc.
Proof.
  unfold assign_row. destruct (length v =? nc) eqn:E.
  - intro H; injection H as <-. now apply Nat.eqb_eq.
  - destruct (length v =? 1); [intro H; injection H as <-; apply repeat_length|discriminate].
Qed.

Section Runs.
  Context {S E Rng : Type}.
  Variable env : np_env.
  Variable d : dims.
  Variable sol : nat -> solver S E.
  Variable draw : bool -> Rng -> result (split * Rng).
  Variable post : nd -> nd -> result (nd * nd).

  (** Successive draws. *)
  Fixpoint draw_list (sel : bool) (k : nat) (rng : Rng) : result (list split * Rng) :=
    match k with
    | 0 => Ok ([], rng)
    | Datatypes.S k' =>
        let* x := draw sel rng in
        let* y := draw_list sel k' (snd x) in
        Ok (fst x :: fst y, snd y)
    end.

  Definition numbered (b : nat) (l : list split) : list (nat * split) :=
    combine (seq b (length l)) l.
  Definition own (keys : list nat) (l : list (nat * split)) : list (nat * split) :=
    filter (fun x => existsb (Nat.eqb (fst x)) keys) l.

  Lemma draw_list_length sel k : forall rng x, draw_list sel k rng = Ok x -> length (fst x) = k.
  Proof.
    induction k as [|k IH]; simpl; intros rng x H; [injection H as <-; reflexivity|].
    destruct (draw sel rng) as [y|]; simpl in H; [|discriminate].
    destruct (draw_list sel k (snd y)) eqn:E'; simpl in H; [|discriminate].
    injection H as <-. simpl. now rewrite (IH _ _ E').
  Qed.

  Lemma draw_boots_serial rank sel keys : forall k b rng,
    draw_boots env draw 1 rank sel keys b k rng
    = Done (rmap (fun x => (numbered b (fst x), snd x)) (draw_list sel k rng)).
  Proof.
    induction k as [|k IH]; intros b rng; simpl; auto.
    destruct (draw sel rng) as [x|e]; simpl; auto.
    rewrite IH. destruct (draw_list sel k (snd x)) as [y|e]; simpl; auto.
  Qed.

  Section Dist.
  Variable n : nat.
  Hypothesis Hn : 1 < n.

  Lemma size_gt : (1 <? n) = true.
  Proof. apply Nat.ltb_lt. exact Hn. Qed.

  Definition at_rank {T} (i : nat) (root other : T) : T := if i =? 0 then root else other.

  Lemma draw_boots_runs sel (keys : nat -> list nat) : forall k b (R : nat -> Rng) sps rng',
    draw_list sel k (R 0) = Ok (sps, rng') ->
    runs n (fun i => draw_boots env draw n i sel (keys i) b k (R i))
           (fun i => Ok (own (keys i) (numbered b sps), at_rank i rng' (R i))).
  Proof.
    induction k as [|k IH]; intros b R sps rng' H.
    - simpl in H. injection H as <- <-. apply RunDone. intros i _. simpl.
      unfold at_rank. destruct (i =? 0) eqn:Ei; [|reflexivity].
      apply Nat.eqb_eq in Ei. subst. reflexivity.
    - simpl in H. destruct (draw sel (R 0)) as [[sp r1]|e] eqn:Ed; simpl in H; [|discriminate].
      destruct (draw_list sel k r1) as [[sps' r2]|e] eqn:El; simpl in H; [|discriminate].
      injection H as <- <-.
      cbn [draw_boots]. rewrite size_gt.
      set (x := fun i => if i =? 0 then (ArgNd (nd_of_nats (fst sp)), ArgNd (nd_of_nats (snd sp)), r1)
                         else (ArgNone, ArgNone, R i)).
      apply runs_bind with (a := x).
      { apply runs_ext with (ps := fun i => lift (Ok (x i))) (o := fun i => Ok (x i));
          [|reflexivity|apply runs_lift].
        intros i Hi. unfold x. destruct (i =? 0) eqn:Ei; [|reflexivity].
        apply Nat.eqb_eq in Ei. subst. rewrite Ed. reflexivity. }
      apply runs_bind with (a := fun _ => nd_of_nats (fst sp)).
      { apply runs_ext with (ps := fun i => Bcast_from_root env i 0 (fst (fst (x i))))
                            (o := fun _ => Ok (contiguous (nd_of_nats (fst sp)))); auto.
        apply bcast_root0_runs; [lia|reflexivity|apply wf_nd_of_nats|reflexivity|].
        intros i Hi. unfold x. destruct i; [lia|]. discriminate. }
      apply runs_bind with (a := fun _ => nd_of_nats (snd sp)).
      { apply runs_ext with (ps := fun i => Bcast_from_root env i 0 (snd (fst (x i))))
                            (o := fun _ => Ok (contiguous (nd_of_nats (snd sp)))); auto.
        apply bcast_root0_runs; [lia|reflexivity|apply wf_nd_of_nats|reflexivity|].
        intros i Hi. unfold x. destruct i; [lia|]. discriminate. }
      apply runs_bind with (a := fun i => (own (keys i) (numbered (Datatypes.S b) sps'),
                                           at_rank i r2 (snd (x i)))).
      { apply (IH (Datatypes.S b) (fun i => snd (x i))). exact El. }
      apply RunDone. intros i Hi. f_equal. f_equal. f_equal.
      + simpl. rewrite !nats_nd. destruct sp; simpl.
        unfold own, numbered. simpl. destruct (existsb (Nat.eqb b) (keys i)); reflexivity.
      + simpl. unfold at_rank, x. destruct (i =? 0); reflexivity.
  Qed.

  Lemma draw_boots_hang sel (keys : nat -> list nat) e : forall k b (R : nat -> Rng),
    draw_list sel k (R 0) = Raise e ->
    hruns n (fun _ => true)
      (fun i => draw_boots env draw n i sel (keys i) b k (R i))
      (fun i => at_rank i (Some (Raise e)) None).
  Proof.
    induction k as [|k IH]; intros b R H; [discriminate|].
    simpl in H. destruct (draw sel (R 0)) as [[sp r1]|e1] eqn:Ed; simpl in H.
    - destruct (draw_list sel k r1) as [[sps' r2]|e1] eqn:El; simpl in H; [discriminate|].
      injection H as ->.
      set (x := fun i => if i =? 0 then (ArgNd (nd_of_nats (fst sp)), ArgNd (nd_of_nats (snd sp)), r1)
                         else (ArgNone, ArgNone, R i)).
      specialize (IH (Datatypes.S b) (fun i => snd (x i)) El).
      cbn [draw_boots]. rewrite size_gt.
      apply runs_hruns_bind with (a := x).
      { apply runs_ext with (ps := fun i => lift (Ok (x i))) (o := fun i => Ok (x i));
          [|reflexivity|apply runs_lift].
        intros i Hi. unfold x. destruct (i =? 0) eqn:Ei; [|reflexivity].
        apply Nat.eqb_eq in Ei. subst. rewrite Ed. reflexivity. }
      apply runs_hruns_bind with (a := fun _ => nd_of_nats (fst sp)).
      { apply runs_ext with (ps := fun i => Bcast_from_root env i 0 (fst (fst (x i))))
                            (o := fun _ => Ok (contiguous (nd_of_nats (fst sp)))); auto.
        apply bcast_root0_runs; [lia|reflexivity|apply wf_nd_of_nats|reflexivity|].
        intros i Hi. unfold x. destruct i; [lia|]. discriminate. }
      apply runs_hruns_bind with (a := fun _ => nd_of_nats (snd sp)).
      { apply runs_ext with (ps := fun i => Bcast_from_root env i 0 (snd (fst (x i))))
                            (o := fun _ => Ok (contiguous (nd_of_nats (snd sp)))); auto.
        apply bcast_root0_runs; [lia|reflexivity|apply wf_nd_of_nats|reflexivity|].
        intros i Hi. unfold x. destruct i; [lia|]. discriminate. }
      apply (hruns_bind_fail' n _ _ _ _ _ IH).
      + intros i a _. unfold at_rank. destruct (i =? 0); discriminate.
      + intros i _. unfold at_rank. now destruct (i =? 0).
    - injection H as ->.
      apply (doomed_hruns n 1); [lia| | | |]; try discriminate.
      + intros _. exists (Raise e). split; [|reflexivity]. cbn [draw_boots]. rewrite size_gt, Ed.
        reflexivity.
      + intros i Hi _. right. split; [|unfold at_rank; destruct i; [lia|reflexivity]].
        cbn [draw_boots]. rewrite size_gt. destruct i; [lia|].
        change (Datatypes.S i =? 0) with false. cbn [pbind lift fst snd].
        apply (doomed_bcast env (Datatypes.S i)). lia.
  Qed.

  Lemma draw_boots_fail {A} sel (keys : nat -> list nat)
      (fs : nat -> list (nat * split) * Rng -> proc A) e k b (R : nat -> Rng) :
    draw_list sel k (R 0) = Raise e ->
    hruns n (fun _ => true)
      (fun i => pbind (draw_boots env draw n i sel (keys i) b k (R i)) (fs i))
      (fun i => at_rank i (Some (Raise e)) None).
  Proof.
    intro H. apply (hruns_bind_fail' n _ _ _ _ _ (draw_boots_hang sel keys e k b R H)).
    - intros i a _. unfold at_rank. destruct (i =? 0); discriminate.
    - intros i _. unfold at_rank. now destruct (i =? 0).
  Qed.

  Variable R : nat -> Rng.
  Variable s0 : nat -> S.
  Hypothesis Hshape : forall i, shapes_ok d (sol i).

  (** ** Selection *)
  Definition sel_keys (i : nat) : list nat := map (sel_boot d n) (sel_tasks d n i).
  Definition sel_result (sps : list split) (i : nat) : result (list (list f64)) :=
    rmap snd (sel_loop d (sol i) n (own (sel_keys i) (numbered 0 sps)) (sel_tasks d n i) None (s0 i)).

  Definition row_width : nat := if many d n then n_coef d else n_reg d * n_coef d.

  Lemma sel_loop_rows i boots tasks : forall curr s x,
    sel_loop d (sol i) n boots tasks curr s = Ok x ->
    length (snd x) = length tasks /\ Forall (fun r => length r = row_width) (snd x).
  Proof.
    clear Hn. induction tasks as [|t ts IH]; intros curr s x H.
    - injection H as <-. split; [reflexivity|constructor].
    - cbn [sel_loop] in H.
      destruct (lookup (sel_boot d n t) boots) as [sp|]; simpl bind in H; [|discriminate].
      destruct (sweep (sol i) _ (sel_regs d n t) (fst sp)) as [[s' rows]|] eqn:Es;
        simpl bind in H; [|discriminate].
      destruct (store_sweep d (many d n) rows) as [row|] eqn:Est; simpl bind in H; [|discriminate].
      destruct (sel_loop d (sol i) n boots ts _ s') as [y|] eqn:El; simpl bind in H; [|discriminate].
      injection H as <-. destruct (IH _ _ _ El) as [IH1 IH2]. simpl.
      split; [now rewrite IH1|]. constructor; [|exact IH2].
      apply (Hshape i) in Es as [Hl Hf].
      unfold store_sweep in Est.
      destruct (negb (many d n) && (n_coef d =? 1) && (1 <? n_reg d)); [discriminate|].
      injection Est as <-. rewrite (concat_length_const (n_coef d)) by assumption.
      rewrite Hl. unfold sel_regs, row_width. destruct (many d n); simpl; [lia|].
      now rewrite seq_length.
  Qed.

  Lemma sel_result_rows sps i rows : sel_result sps i = Ok rows ->
    length rows = length (sel_tasks d n i) /\ Forall (fun r => length r = row_width) rows.
  Proof.
    unfold sel_result. destruct (sel_loop _ _ _ _ _ _ _) eqn:El; simpl; [|discriminate].
    intro H. injection H as <-. exact (sel_loop_rows _ _ _ _ _ _ El).
  Qed.

  (** The (boots, reg params, coefs) array given its elements in order. *)
  Definition coefs_of (flat : list f64) : coefs3 :=
    mkCoefs (n_reg d) (n_coef d)
            (map (chunks (n_coef d) (n_reg d))
                 (chunks (n_reg d * n_coef d) (n_boots_sel d) flat)).

  Definition sup_block (i : nat) (rows : list (list f64)) : proc barray :=
    if 1 <? n then
      let! g := Gatherv_rows env i 0 (ArgNd (sel_array d n rows)) in
      let! s := lift (match g with
                      | Some a => if i =? 0
                                  then rmap (fun s => ArgNd (nd_of_barray s))
                                            (intersect d (sel_coefs d n a))
                                  else Ok ArgNone
                      | None => Ok ArgNone
                      end) in
      let! s := Bcast_from_root env i 0 s in
      Done (Ok (barray_of_nd s))
    else lift (intersect d (sel_coefs d n (sel_array d n rows))).

  Definition gathered (rows : nat -> list (list f64)) : list f64 :=
    concat (concat (map rows (seq 0 n))).

  Definition rest_shape : list nat := if many d n then [n_coef d] else [n_reg d; n_coef d].

  Lemma concat_map_SFlt (f : nat -> list (list f64)) l :
    concat (map (fun i => map SFlt (concat (f i))) l) = map SFlt (concat (concat (map f l))).
  Proof.
    induction l as [|x l IH]; simpl; auto.
    now rewrite concat_app, map_app, IH.
  Qed.

  Lemma sel_array_shape rows : nd_shape (sel_array d n rows) = length rows :: rest_shape.
  Proof. reflexivity. Qed.
  Lemma sel_array_wf rows : Forall (fun r => length r = row_width) rows ->
    wf_nd (sel_array d n rows).
  Proof.
    intro H. unfold wf_nd, sel_array, nd_of_floats. simpl nd_data. simpl nd_shape.
    rewrite map_length, (concat_length_const row_width) by assumption.
    unfold row_width. destruct (many d n); simpl; lia.
  Qed.

  Lemma gathered_coefs (rows : nat -> list (list f64)) :
    (forall i, i < n -> length (rows i) = length (sel_tasks d n i)) ->
    sel_coefs d n (gather_result n rest_shape (fun i => length (rows i))
                                 (fun i => sel_array d n (rows i)))
    = coefs_of (gathered rows).
  Proof.
    intro Hl. unfold sel_coefs, gather_result. simpl nd_shape.
    assert (Ed : floats_of_nd (mkNd (sum (map (fun i => length (rows i)) (seq 0 n)) :: rest_shape)
                   (nd_dtype (sel_array d n (rows 0)))
                   (concat (map (fun i => nd_data (sel_array d n (rows i))) (seq 0 n))))
                 = gathered rows).
    { unfold floats_of_nd. simpl nd_data. rewrite concat_map_SFlt. apply map_float_flt. }
    rewrite Ed. unfold coefs_of.
    destruct (many d n) eqn:Em; [reflexivity|]. simpl hd.
    assert (Es : sum (map (fun i => length (rows i)) (seq 0 n)) = n_boots_sel d).
    { transitivity (sum (map (fun i => length (array_split_arange (n_boots_sel d) n i)) (seq 0 n))).
      - f_equal. apply map_ext_in. intros i Hi. apply in_seq in Hi.
        rewrite Hl by lia. unfold sel_tasks. rewrite Em. reflexivity.
      - apply split_lengths. lia. }
    rewrite Es. reflexivity.
  Qed.

  Lemma sup_gather (rows : nat -> list (list f64)) :
    (forall i, i < n -> length (rows i) = length (sel_tasks d n i) /\
                        Forall (fun r => length r = row_width) (rows i)) ->
    runs n (fun i => Gatherv_rows env i 0 (ArgNd (sel_array d n (rows i))))
      (fun i => Ok (if i =? 0
         then Some (gather_result n rest_shape (fun i => length (rows i))
                                  (fun i => sel_array d n (rows i)))
         else None)).
  Proof.
    intro H. apply gatherv_root0_runs.
    - lia.
    - intros i Hi. apply sel_array_shape.
    - intros i Hi. apply sel_array_wf. apply H. exact Hi.
    - reflexivity.
    - reflexivity.
  Qed.

  Lemma sup_block_ok (rows : nat -> list (list f64)) s :
    (forall i, i < n -> length (rows i) = length (sel_tasks d n i) /\
                        Forall (fun r => length r = row_width) (rows i)) ->
    intersect d (coefs_of (gathered rows)) = Ok s ->
    runs n (fun i => sup_block i (rows i)) (fun _ => Ok s).
  Proof.
    intros Hr Hs. unfold sup_block. rewrite size_gt.
    eapply runs_bind; [exact (sup_gather rows Hr)|].
    set (x := fun i => if i =? 0 then ArgNd (nd_of_barray s) else ArgNone).
    apply runs_bind with (a := x).
    { apply runs_ext with (ps := fun i => lift (Ok (x i))) (o := fun i => Ok (x i));
        [|reflexivity|apply runs_lift].
      intros i Hi. unfold x. destruct (i =? 0) eqn:Ei; [|reflexivity].
      rewrite gathered_coefs by (intros; apply Hr; assumption). rewrite Hs. reflexivity. }
    pose proof (intersect_wf _ _ _ Hs) as Hw.
    apply runs_bind with (a := fun _ => nd_of_barray s).
    { apply runs_ext with (ps := fun i => Bcast_from_root env i 0 (x i))
                          (o := fun _ => Ok (contiguous (nd_of_barray s))); auto.
      - intros i _. now rewrite contiguous_nd_of_barray.
      - apply bcast_root0_runs; [lia|reflexivity|now apply wf_nd_of_barray| |].
        + now destruct s.
        + intros i Hi. unfold x. destruct i; [lia|]. discriminate. }
    apply RunDone. intros i Hi. now rewrite barray_nd.
  Qed.

  Lemma sup_block_fail (rows : nat -> list (list f64)) e :
    (forall i, i < n -> length (rows i) = length (sel_tasks d n i) /\
                        Forall (fun r => length r = row_width) (rows i)) ->
    intersect d (coefs_of (gathered rows)) = Raise e ->
    hruns n (fun _ => true) (fun i => sup_block i (rows i))
      (fun i => at_rank i (Some (Raise e)) None).
  Proof.
    intros Hr Hs. unfold sup_block. rewrite size_gt.
    eapply runs_hruns_bind; [exact (sup_gather rows Hr)|].
    apply (doomed_hruns n 1); [lia| | | |]; try discriminate.
    - intros _. exists (Raise e). split; [|reflexivity].
      change (0 =? 0) with true. cbv iota.
      rewrite gathered_coefs by (intros; apply Hr; assumption). rewrite Hs. reflexivity.
    - intros i Hi _. right. split; [|unfold at_rank; destruct i; [lia|reflexivity]].
      destruct i; [lia|]. change (Datatypes.S i =? 0) with false. cbn [pbind lift].
      apply doomed_bcast. lia.
  Qed.

  (** Some rank raised before the gather: nobody gets through. *)
  Lemma sel_fail {A} (rs : nat -> result (list (list f64))) r0 e0
      (fs : nat -> barray -> proc A) :
    r0 < n -> rs r0 = Raise e0 ->
    hruns n (fun _ => true)
      (fun i => let! rows := lift (rs i) in pbind (sup_block i rows) (fs i))
      (fun i => failing (Some (rs i))).
  Proof.
    intros Hr0 He0.
    apply (stuck_hruns n 4 _ _ r0); [lia|exact Hr0|rewrite He0; simpl; eauto| |].
    - destruct (rs 0) as [rows|e] eqn:E0; simpl.
      + right. unfold sup_block. rewrite size_gt. unfold Gatherv_rows. simpl.
        eexists. eexists. split; reflexivity.
      + left. eauto.
    - intros i Hi. destruct (rs i) as [rows|e] eqn:Ei; simpl.
      + right. split; [|reflexivity].
        change (doomed (3 + 1) (pbind (sup_block i rows) (fs i))).
        apply doomed_bind. unfold sup_block. rewrite size_gt.
        apply (doomed_gatherv env i _ (length rows) rest_shape); [lia|reflexivity|reflexivity|].
        cbn [pbind lift]. apply doomed_bcast. lia.
      + left. eauto.
  Qed.

  (** ** Estimation *)
  Definition est_keys (ns i : nat) : list nat := map (fun t => t / ns) (est_tasks d n i ns).
  Definition est_result (sup : barray) (ns : nat) (sps : list split) (i : nat)
    : result (list (list f64 * f64)) :=
    mapM (est_task d (sol i) sup ns (own (est_keys ns i) (numbered 0 sps))) (est_tasks d n i ns).

  Lemma est_task_row i sup ns boots t x : est_task d (sol i) sup ns boots t = Ok x ->
    length (fst x) = n_coef d.
  Proof.
    unfold est_task. destruct (lookup (t / ns) boots) as [sp|]; simpl; [|discriminate].
    assert (Hnull : forall y, est_null d (sol i) sp = Ok y -> length (fst y) = n_coef d).
    { intros y. unfold est_null. destruct (null_fit (sol i) (fst sp)) as [e'|]; simpl; [|discriminate].
      destruct (null_score (sol i) e' sp); simpl; [|discriminate]. intro H. injection H as <-.
      simpl. apply repeat_length. }
    assert (Hm : forall m y, est_masked d (sol i) m sp = Ok y -> length (fst y) = n_coef d).
    { intros m y. unfold est_masked.
      destruct (est_fit (sol i) m (fst sp)) as [e'|]; simpl; [|discriminate].
      destruct (shared d).
      - destruct (assign_masked _ _ _) eqn:Ea; simpl; [|discriminate].
        destruct (score (sol i) e' m sp); simpl; [|discriminate]. intro H. injection H as <-.
        simpl. exact (assign_masked_length _ _ _ _ Ea).
      - destruct (assign_row _ _) eqn:Ea; simpl; [|discriminate].
        destruct (score (sol i) e' m sp); simpl; [|discriminate]. intro H. injection H as <-.
        simpl. exact (assign_row_length _ _ _ Ea). }
    destruct sup as [b|l|p rows].
    - discriminate.
    - destruct (nth (t mod ns) l false); [|apply Hnull].
      destruct (shared d); [discriminate|apply Hm].
    - destruct (existsb _ _); [apply Hm|apply Hnull].
  Qed.

  Lemma est_result_rows sup ns sps i out : est_result sup ns sps i = Ok out ->
    length out = length (est_tasks d n i ns) /\
    Forall (fun r => length r = n_coef d) (map fst out).
  Proof.
    intro H. split; [exact (mapM_length _ _ _ H)|].
    apply Forall_forall. intros x Hx. apply in_map_iff in Hx as (y & <- & Hy).
    pose proof (mapM_Forall _ (fun y => length (fst y) = n_coef d) _
                  (fun t y _ E => est_task_row i _ _ _ t y E) _ H) as F.
    rewrite Forall_forall in F. now apply F.
  Qed.

  Definition z_block (i ns ntasks : nat) (out : list (list f64 * f64))
    : proc (nd * nd * nd * nd * nd) :=
    if 1 <? n then
      let! ge := Gatherv_rows env i 0
                   (ArgNd (nd_of_floats [ntasks; n_coef d] (concat (map fst out)))) in
      let! gs := Gatherv_rows env i 0 (ArgNd (nd_of_floats [ntasks] (map snd out))) in
      let! r := lift (match ge, gs with
                      | Some ae, Some as_ =>
                          if i =? 0
                          then rmap Some (finish d (sol i) ns (floats_of_nd ae) (floats_of_nd as_))
                          else Ok None
                      | _, _ => Ok None
                      end) in
      let arg f := match r with Some v => ArgNd (f v) | None => ArgNone end in
      let! ests := Bcast_from_root env i 0 (arg (fun v => fst (fst (fst (fst v))))) in
      let! scs := Bcast_from_root env i 0 (arg (fun v => snd (fst (fst (fst v))))) in
      let! coef := Bcast_from_root env i 0 (arg (fun v => snd (fst v))) in
      let! ic := Bcast_from_root env i 0 (arg (fun v => snd v)) in
      let! rp := bcast_obj 0 (match r with
                              | Some v => ONd (snd (fst (fst v)))
                              | None => ONone end) in
      let! rp := lift (match rp with ONd a => Ok a | _ => Raise TypeError end) in
      Done (Ok (ests, scs, rp, coef, ic))
    else lift (finish d (sol i) ns (concat (map fst out)) (map snd out)).

  Definition all_estimates (outs : nat -> list (list f64 * f64)) : list f64 :=
    concat (map fst (concat (map outs (seq 0 n)))).
  Definition all_scores (outs : nat -> list (list f64 * f64)) : list f64 :=
    map snd (concat (map outs (seq 0 n))).

  Lemma finish_shapes i ns est sc x : finish d (sol i) ns est sc = Ok x ->
    length est = n_boots_est d * (ns * n_coef d) -> length sc = n_boots_est d * ns ->
    wf_nd (fst (fst (fst (fst x)))) /\ wf_nd (snd (fst (fst (fst x)))) /\
    wf_nd (snd (fst x)) /\ wf_nd (snd x) /\ np2mpi (nd_dtype (snd x)) = true /\
    contiguous (fst (fst (fst (fst x)))) = fst (fst (fst (fst x))) /\
    contiguous (snd (fst (fst (fst x)))) = snd (fst (fst (fst x))) /\
    contiguous (snd (fst x)) = snd (fst x) /\ contiguous (snd x) = snd x /\
    nd_dtype (fst (fst (fst (fst x)))) = Float64 /\
    nd_dtype (snd (fst (fst (fst x)))) = Float64 /\ nd_dtype (snd (fst x)) = Float64.
  Proof.
    unfold finish. destruct (mapM np_argmax (chunks ns (n_boots_est d) sc)) as [rp|]; simpl;
      [|discriminate].
    match goal with |- context [fit_int (sol i) ?c] => set (cf := c) end.
    destruct (fit_int (sol i) cf) as [ic|] eqn:Ei; simpl; [|discriminate].
    intros H Hl1 Hl2. injection H as <-. simpl.
    apply (Hshape i) in Ei as (W & D & Sh).
    assert (C : contiguous ic = ic).
    { unfold contiguous. destruct (nd_shape ic); [congruence|reflexivity]. }
    unfold wf_nd, nd_of_floats, contiguous. simpl.
    rewrite !map_length. unfold cf. rewrite map_length, seq_length.
    repeat split; auto; unfold n_coef in *; lia.
  Qed.

  Lemma est_gather (outs : nat -> list (list f64 * f64)) ns :
    (forall i, i < n -> length (outs i) = length (est_tasks d n i ns) /\
       Forall (fun r => length r = n_coef d) (map fst (outs i))) ->
    runs n (fun i => Gatherv_rows env i 0
              (ArgNd (nd_of_floats [length (est_tasks d n i ns); n_coef d] (concat (map fst (outs i))))))
      (fun i => Ok (if i =? 0
         then Some (mkNd [n_boots_est d * ns; n_coef d] Float64 (map SFlt (all_estimates outs)))
         else None)).
  Proof.
    intro H.
    pose proof (gatherv_root0_runs env n
      (fun i => nd_of_floats [length (est_tasks d n i ns); n_coef d] (concat (map fst (outs i))))
      [n_coef d] (fun i => length (est_tasks d n i ns))) as G.
    eapply runs_ext; [| |apply G]; auto; try lia.
    - intros i Hi. cbv beta. destruct (i =? 0); [|reflexivity]. f_equal. f_equal.
      unfold gather_result. simpl nd_dtype. f_equal.
      + f_equal. apply split_lengths. lia.
      + unfold nd_of_floats. simpl nd_data.
        rewrite (concat_map_SFlt (fun i => map fst (outs i))). unfold all_estimates.
        f_equal. f_equal. rewrite concat_map, map_map. reflexivity.
    - intros i Hi. destruct (H i Hi) as [H1 H2]. unfold wf_nd, nd_of_floats. simpl.
      rewrite map_length, (concat_length_const (n_coef d)) by assumption.
      rewrite map_length. lia.
  Qed.

  Lemma score_gather (outs : nat -> list (list f64 * f64)) ns :
    (forall i, i < n -> length (outs i) = length (est_tasks d n i ns)) ->
    runs n (fun i => Gatherv_rows env i 0
              (ArgNd (nd_of_floats [length (est_tasks d n i ns)] (map snd (outs i)))))
      (fun i => Ok (if i =? 0
         then Some (mkNd [n_boots_est d * ns] Float64 (map SFlt (all_scores outs)))
         else None)).
  Proof.
    intro H.
    pose proof (gatherv_root0_runs env n
      (fun i => nd_of_floats [length (est_tasks d n i ns)] (map snd (outs i)))
      [] (fun i => length (est_tasks d n i ns))) as G.
    eapply runs_ext; [| |apply G]; auto; try lia.
    - intros i Hi. cbv beta. destruct (i =? 0); [|reflexivity]. f_equal. f_equal.
      unfold gather_result. simpl nd_dtype. f_equal.
      + f_equal. apply split_lengths. lia.
      + unfold nd_of_floats. simpl nd_data. unfold all_scores.
        rewrite map_map. rewrite concat_map, map_map. f_equal. apply map_ext. intro j.
        now rewrite map_map.
    - intros i Hi. unfold wf_nd, nd_of_floats. simpl. rewrite !map_length. rewrite H by assumption. lia.
  Qed.

  Lemma all_lengths (outs : nat -> list (list f64 * f64)) ns :
    (forall i, i < n -> length (outs i) = length (est_tasks d n i ns) /\
       Forall (fun r => length r = n_coef d) (map fst (outs i))) ->
    length (all_estimates outs) = n_boots_est d * (ns * n_coef d) /\
    length (all_scores outs) = n_boots_est d * ns.
  Proof.
    intro H.
    assert (El : length (concat (map outs (seq 0 n))) = n_boots_est d * ns).
    { rewrite <- sum_lengths, map_map.
      transitivity (sum (map (fun i => length (array_split_arange (n_boots_est d * ns) n i)) (seq 0 n))).
      - f_equal. apply map_ext_in. intros i Hi. apply in_seq in Hi. apply H. lia.
      - apply split_lengths. lia. }
    unfold all_estimates, all_scores. split.
    - rewrite (concat_length_const (n_coef d)).
      + rewrite map_length, El. lia.
      + apply Forall_forall. intros x Hx. apply in_map_iff in Hx as (y & <- & Hy).
        apply in_concat in Hy as (l & Hl & Hy). apply in_map_iff in Hl as (i & <- & Hi).
        apply in_seq in Hi. destruct (H i) as [_ F]; [lia|]. rewrite Forall_forall in F.
        apply F. now apply in_map.
    - now rewrite map_length.
  Qed.

  Lemma z_block_ok (outs : nat -> list (list f64 * f64)) ns x :
    (forall i, i < n -> length (outs i) = length (est_tasks d n i ns) /\
       Forall (fun r => length r = n_coef d) (map fst (outs i))) ->
    finish d (sol 0) ns (all_estimates outs) (all_scores outs) = Ok x ->
    runs n (fun i => z_block i ns (length (est_tasks d n i ns)) (outs i)) (fun _ => Ok x).
  Proof.
    intros Ho Hf. unfold z_block. rewrite size_gt.
    destruct (all_lengths outs ns Ho) as [L1 L2].
    pose proof (finish_shapes 0 ns _ _ x Hf L1 L2) as (W1 & W2 & W3 & W4 & D4 & C1 & C2 & C3 & C4 & T1 & T2 & T3).
    eapply runs_bind; [exact (est_gather outs ns Ho)|].
    eapply runs_bind; [exact (score_gather outs ns (fun i Hi => proj1 (Ho i Hi)))|].
    set (r := fun i => if i =? 0 then Some x else None).
    apply runs_bind with (a := r).
    { apply runs_ext with (ps := fun i => lift (Ok (r i))) (o := fun i => Ok (r i));
        [|reflexivity|apply runs_lift].
      intros i Hi. unfold r. destruct (i =? 0) eqn:Ei; [|reflexivity].
      apply Nat.eqb_eq in Ei. subst i. simpl floats_of_nd.
      unfold floats_of_nd. simpl nd_data. rewrite !map_float_flt, Hf. reflexivity. }
    assert (B : forall f : (nd * nd * nd * nd * nd) -> nd,
      wf_nd (f x) -> np2mpi (nd_dtype (f x)) = true -> contiguous (f x) = f x ->
      runs n (fun i => Bcast_from_root env i 0 (match r i with Some v => ArgNd (f v) | None => ArgNone end))
             (fun _ => Ok (f x))).
    { intros f Wf Df Cf.
      eapply runs_ext; [| |apply (bcast_root0_runs env n
        (fun i => match r i with Some v => ArgNd (f v) | None => ArgNone end) (f x))]; auto; try lia.
      - intros i _. now rewrite Cf.
      - intros i Hi. unfold r. destruct i; [lia|]. discriminate. }
    eapply runs_bind; [exact (B (fun v => fst (fst (fst (fst v)))) W1 ltac:(cbv beta; rewrite T1; reflexivity) C1)|].
    eapply runs_bind; [exact (B (fun v => snd (fst (fst (fst v)))) W2 ltac:(cbv beta; rewrite T2; reflexivity) C2)|].
    eapply runs_bind; [exact (B (fun v => snd (fst v)) W3 ltac:(cbv beta; rewrite T3; reflexivity) C3)|].
    eapply runs_bind; [exact (B (fun v => snd v) W4 D4 C4)|].
    eapply runs_bind; [apply (runs_bcast_obj n 0 (fun i => match r i with
                              | Some v => ONd (snd (fst (fst v)))
                              | None => ONone end)); lia|].
    apply RunDone. intros i Hi. cbn. destruct x as [[[[a b] c] e] f]. reflexivity.
  Qed.

  Lemma z_block_fail (outs : nat -> list (list f64 * f64)) ns e :
    (forall i, i < n -> length (outs i) = length (est_tasks d n i ns) /\
       Forall (fun r => length r = n_coef d) (map fst (outs i))) ->
    finish d (sol 0) ns (all_estimates outs) (all_scores outs) = Raise e ->
    hruns n (fun _ => true) (fun i => z_block i ns (length (est_tasks d n i ns)) (outs i))
      (fun i => at_rank i (Some (Raise e)) None).
  Proof.
    intros Ho Hf. unfold z_block. rewrite size_gt.
    eapply runs_hruns_bind; [exact (est_gather outs ns Ho)|].
    eapply runs_hruns_bind; [exact (score_gather outs ns (fun i Hi => proj1 (Ho i Hi)))|].
    apply (doomed_hruns n 1); [lia| | | |]; try discriminate.
    - intros _. exists (Raise e). split; [|reflexivity].
      change (0 =? 0) with true. cbv iota. unfold floats_of_nd. simpl nd_data.
      rewrite !map_float_flt, Hf. reflexivity.
    - intros i Hi _. right. split; [|unfold at_rank; destruct i; [lia|reflexivity]].
      destruct i; [lia|]. change (Datatypes.S i =? 0) with false. cbn [pbind lift].
      apply doomed_bcast. lia.
  Qed.

  Lemma est_fail {A} (rs : nat -> result (list (list f64 * f64))) ns nt r0 e0
      (fs : nat -> (nd * nd * nd * nd * nd) -> proc A) :
    r0 < n -> rs r0 = Raise e0 ->
    hruns n (fun _ => true)
      (fun i => let! out := lift (rs i) in pbind (z_block i ns (nt i) out) (fs i))
      (fun i => failing (Some (rs i))).
  Proof.
    intros Hr0 He0.
    apply (stuck_hruns n 7 _ _ r0); [lia|exact Hr0|rewrite He0; simpl; eauto| |].
    - destruct (rs 0) as [out|e] eqn:E0; simpl.
      + right. unfold z_block. rewrite size_gt. unfold Gatherv_rows. simpl.
        eexists. eexists. split; reflexivity.
      + left. eauto.
    - intros i Hi. destruct (rs i) as [out|e] eqn:Ei; simpl.
      + right. split; [|reflexivity].
        change (doomed (3 + (3 + 1)) (pbind (z_block i ns (nt i) out) (fs i))).
        apply doomed_bind. unfold z_block. rewrite size_gt.
        apply (doomed_gatherv env i _ (nt i) [n_coef d]); [lia|reflexivity|reflexivity|].
        apply (doomed_gatherv env i _ (nt i) []); [lia|reflexivity|reflexivity|].
        cbn [pbind lift]. apply doomed_bcast. lia.
      + left. eauto.
  Qed.

  (** ** The whole program *)
  Definition est_part (i : nat) (sup : barray) (rng : Rng) : proc fitted :=
    let! ns := lift (n_supports sup) in
    let! y := draw_boots env draw n i false (est_keys ns i) 0 (n_boots_est d) rng in
    let! out := lift (mapM (est_task d (sol i) sup ns (fst y)) (est_tasks d n i ns)) in
    let! z := z_block i ns (length (est_tasks d n i ns)) out in
    let '(ests, scs, rp, coef, ic) := z in
    let! w := lift (post coef ic) in
    Done (Ok (mkFitted (Some (mkSelected sup ests scs rp)) (fst w) (snd w))).

  Lemma fit_body_eq i :
    fit_body env d (sol i) draw post n i (R i) (s0 i) =
    (let! x := draw_boots env draw n i true (sel_keys i) 0 (n_boots_sel d) (R i) in
     let! rows := lift (rmap snd (sel_loop d (sol i) n (fst x) (sel_tasks d n i) None (s0 i))) in
     let! sup := sup_block i rows in
     est_part i sup (snd x)).
  Proof. reflexivity. Qed.

  Definition fit_at (i : nat) : proc fitted := fit_body env d (sol i) draw post n i (R i) (s0 i).

  (** The outcome on rank [i]: [None] means that the rank never returns. *)
  Definition package (sup : barray) (x : nd * nd * nd * nd * nd) : result fitted :=
    let '(ests, scs, rp, coef, ic) := x in
    rmap (fun w => mkFitted (Some (mkSelected sup ests scs rp)) (fst w) (snd w)) (post coef ic).

  Definition ok_or {T} (x : T) (r : result T) : T := match r with Ok v => v | Raise _ => x end.
  Definition all_ok {T} (rs : nat -> result T) : bool :=
    forallb (fun i => is_ok (rs i)) (seq 0 n).

  Definition outcome (i : nat) : option (result fitted) :=
    match draw_list true (n_boots_sel d) (R 0) with
    | Raise e => at_rank i (Some (Raise e)) None
    | Ok (sps, r1) =>
        if all_ok (sel_result sps) then
          match intersect d (coefs_of (gathered (fun i => ok_or [] (sel_result sps i)))) with
          | Raise e => at_rank i (Some (Raise e)) None
          | Ok sup =>
              match n_supports sup with
              | Raise e => Some (Raise e)
              | Ok ns =>
                  match draw_list false (n_boots_est d) r1 with
                  | Raise e => at_rank i (Some (Raise e)) None
                  | Ok (sps2, _) =>
                      if all_ok (est_result sup ns sps2) then
                        let outs := fun i => ok_or [] (est_result sup ns sps2 i) in
                        match finish d (sol 0) ns (all_estimates outs) (all_scores outs) with
                        | Raise e => at_rank i (Some (Raise e)) None
                        | Ok x => Some (package sup x)
                        end
                      else failing (Some (est_result sup ns sps2 i))
                  end
              end
          end
        else failing (Some (sel_result sps i))
    end.

  Lemma all_ok_true {T} (rs : nat -> result T) (x : T) : all_ok rs = true ->
    forall i, i < n -> rs i = Ok (ok_or x (rs i)).
  Proof.
    unfold all_ok. intros H i Hi. rewrite forallb_forall in H.
    specialize (H i). destruct (rs i); [reflexivity|].
    discriminate H. apply in_seq. lia.
  Qed.
  Lemma all_ok_false {T} (rs : nat -> result T) : all_ok rs = false ->
    exists i e, i < n /\ rs i = Raise e.
  Proof.
    unfold all_ok. intro H.
    assert (G : forall l, forallb (fun i => is_ok (rs i)) l = false ->
              exists i e, In i l /\ rs i = Raise e).
    { induction l as [|j l IH]; simpl; [discriminate|].
      destruct (rs j) eqn:Ej; simpl; intro Hf.
      - destruct (IH Hf) as (i & e & Hi & He). eauto.
      - eauto. }
    destruct (G _ H) as (i & e & Hi & He). apply in_seq in Hi. exists i, e. split; [lia|exact He].
  Qed.

  Theorem fit_outcome : hruns n (fun _ => true) fit_at outcome.
  Proof.
    apply (hruns_ext n (fun _ => true) (fun _ => true)
      (fun i => let! x := draw_boots env draw n i true (sel_keys i) 0 (n_boots_sel d) (R i) in
       let! rows := lift (rmap snd (sel_loop d (sol i) n (fst x) (sel_tasks d n i) None (s0 i))) in
       let! sup := sup_block i rows in
       est_part i sup (snd x)) _ outcome); auto.
    unfold outcome.
    destruct (draw_list true (n_boots_sel d) (R 0)) as [[sps r1]|e] eqn:Ed.
    2: { apply draw_boots_fail. exact Ed. }
    eapply runs_hruns_bind; [exact (draw_boots_runs true sel_keys _ 0 R sps r1 Ed)|].
    destruct (all_ok (sel_result sps)) eqn:Es.
    2: { destruct (all_ok_false _ Es) as (r0 & e0 & Hr0 & He0).
         apply (sel_fail (sel_result sps) r0 e0); assumption. }
    pose proof (all_ok_true _ [] Es) as Hs.
    set (rows := fun i => ok_or [] (sel_result sps i)) in *.
    assert (Hr : forall i, i < n -> length (rows i) = length (sel_tasks d n i) /\
                        Forall (fun r => length r = row_width) (rows i)).
    { intros i Hi. apply (sel_result_rows sps). now apply Hs. }
    apply runs_hruns_bind with (a := rows).
    { apply runs_ext with (ps := fun i => lift (sel_result sps i)) (o := sel_result sps);
        [reflexivity|exact Hs|apply runs_lift]. }
    destruct (intersect d (coefs_of (gathered rows))) as [sup|e] eqn:Ei.
    2: { apply (hruns_bind_fail' n _ _ _ _ _ (sup_block_fail rows e Hr Ei)).
         - intros i a _. unfold at_rank. destruct (i =? 0); discriminate.
         - intros i _. unfold at_rank. now destruct (i =? 0). }
    eapply runs_hruns_bind; [exact (sup_block_ok rows sup Hr Ei)|].
    unfold est_part.
    destruct (intersect_n_supports _ _ _ Ei) as (ns & Ens). rewrite Ens.
    apply runs_hruns_bind with (a := fun _ => ns); [apply runs_lift|].
    destruct (draw_list false (n_boots_est d) r1) as [[sps2 r2]|e] eqn:Ed2.
    2: { apply (draw_boots_fail false (est_keys ns)). exact Ed2. }
    eapply runs_hruns_bind.
    { apply (draw_boots_runs false (est_keys ns) _ 0 (fun i => at_rank i r1 (R i)) sps2 r2). exact Ed2. }
    destruct (all_ok (est_result sup ns sps2)) eqn:Ee.
    2: { destruct (all_ok_false _ Ee) as (r0 & e0 & Hr0 & He0).
         apply (est_fail (est_result sup ns sps2) ns (fun i => length (est_tasks d n i ns)) r0 e0);
           assumption. }
    pose proof (all_ok_true _ [] Ee) as Hs2.
    set (outs := fun i => ok_or [] (est_result sup ns sps2 i)) in *.
    assert (Ho : forall i, i < n -> length (outs i) = length (est_tasks d n i ns) /\
       Forall (fun r => length r = n_coef d) (map fst (outs i))).
    { intros i Hi. apply (est_result_rows sup ns sps2). now apply Hs2. }
    apply runs_hruns_bind with (a := outs).
    { apply runs_ext with (ps := fun i => lift (est_result sup ns sps2 i)) (o := est_result sup ns sps2);
        [reflexivity|exact Hs2|apply runs_lift]. }
    cbv zeta.
    destruct (finish d (sol 0) ns (all_estimates outs) (all_scores outs)) as [x|e] eqn:Ef.
    2: { apply (hruns_bind_fail' n _ _ _ _ _ (z_block_fail outs ns e Ho Ef)).
         - intros i a _. unfold at_rank. destruct (i =? 0); discriminate.
         - intros i _. unfold at_rank. now destruct (i =? 0). }
    eapply runs_hruns_bind; [exact (z_block_ok outs ns x Ho Ef)|].
    apply hruns_runs with (o := fun _ => package sup x).
    apply RunDone. intros i Hi. destruct x as [[[[a b] c] dd] f]. unfold package, lift.
    destruct (post dd f); reflexivity.
  Qed.
  End Dist.
End Runs.
