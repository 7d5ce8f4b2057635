(** The properties of [fit]: proofs for C04, C16-C25 and C27. *)
From Coq Require Import ZArith List Bool Arith Lia Sorting.Permutation Floats.SpecFloat.
From Verif Require Import Prelude F64 F64Order Model_Intersection Spec_Intersection Proofs_Intersection
  Model_Mpi Spec_Mpi Proofs_MpiSem Proofs_Mpi Model_Fit Spec_Fit Proofs_FitMpi Proofs_FitRuns
  Proofs_FitSerial Proofs_Fit.
Import ListNotations.

(** * Masks *)
Lemma scatter_nonzero mask : forall v k, k < length mask ->
  nonzero64 (nth k (scatter mask v) fnan) = true -> nth k mask false = true.
Proof.
  induction mask as [|[] mask IH]; intros v k Hk H; simpl in Hk; [lia| |].
  - destruct v as [|x v]; destruct k; simpl in *; auto; try (eapply IH; [lia|exact H]).
  - destruct k; simpl in *; [discriminate|]. eapply IH; [lia|exact H].
Qed.
Lemma concat_repeat_length {A} (m : list A) j : length (concat (repeat m j)) = j * length m.
Proof. induction j; simpl; auto. rewrite app_length. lia. Qed.
Lemma concat_repeat_nth {A} (m : list A) j dd : forall k, k < j * length m ->
  nth k (concat (repeat m j)) dd = nth (k mod length m) m dd.
Proof.
  induction j as [|j IH]; simpl; intros k Hk; [lia|].
  destruct (Nat.lt_ge_cases k (length m)).
  - rewrite app_nth1 by assumption. now rewrite Nat.mod_small.
  - rewrite app_nth2 by assumption. rewrite IH by lia. f_equal.
    replace k with (k - length m + 1 * length m) at 2 by lia.
    rewrite Nat.mod_add by lia. reflexivity.
Qed.

Section Task.
  Context {S E : Type}.
  Variable d : dims.
  Variable sol : solver S E.
  Hypothesis Hmask : shared d = true \/ respects_mask d sol.

  Lemma est_masked_support mask sp row sc : est_masked d sol mask sp = Ok (row, sc) ->
    length row = n_coef d /\
    forall k, k < n_coef d -> nonzero64 (nth k row fnan) = true -> covers d mask k = true.
  Proof.
    unfold est_masked. destruct (est_fit sol mask (fst sp)) as [e|] eqn:Ee; cbn [bind]; [|discriminate].
    unfold covers. destruct (shared d) eqn:Es.
    - destruct (assign_masked _ _ _) as [r|] eqn:Ea; cbn [bind]; [|discriminate].
      destruct (score sol e mask sp); cbn [bind]; [|discriminate]. intro H. injection H as <- <-.
      pose proof (assign_masked_length _ _ _ _ Ea) as Hl. split; [exact Hl|].
      intros k Hk Hnz. unfold assign_masked in Ea.
      destruct (length (concat (repeat mask (out_dim d))) =? n_coef d) eqn:El; simpl in Ea; [|discriminate].
      apply Nat.eqb_eq in El. rewrite concat_repeat_length in El.
      assert (Hm : nth k (concat (repeat mask (out_dim d))) false = true).
      { assert (Hk' : k < length (concat (repeat mask (out_dim d)))) by (rewrite concat_repeat_length; lia).
        destruct (_ =? count _ _); [injection Ea as <-; eapply scatter_nonzero; eauto|].
        destruct (_ =? 1); [injection Ea as <-; eapply scatter_nonzero; eauto|discriminate]. }
      rewrite concat_repeat_nth in Hm by lia.
      assert (length mask = n_feat d); [|congruence].
      unfold n_coef in El, Hk. assert (out_dim d <> 0) by (intro Z; rewrite Z in Hk; lia).
      apply (Nat.mul_cancel_l _ _ (out_dim d)); lia.
    - destruct (assign_row _ _) as [r|] eqn:Ea; cbn [bind]; [|discriminate].
      destruct (score sol e mask sp); cbn [bind]; [|discriminate]. intro H. injection H as <- <-.
      pose proof (assign_row_length _ _ _ Ea) as Hl. split; [exact Hl|].
      intros k Hk Hnz. destruct Hmask as [|Hm]; [discriminate|].
      destruct (Hm _ _ _ Ee) as [Hlen Hz]. unfold assign_row in Ea.
      rewrite Hlen, Nat.eqb_refl in Ea. injection Ea as <-.
      destruct (nth k mask false) eqn:En; auto.
      rewrite nth_indep with (d' := fzero) in Hnz by lia. rewrite Hz in Hnz by assumption. discriminate.
  Qed.

  Lemma est_null_zero sp row sc : est_null d sol sp = Ok (row, sc) -> row = repeat fzero (n_coef d).
  Proof.
    unfold est_null. destruct (null_fit sol (fst sp)) as [e|]; cbn [bind]; [|discriminate].
    destruct (null_score sol e sp); cbn [bind]; [|discriminate]. congruence.
  Qed.

  Lemma zero_nth k m : nonzero64 (nth k (repeat fzero m) fnan) = true -> ~ k < m.
  Proof.
    intros H Hk. assert (E0 : nth k (repeat fzero m) fnan = fzero).
    { rewrite nth_indep with (d' := fzero) by now rewrite repeat_length. apply nth_repeat. }
    rewrite E0 in H. discriminate.
  Qed.

  Lemma est_task_support sup ns boots t row sc : est_task d sol sup ns boots t = Ok (row, sc) ->
    forall k, k < n_coef d -> nonzero64 (nth k row fnan) = true ->
    match sup with
    | Arr2 _ rows => covers d (nth (t mod ns) rows []) k = true
    | _ => shared d = false
    end.
  Proof.
    unfold est_task. destruct (lookup (t / ns) boots) as [sp|]; cbn [bind]; [|discriminate].
    intros H k Hk Hnz. destruct sup as [b|l|p rows]; [discriminate| |].
    - destruct (nth (t mod ns) l false).
      + destruct (shared d); [discriminate|reflexivity].
      + apply est_null_zero in H. subst row. exfalso. eapply zero_nth; eauto.
    - destruct (existsb (fun b => b) (nth (t mod ns) rows [])).
      + apply est_masked_support in H as [_ H]. auto.
      + apply est_null_zero in H. subst row. exfalso. eapply zero_nth; eauto.
  Qed.
End Task.

(** Rows of the support array were stably selected. *)
Lemma covers_stable {S E} d (sol : nat -> solver S E) n sps c p rows mask k :
  2 <= length (thresholds d) * n_reg d -> 2 <= n_coef d ->
  selection_coefs d sol n sps c -> intersect d c = Ok (Arr2 p rows) ->
  In mask rows -> (shared d = true -> length mask * out_dim d = n_coef d) ->
  k < n_coef d -> covers d mask k = true -> stably_selected d c k.
Proof.
  intros H1 H2 (Hc1 & Hc2 & Hc3 & _) Hi Hin Hlen Hk Hcov.
  unfold stably_selected. rewrite <- Hc3. unfold covers in Hcov.
  assert (Hod : out_dim d <> 0) by (intro Z; unfold n_coef in Hk; rewrite Z in Hk; lia).
  assert (Plain : intersection c (Some (thresholds d)) = Ok (Arr2 p rows) ->
            exists t r k', In t (thresholds d) /\ r < n_reg d /\ k' < n_coef d /\
              k' mod n_feat d = k mod n_feat d /\ (shared d = false \/ out_dim d <= 1 -> k' = k) /\
              (t <= Z.of_nat (times_selected c r k'))%Z).
  { intro Hx.
    destruct (intersection_exact c (thresholds d)) as (rows' & Er & Hm & _);
      [rewrite Hc1; exact H1|rewrite Hc2; exact H2|].
    rewrite Hx in Er. injection Er as _ <-.
    apply Hm in Hin as (t & r & Ht & Hr & Hsl & Hs). rewrite Hc1 in Hr.
    exists t, r, k. rewrite Hc2 in Hsl, Hs.
    assert (Ek : (if shared d then k mod n_feat d else k) = k).
    { destruct (shared d); auto. apply Nat.mod_small.
      specialize (Hlen eq_refl). rewrite Hsl in Hlen. unfold n_coef in *. nia. }
    rewrite Ek in Hcov. apply Hs in Hcov; [|exact Hk]. auto 6. }
  unfold intersect in Hi. destruct (glm d); [|apply Plain; exact Hi].
  destruct (Bool.bool_dec ((1 <? out_dim d) && shared d) true) as [Em|Em].
  - apply andb_true_iff in Em as [Em1 Em2]. apply Nat.ltb_lt in Em1. rewrite Em2 in Hi, Hcov.
    assert (Hnf : 1 <= n_feat d) by (unfold n_coef in Hk; nia).
    destruct (glm_shared_exact c (thresholds d) (out_dim d) (n_feat d)) as (rows' & Er & Hm & _);
      [lia|exact Hnf|rewrite Hc2; unfold n_coef; lia|rewrite Hc1; exact H1|].
    rewrite Hi in Er. injection Er as _ <-.
    apply Hm in Hin as (Hml & t & r & Ht & Hr & Hs). rewrite Hc1 in Hr.
    apply Hs in Hcov as (q & Hq & Hle); [|apply Nat.mod_upper_bound; lia].
    exists t, r, (q * n_feat d + k mod n_feat d). split; [exact Ht|]. split; [exact Hr|].
    split; [|split; [|split; [|exact Hle]]].
    + unfold n_coef. rewrite (Nat.mul_comm (n_feat d)). apply flat_lt; [exact Hq|].
      apply Nat.mod_upper_bound. lia.
    + rewrite Nat.add_comm, Nat.mod_add, Nat.mod_mod by lia. reflexivity.
    + intros [Z|Z]; [congruence|lia].
  - apply not_true_is_false in Em. apply Plain. rewrite <- Hi. symmetry. apply glm_unshared.
    apply andb_false_iff in Em as [Em|Em]; [left; apply Nat.ltb_ge; exact Em|right; exact Em].
Qed.

Section Props.
  Context {S E Rng : Type}.
  Variable env : np_env.
  Variable d : dims.
  Variable sol : nat -> solver S E.
  Variable draw : bool -> Rng -> result (split * Rng).
  Variable post : nd -> nd -> result (nd * nd).
  Hypothesis Hnb : 1 <= n_boots_sel d.
  Hypothesis Hshape : forall i, shapes_ok d (sol i).

  Lemma draw_list_drawn sel k : forall r sps r', draw_list draw sel k r = Ok (sps, r') ->
    drawn draw sel r sps r'.
  Proof.
    induction k as [|k IH]; simpl; intros r sps r' H.
    - injection H as <- <-. constructor.
    - destruct (draw sel r) as [[sp r1]|] eqn:Ed; cbn [bind] in H; [|discriminate].
      destruct (draw_list draw sel k (snd (sp, r1))) as [[sps' r2]|] eqn:El; cbn [bind] in H; [|discriminate].
      injection H as <- <-. econstructor; eauto.
  Qed.

  Lemma est_outs_length n sup ns sps outs :
    Forall2 (est_prov d sol n sup ns sps) (seq 0 (n_boots_est d * ns)) outs ->
    Forall (fun o => length (fst o) = n_coef d) outs /\ length outs = n_boots_est d * ns.
  Proof.
    intro H. split.
    - apply Forall_forall. intros o Ho. apply (In_nth _ _ ([], fnan)) in Ho as (t & Ht & <-).
      rewrite (Forall2_length' _ _ _ H) in Ht.
      destruct (Forall2_nth _ _ _ 0 ([], fnan) H t Ht) as (i & boots & _ & _ & _ & He).
      exact (est_task_row d sol i _ _ _ _ _ He).
    - rewrite (Forall2_length' _ _ _ H). apply seq_length.
  Qed.

  (** ** C22-C24 *)
  Definition selection_step n (R : nat -> Rng) (F : fitted) (sel : selected) (ns : nat)
      (coef : list f64) (ic : nd) : Prop :=
    f_sel F = Some sel /\
    nd_shape (s_estimates sel) = [n_boots_est d; ns; n_coef d] /\
    nd_shape (s_scores sel) = [n_boots_est d; ns] /\
    nd_shape (s_rp_max_idx sel) = [n_boots_est d] /\
    (forall b, b < n_boots_est d ->
       np_argmax (map (at2 (s_scores sel) b) (seq 0 ns)) = Ok (index_at (s_rp_max_idx sel) b)) /\
    length coef = n_coef d /\
    (forall k, k < n_coef d -> nth k coef fzero
       = np_median (map (fun b => at3 (s_estimates sel) b (index_at (s_rp_max_idx sel) b) k)
                        (seq 0 (n_boots_est d)))) /\
    fit_int (sol 0) coef = Ok ic /\
    post (nd_of_floats [out_dim d; n_feat d] coef) ic = Ok (f_coef F, f_intercept F) /\
    exists sps r1 c sps2 r2,
      drawn draw true (R 0) sps r1 /\ drawn draw false r1 sps2 r2 /\
      length sps = n_boots_sel d /\
      selection_coefs d sol n sps c /\
      intersect d c = Ok (s_supports sel) /\ n_supports (s_supports sel) = Ok ns /\
      forall b j, b < n_boots_est d -> j < ns -> exists i boots row,
        i < n /\ lookup b boots = Ok (nth b sps2 ([], [])) /\
        est_task d (sol i) (s_supports sel) ns boots (b * ns + j) = Ok (row, at2 (s_scores sel) b j) /\
        forall k, k < n_coef d -> at3 (s_estimates sel) b j k = nth k row fnan.

  Lemma returned_step n R s0 F : returned env d sol draw post n false R s0 F ->
    exists sel ns coef ic, selection_step n R F sel ns coef ic.
  Proof.
    intro H.
    assert (Hloop : loops_give d sol n s0 (sel_prov d sol n)).
    { intros sps keys i x Hi _ _ Hx. exact (sel_loop_prov d sol n i keys sps _ Hi _ _ _ Hx). }
    assert (Hn : 1 <= n) by (destruct H as (? & ? & ? & i & Hi & _); lia).
    apply (facts_returned env d sol draw post Hnb Hshape n R s0 _ F Hloop) in H.
    destruct H as (sps & r1 & allrows & sup & ns & sps2 & r2 & outs & x & Hd1 & Hall & Hi & Hns & Hd2 & Ho & Hfin & Hp).
    pose proof (all_prov_coefs d sol Hnb Hshape n sps allrows Hn Hall) as Hc.
    set (c := coefs_of d (concat allrows)) in *.
    destruct (est_outs_length _ _ _ _ _ Ho) as [Hf Hl].
    destruct (finish_facts _ _ _ _ _ Hf Hl Hfin)
      as (ests & scs & rp & coef & ic & -> & S1 & S2 & S3 & A3 & A2 & Am & Lc & Cm & Fi).
    unfold package in Hp. destruct (post _ ic) as [[c' ic']|] eqn:Epost; [|discriminate].
    simpl in Hp. injection Hp as <-.
    exists (mkSelected sup ests scs rp), ns, coef, ic. unfold selection_step. simpl.
    split; [reflexivity|]. split; [exact S1|]. split; [exact S2|]. split; [exact S3|].
    split; [exact Am|]. split; [exact Lc|]. split; [exact Cm|]. split; [exact Fi|].
    split; [exact Epost|].
    exists sps, r1, c, sps2, r2. split; [exact (draw_list_drawn _ _ _ _ _ Hd1)|].
    split; [exact (draw_list_drawn _ _ _ _ _ Hd2)|].
    split; [exact (draw_list_length _ _ _ _ _ Hd1)|].
    split; [exact Hc|]. split; [exact Hi|]. split; [exact Hns|].
    intros b j Hb Hj. pose proof (flat_lt b j _ _ Hb Hj) as Hbj.
    pose proof (Forall2_nth _ _ _ 0 ([], fnan) Ho (b * ns + j) ltac:(now rewrite seq_length)) as P.
    rewrite seq_nth in P by assumption. simpl in P.
    destruct P as (i & boots & Hi' & _ & Hlook & Htask).
    exists i, boots, (fst (nth (b * ns + j) outs ([], fnan))).
    split; [exact Hi'|]. split.
    { rewrite Nat.add_comm, Nat.div_add, Nat.div_small in Hlook by lia. exact Hlook. }
    split.
    { rewrite Htask, A2 by assumption. now rewrite <- surjective_pairing. }
    intros k Hk. now apply A3.
  Qed.

  Theorem best_support n R s0 F : returned env d sol draw post n false R s0 F ->
    exists sel ns coef ic,
      f_sel F = Some sel /\ nd_shape (s_scores sel) = [n_boots_est d; ns] /\
      nd_shape (s_estimates sel) = [n_boots_est d; ns; n_coef d] /\
      nd_shape (s_rp_max_idx sel) = [n_boots_est d] /\
      (forall b, b < n_boots_est d ->
         (forall j, j < ns -> is_nan64 (at2 (s_scores sel) b j) = false) ->
         first_max (map (at2 (s_scores sel) b) (seq 0 ns)) (index_at (s_rp_max_idx sel) b)) /\
      (forall k, k < n_coef d -> 1 <= n_boots_est d ->
         (forall b, b < n_boots_est d ->
            is_nan64 (at3 (s_estimates sel) b (index_at (s_rp_max_idx sel) b) k) = false) ->
         is_median (map (fun b => at3 (s_estimates sel) b (index_at (s_rp_max_idx sel) b) k)
                        (seq 0 (n_boots_est d))) (nth k coef fzero)) /\
      length coef = n_coef d /\
      fit_int (sol 0) coef = Ok ic /\
      post (nd_of_floats [out_dim d; n_feat d] coef) ic = Ok (f_coef F, f_intercept F).
  Proof.
    intro H. destruct (returned_step _ _ _ _ H) as (sel & ns & coef & ic & H0 & H1 & H2 & H3 & H4 & H5 & H6 & H7 & H8 & _).
    exists sel, ns, coef, ic. split; [exact H0|]. split; [exact H2|]. split; [exact H1|].
    split; [exact H3|]. split; [|split; [|split; [exact H5|split; [exact H7|exact H8]]]].
    - intros b Hb Hn. apply (proj1 (np_argmax_spec _ _ (H4 b Hb))).
      destruct (existsb is_nan64 _) eqn:Ex; auto. apply existsb_exists in Ex as (x & Hx & Hnx).
      apply in_map_iff in Hx as (j & <- & Hj). apply in_seq in Hj. rewrite Hn in Hnx by lia. discriminate.
    - intros k Hk Hbe Hn. rewrite H6 by assumption. apply np_median_spec.
      + destruct (n_boots_est d); [lia|discriminate].
      + destruct (existsb is_nan64 _) eqn:Ex; auto. apply existsb_exists in Ex as (x & Hx & Hnx).
        apply in_map_iff in Hx as (b & <- & Hb). apply in_seq in Hb. rewrite Hn in Hnx by lia. discriminate.
  Qed.

  Theorem nan_score_wins n R s0 F b j : returned env d sol draw post n false R s0 F ->
    exists sel ns, f_sel F = Some sel /\ nd_shape (s_scores sel) = [n_boots_est d; ns] /\
      (b < n_boots_est d -> j < ns -> is_nan64 (at2 (s_scores sel) b j) = true ->
       index_at (s_rp_max_idx sel) b <= j /\
       is_nan64 (at2 (s_scores sel) b (index_at (s_rp_max_idx sel) b)) = true).
  Proof.
    intro H. destruct (returned_step _ _ _ _ H) as (sel & ns & coef & ic & H0 & H1 & H2 & H3 & H4 & _).
    exists sel, ns. split; [exact H0|]. split; [exact H2|]. intros Hb Hj Hn.
    assert (Ex : existsb is_nan64 (map (at2 (s_scores sel) b) (seq 0 ns)) = true).
    { apply existsb_exists. exists (at2 (s_scores sel) b j). split; [|exact Hn].
      apply in_map. apply in_seq. lia. }
    destruct (proj2 (np_argmax_spec _ _ (H4 b Hb)) Ex) as (G1 & G2 & G3).
    rewrite map_length, seq_length in G1. rewrite nth_map_seq in G2 by assumption.
    split; [|exact G2].
    destruct (Nat.le_gt_cases (index_at (s_rp_max_idx sel) b) j) as [|Hgt]; [assumption|].
    specialize (G3 j Hgt). rewrite nth_map_seq in G3 by assumption. congruence.
  Qed.

  Theorem estimates_vanish n R s0 F : (shared d = true \/ forall i, respects_mask d (sol i)) ->
    returned env d sol draw post n false R s0 F ->
    exists sel ns, f_sel F = Some sel /\ nd_shape (s_estimates sel) = [n_boots_est d; ns; n_coef d] /\
      n_supports (s_supports sel) = Ok ns /\
      forall b j k, b < n_boots_est d -> j < ns -> k < n_coef d ->
        nonzero64 (at3 (s_estimates sel) b j k) = true ->
        match s_supports sel with
        | Arr2 _ rows => covers d (nth j rows []) k = true
        | _ => shared d = false
        end.
  Proof.
    intros Hm H. destruct (returned_step _ _ _ _ H)
      as (sel & ns & coef & ic & H0 & H1 & _ & _ & _ & _ & _ & _ & _ & sps & r1 & c & sps2 & r2 & _ & _ & _ & _ & _ & Hns & Ht).
    exists sel, ns. split; [exact H0|]. split; [exact H1|]. split; [exact Hns|].
    intros b j k Hb Hj Hk Hnz.
    destruct (Ht b j Hb Hj) as (i & boots & row & _ & _ & He & Ha). rewrite Ha in Hnz by assumption.
    assert (Hm' : shared d = true \/ respects_mask d (sol i)) by (destruct Hm; auto).
    pose proof (est_task_support d (sol i) Hm' _ _ _ _ _ _ He k Hk Hnz) as G.
    rewrite Nat.add_comm, Nat.mod_add, Nat.mod_small in G by lia. exact G.
  Qed.

  (** ** C21 *)
  Lemma intersect_rank2 c sup : c_reg c = n_reg d -> c_feat c = n_coef d ->
    2 <= length (thresholds d) * n_reg d -> 2 <= n_coef d -> intersect d c = Ok sup ->
    exists p rows, sup = Arr2 p rows.
  Proof.
    intros Hc1 Hc2 H1 H2 Hi. unfold intersect in Hi.
    destruct (intersection_exact c (thresholds d)) as (rows' & Er & _);
      [rewrite Hc1; exact H1|rewrite Hc2; exact H2|].
    destruct (glm d).
    - unfold glm_intersect in Hi. rewrite Er in Hi. cbn [bind] in Hi.
      destruct (_ && _); [|injection Hi as <-; eauto].
      unfold union_over_classes in Hi. destruct (_ =? 0); [discriminate|].
      destruct (negb _); [discriminate|]. injection Hi as <-. eauto.
    - unfold linear_intersect in Hi. rewrite Er in Hi. injection Hi as <-. eauto.
  Qed.

  Lemma count_filter_seq {A} (p : A -> bool) (f : nat -> A) m :
    count p (map f (seq 0 m)) = length (filter (fun b => p (f b)) (seq 0 m)).
  Proof. rewrite count_filter, filter_map_comm, map_length. reflexivity. Qed.

  Lemma filter_le {A} (p q : A -> bool) l : (forall x, In x l -> p x = true -> q x = true) ->
    length (filter p l) <= length (filter q l).
  Proof.
    induction l as [|x l IH]; simpl; intro H; auto.
    assert (IH' : length (filter p l) <= length (filter q l)) by (apply IH; intros; apply H; auto).
    destruct (p x) eqn:Ep; simpl.
    - rewrite H by auto. simpl. lia.
    - destruct (q x); simpl; lia.
  Qed.

  Theorem nonzero_stable n R s0 F k :
    keeps_zeros post -> (shared d = true \/ forall i, respects_mask d (sol i)) ->
    2 <= length (thresholds d) * n_reg d -> 2 <= n_coef d -> 1 <= n_boots_est d ->
    returned env d sol draw post n false R s0 F ->
    k < n_coef d -> nonzero64 (num (nth k (nd_data (f_coef F)) (SFlt fzero))) = true ->
    exists sel p rows sps r1 c,
      f_sel F = Some sel /\ s_supports sel = Arr2 p rows /\
      drawn draw true (R 0) sps r1 /\ length sps = n_boots_sel d /\ selection_coefs d sol n sps c /\
      (exists b, b < n_boots_est d /\
         covers d (nth (index_at (s_rp_max_idx sel) b) rows []) k = true) /\
      ((forall b, b < n_boots_est d ->
          is_nan64 (at3 (s_estimates sel) b (index_at (s_rp_max_idx sel) b) k) = false) ->
       n_boots_est d <= 2 * length (filter (fun b =>
          covers d (nth (index_at (s_rp_max_idx sel) b) rows []) k) (seq 0 (n_boots_est d)))) /\
      stably_selected d c k.
  Proof.
    intros Hkz Hm H1 H2 Hbe H Hk Hnz.
    destruct (returned_step _ _ _ _ H)
      as (sel & ns & coef & ic & H0 & _ & _ & _ & H4 & H5 & H6 & _ & Hpost & sps & r1 & c & sps2 & r2 & Hd1 & _ & Hls & Hc & Hi & Hns & Ht).
    destruct Hc as (Hc1 & Hc2 & Hc3) eqn:Ec.
    destruct (intersect_rank2 c _ Hc1 Hc2 H1 H2 Hi) as (p & rows & Hsup).
    rewrite Hsup in *. simpl in Hns. injection Hns as Hns.
    assert (Hidx : forall b, b < n_boots_est d -> index_at (s_rp_max_idx sel) b < ns).
    { intros b Hb. pose proof (np_argmax_lt _ _ (H4 b Hb)) as G. now rewrite map_length, seq_length in G. }
    set (best := fun b => at3 (s_estimates sel) b (index_at (s_rp_max_idx sel) b) k).
    assert (Hcov : forall b, b < n_boots_est d -> nonzero64 (best b) = true ->
              covers d (nth (index_at (s_rp_max_idx sel) b) rows []) k = true /\
              (shared d = true -> length (nth (index_at (s_rp_max_idx sel) b) rows []) * out_dim d = n_coef d)).
    { intros b Hb Hb0. unfold best in Hb0.
      destruct (Ht b _ Hb (Hidx b Hb)) as (i & boots & row & _ & Hlk & He & Ha). rewrite Ha in Hb0 by assumption.
      assert (Hm' : shared d = true \/ respects_mask d (sol i)) by (destruct Hm; auto).
      pose proof (est_task_support d (sol i) Hm' _ _ _ _ _ _ He k Hk Hb0) as G.
      rewrite Nat.add_comm, Nat.mod_add, Nat.mod_small in G by (specialize (Hidx b Hb); lia).
      split; [exact G|]. intro Es.
      unfold est_task in He.
      rewrite Nat.add_comm, Nat.div_add, Nat.div_small in He by (specialize (Hidx b Hb); lia).
      change (0 + b) with b in He. rewrite Hlk in He.
      cbn [bind] in He.
      rewrite Nat.mod_add, Nat.mod_small in He by (specialize (Hidx b Hb); lia).
      destruct (existsb (fun b => b) _) eqn:Eex in He.
      - unfold est_masked in He. destruct (est_fit _ _ _); cbn [bind] in He; [|discriminate].
        rewrite Es in He. destruct (assign_masked _ _ _) as [r|] eqn:Ea in He; cbn [bind] in He; [|discriminate].
        unfold assign_masked in Ea. destruct (length _ =? n_coef d) eqn:El in Ea; [|discriminate].
        apply Nat.eqb_eq in El. rewrite concat_repeat_length in El. lia.
      - exfalso. apply est_null_zero in He. subst row. eapply zero_nth; eauto. }
    (* the median is non-zero *)
    assert (Hmed : nonzero64 (np_median (map best (seq 0 (n_boots_est d)))) = true).
    { destruct (nonzero64 (np_median _)) eqn:Ez; auto. exfalso.
      unfold best in Ez. rewrite <- (H6 k Hk) in Ez.
      rewrite (Hkz _ _ _ _ k Hpost) in Hnz; [discriminate|].
      unfold nd_of_floats. cbn [nd_data].
      rewrite (map_nth SFlt). exact Ez. }
    assert (Hsome : exists b, b < n_boots_est d /\ nonzero64 (best b) = true).
    { destruct (existsb nonzero64 (map best (seq 0 (n_boots_est d)))) eqn:Ex.
      - apply existsb_exists in Ex as (x & Hx & Hx2). apply in_map_iff in Hx as (b & <- & Hb).
        apply in_seq in Hb. exists b. split; [lia|exact Hx2].
      - exfalso. assert (Hz : Forall (fun x => nonzero64 x = false) (map best (seq 0 (n_boots_est d)))).
        { apply Forall_forall. intros x Hx. destruct (nonzero64 x) eqn:Ez; auto. exfalso.
          assert (existsb nonzero64 (map best (seq 0 (n_boots_est d))) = true); [|congruence].
          apply existsb_exists. eauto. }
        assert (Hnn : existsb is_nan64 (map best (seq 0 (n_boots_est d))) = false).
        { destruct (existsb is_nan64 _) eqn:Ey; auto. apply existsb_exists in Ey as (x & Hx & Hx2).
          rewrite Forall_forall in Hz. specialize (Hz x Hx). apply is_nan_eq in Hx2. subst x. discriminate. }
        assert (Hne : map best (seq 0 (n_boots_est d)) <> []) by (destruct (n_boots_est d); [lia|discriminate]).
        pose proof (median_nonzero _ Hnn Hne Hmed) as G.
        assert (count nonzero64 (map best (seq 0 (n_boots_est d))) = 0).
        { clear -Hz. induction Hz as [|x l Hx Hl IH]; simpl; auto. now rewrite Hx, IH. }
        rewrite map_length, seq_length in G. lia. }
    exists sel, p, rows, sps, r1, c. split; [exact H0|]. split; [exact Hsup|]. split; [exact Hd1|].
    split; [exact Hls|].
    split; [exact Hc|]. split; [|split].
    - destruct Hsome as (b & Hb & Hb0). exists b. split; [exact Hb|]. now apply Hcov.
    - intro Hnn.
      assert (Hnn' : existsb is_nan64 (map best (seq 0 (n_boots_est d))) = false).
      { destruct (existsb is_nan64 _) eqn:Ey; auto. apply existsb_exists in Ey as (x & Hx & Hx2).
        apply in_map_iff in Hx as (b & <- & Hb). apply in_seq in Hb. unfold best in Hx2.
        rewrite Hnn in Hx2 by lia. discriminate. }
      assert (Hne : map best (seq 0 (n_boots_est d)) <> []) by (destruct (n_boots_est d); [lia|discriminate]).
      pose proof (median_nonzero _ Hnn' Hne Hmed) as G. rewrite map_length, seq_length in G.
      rewrite count_filter_seq in G.
      assert (G2 := filter_le (fun b => nonzero64 (best b))
                (fun b => covers d (nth (index_at (s_rp_max_idx sel) b) rows []) k)
                (seq 0 (n_boots_est d))).
      assert (G3 : forall x, In x (seq 0 (n_boots_est d)) -> nonzero64 (best x) = true ->
                   covers d (nth (index_at (s_rp_max_idx sel) x) rows []) k = true).
      { intros b Hb Hb0. apply in_seq in Hb. apply Hcov; [lia|exact Hb0]. }
      specialize (G2 G3). lia.
    - destruct Hsome as (b & Hb & Hb0). destruct (Hcov b Hb Hb0) as [G1 G2].
      apply (covers_stable d sol n sps c p rows (nth (index_at (s_rp_max_idx sel) b) rows []) k); auto.
      apply nth_In. specialize (Hidx b Hb). lia.
  Qed.

  (** ** C76 *)
  Lemma scatter_nth mask : forall v k, k < length mask -> length v = count (fun b => b) mask ->
    nth k (scatter mask v) fnan
    = if nth k mask false then nth (count (fun b => b) (firstn k mask)) v fzero else fzero.
  Proof.
    induction mask as [|[] mask IH]; intros v k Hk Hv; simpl in Hk; [lia| |].
    - destruct v as [|x v]; [discriminate Hv|]. simpl in Hv. destruct k; simpl; [reflexivity|].
      apply IH; lia.
    - simpl in Hv. destruct k; simpl; [reflexivity|]. apply IH; [lia|exact Hv].
  Qed.
  Lemma count_filter_nth l : forall k, k <= length l -> forall f,
    (forall i, i < k -> f i = nth i l false) ->
    count (fun b => b) (firstn k l) = length (filter f (seq 0 k)).
  Proof.
    induction k as [|k IH]; intros Hk f Hf; [reflexivity|].
    rewrite seq_S, filter_app, app_length, <- (IH ltac:(lia) f) by (intros; apply Hf; lia).
    cbn [filter]. rewrite Nat.add_0_l, (Hf k) by lia.
    assert (E0 : firstn (Datatypes.S k) l = firstn k l ++ [nth k l false]).
    { clear -Hk. revert l Hk. induction k as [|k IH]; intros [|x l] Hk; simpl in *; try lia; [reflexivity|].
      now rewrite IH by lia. }
    rewrite E0, !count_filter, filter_app, app_length. simpl. now destruct (nth k l false).
  Qed.

  Theorem estimates_provenance n R s0 F :
    2 <= length (thresholds d) * n_reg d -> 2 <= n_coef d ->
    returned env d sol draw post n false R s0 F ->
    exists sel p rows sps r1 sps2 r2,
      f_sel F = Some sel /\ s_supports sel = Arr2 p rows /\
      drawn draw true (R 0) sps r1 /\ length sps = n_boots_sel d /\ drawn draw false r1 sps2 r2 /\
      forall b j, b < n_boots_est d -> j < length rows ->
        exists i, i < n /\ estimated d (sol i) rows sps2 sel b j.
  Proof.
    intros H1 H2 H. destruct (returned_step _ _ _ _ H)
      as (sel & ns & coef & ic & H0 & _ & _ & _ & _ & _ & _ & _ & _ & sps & r1 & c & sps2 & r2 & Hd1 & Hd2 & Hls & Hc & Hi & Hns & Ht).
    destruct Hc as (Hc1 & Hc2 & _).
    destruct (intersect_rank2 c _ Hc1 Hc2 H1 H2 Hi) as (p & rows & Hsup).
    rewrite Hsup in *. simpl in Hns. injection Hns as Hns.
    exists sel, p, rows, sps, r1, sps2, r2. split; [exact H0|]. split; [exact Hsup|].
    split; [exact Hd1|]. split; [exact Hls|]. split; [exact Hd2|]. intros b j Hb Hj.
    rewrite Hns in Hj. destruct (Ht b j Hb Hj) as (i & boots & row & Hin & Hlk & He & Ha).
    exists i. split; [exact Hin|]. unfold estimated.
    unfold est_task in He. rewrite Nat.add_comm, Nat.div_add, Nat.div_small in He by lia.
    change (0 + b) with b in He. rewrite Hlk in He. cbn [bind] in He.
    rewrite Nat.mod_add, Nat.mod_small in He by lia.
    set (mask := nth j rows []) in *. set (sp := nth b sps2 ([], [])) in *.
    destruct (existsb (fun b => b) mask) eqn:Ex.
    - left. split.
      { apply existsb_exists in Ex as (x & Hx & Hxt). apply (In_nth _ _ false) in Hx as (k & _ & Hk).
        exists k. now rewrite Hk. }
      unfold est_masked in He. destruct (est_fit (sol i) mask (fst sp)) as [e|] eqn:Ee; cbn [bind] in He; [|discriminate].
      exists e. split; [reflexivity|].
      assert (Hsc : score (sol i) e mask sp = Ok (at2 (s_scores sel) b j) /\
        (if shared d then assign_masked (n_coef d) (concat (repeat mask (out_dim d))) (est_coef (sol i) e)
         else assign_row (n_coef d) (est_coef (sol i) e)) = Ok row).
      { destruct (if shared d then _ else _) as [r|] in He |- *; cbn [bind] in He; [|discriminate].
        destruct (score (sol i) e mask sp) as [x|]; cbn [bind] in He; [|discriminate].
        injection He as <- <-. split; reflexivity. }
      destruct Hsc as [Hsc Hrow]. split; [exact Hsc|]. intros Hlen k Hk. rewrite Ha by exact Hk.
      unfold placed, expected_length in *. destruct (shared d) eqn:Es.
      + unfold assign_masked in Hrow.
        destruct (length (concat (repeat mask (out_dim d))) =? n_coef d) eqn:El; simpl in Hrow; [|discriminate].
        apply Nat.eqb_eq in El.
        assert (Hlm : length mask = n_feat d).
        { rewrite concat_repeat_length in El. unfold n_coef in El, Hk.
          assert (out_dim d <> 0) by (intro Z; rewrite Z in Hk; lia).
          apply (Nat.mul_cancel_l _ _ (out_dim d)); lia. }
        assert (Hcv : forall q, q < n_coef d -> covers d mask q = nth q (concat (repeat mask (out_dim d))) false).
        { intros q Hq. unfold covers. rewrite Es. rewrite concat_repeat_nth by (rewrite concat_repeat_length in El; lia).
          now rewrite Hlm. }
        assert (Hcount : count (fun b => b) (concat (repeat mask (out_dim d)))
                         = length (filter (covers d mask) (seq 0 (n_coef d)))).
        { rewrite <- (count_filter_nth (concat (repeat mask (out_dim d))) (n_coef d)).
          - now rewrite <- El, firstn_all.
          - lia.
          - exact Hcv. }
        rewrite Hlen, Hcount, Nat.eqb_refl in Hrow. injection Hrow as <-.
        rewrite scatter_nth by (rewrite ?El, ?Hcount; assumption).
        rewrite <- Hcv by exact Hk. destruct (covers d mask k); [|reflexivity]. f_equal.
        apply count_filter_nth; [lia|]. intros q Hq. apply Hcv. lia.
      + unfold assign_row in Hrow. rewrite Hlen, Nat.eqb_refl in Hrow. injection Hrow as <-.
        apply nth_indep. lia.
    - right. split.
      { intro k. destruct (nth k mask false) eqn:Ek; auto. exfalso.
        assert (existsb (fun b => b) mask = true); [|congruence].
        apply existsb_exists. exists true. split; [|reflexivity]. rewrite <- Ek. apply nth_In.
        destruct (Nat.lt_ge_cases k (length mask)); auto. rewrite nth_overflow in Ek by assumption. discriminate. }
      unfold est_null in He. destruct (null_fit (sol i) (fst sp)) as [e|] eqn:Ee; cbn [bind] in He; [|discriminate].
      exists e. split; [reflexivity|]. destruct (null_score (sol i) e sp) as [x|] eqn:Enu; cbn [bind] in He; [|discriminate].
      injection He as <- <-. split; [reflexivity|]. intros k Hk. rewrite Ha by exact Hk.
      rewrite nth_indep with (d' := fzero) by now rewrite repeat_length. apply nth_repeat.
  Qed.
End Props.
