(** Facts about whatever [fit] returns: proofs for C04, C17, C20-C24. *)
From Coq Require Import ZArith List Bool Arith Lia Sorting.Permutation Floats.SpecFloat.
From Verif Require Import Prelude F64 F64Order Model_Intersection Spec_Intersection Proofs_Intersection
  Model_Mpi Spec_Mpi Proofs_MpiSem Proofs_Mpi Model_Fit Spec_Fit Proofs_FitMpi Proofs_FitRuns
  Proofs_FitSerial.
Import ListNotations.

(** * argmax *)
Lemma argmax_loop_spec (l : list f64) : forall pre best besti,
  is_nan64 best = false ->
  besti < length pre -> nth besti pre fnan = best ->
  existsb is_nan64 pre = false ->
  (forall j, j < length pre -> fleb (nth j pre fnan) best = true /\
     (j < besti -> fleb best (nth j pre fnan) = false)) ->
  (existsb is_nan64 l = false ->
   first_max (pre ++ l) (argmax_loop (length pre) best besti l)) /\
  (existsb is_nan64 l = true ->
   let i := argmax_loop (length pre) best besti l in
   i < length (pre ++ l) /\ is_nan64 (nth i (pre ++ l) fzero) = true /\
   forall j, j < i -> is_nan64 (nth j (pre ++ l) fzero) = false).
Proof.
  induction l as [|v l IH]; intros pre best besti Hb Hi Hn Hp Hm.
  - simpl. split; [|discriminate]. intros _. rewrite app_nil_r. split; [exact Hi|].
    intros j Hj. rewrite Hn. auto.
  - cbn [argmax_loop existsb].
    assert (Epre : pre ++ v :: l = (pre ++ [v]) ++ l) by now rewrite <- app_assoc.
    assert (Elen : length (pre ++ [v]) = Datatypes.S (length pre)) by (rewrite app_length; simpl; lia).
    assert (Enth : forall j, j < length pre -> nth j (pre ++ [v]) fnan = nth j pre fnan).
    { intros j Hj. now rewrite app_nth1. }
    assert (Elast : nth (length pre) (pre ++ [v]) fnan = v).
    { rewrite app_nth2, Nat.sub_diag by lia. reflexivity. }
    destruct (fleb v best) eqn:Ev.
    + destruct (fleb_not_nan _ _ Ev) as [Nv _]. rewrite Nv. simpl orb.
      rewrite Epre. rewrite <- Elen. apply IH; auto.
      * lia.
      * rewrite Enth by lia. exact Hn.
      * rewrite existsb_app, Hp. simpl. now rewrite Nv.
      * intros j Hj. rewrite Elen in Hj. destruct (Nat.eq_dec j (length pre)) as [->|Hne].
        -- rewrite Elast. split; [exact Ev|lia].
        -- rewrite Enth by lia. apply Hm. lia.
    + destruct (is_nan64 v) eqn:Nv.
      * simpl orb. split; [discriminate|]. intros _. cbv zeta. split; [rewrite app_length; simpl; lia|].
        split.
        -- rewrite app_nth2, Nat.sub_diag by lia. exact Nv.
        -- intros j Hj. rewrite app_nth1 by lia.
           destruct (is_nan64 (nth j pre fzero)) eqn:E'; auto.
           exfalso. assert (existsb is_nan64 pre = true); [|congruence].
           apply existsb_exists. exists (nth j pre fzero). split; [now apply nth_In|exact E'].
      * simpl orb. rewrite Epre, <- Elen. apply IH; auto.
        -- lia.
        -- rewrite existsb_app, Hp. simpl. now rewrite Nv.
        -- intros j Hj. rewrite Elen in Hj. destruct (Nat.eq_dec j (length pre)) as [->|Hne].
           ++ rewrite Elast. split; [now apply fleb_refl|lia].
           ++ rewrite Enth by lia. destruct (Hm j) as [H1 H2]; [lia|].
              assert (L : fleb best v = true) by (apply fleb_false; auto).
              split; [exact (fleb_trans _ _ _ H1 L)|]. intros _.
              destruct (fleb v (nth j pre fnan)) eqn:E'; auto.
              exfalso. rewrite (fleb_trans _ _ _ E' H1) in Ev. discriminate.
Qed.

Lemma np_argmax_spec l i : np_argmax l = Ok i ->
  (existsb is_nan64 l = false -> first_max l i) /\
  (existsb is_nan64 l = true ->
   i < length l /\ is_nan64 (nth i l fzero) = true /\
   forall j, j < i -> is_nan64 (nth j l fzero) = false).
Proof.
  destruct l as [|v l]; [discriminate|]. unfold np_argmax. intro H. injection H as <-.
  destruct (is_nan64 v) eqn:Nv; simpl existsb; rewrite Nv; simpl orb.
  - split; [discriminate|]. intros _. simpl. split; [lia|]. split; [exact Nv|]. lia.
  - apply (argmax_loop_spec l [v] v 0); auto; simpl; try lia.
    + now rewrite Nv.
    + intros j Hj. destruct j; [|lia]. split; [now apply fleb_refl|lia].
Qed.
Lemma np_argmax_lt l i : np_argmax l = Ok i -> i < length l.
Proof.
  intro H. destruct (np_argmax_spec _ _ H) as [H1 H2].
  destruct (existsb is_nan64 l); [apply H2|apply H1]; reflexivity.
Qed.

(** * median *)
Definition sorted64 (s : list f64) : Prop :=
  forall i j, i <= j < length s -> fleb (nth i s fnan) (nth j s fnan) = true.

Lemma insert64_perm x l : Permutation (x :: l) (insert64 x l).
Proof.
  induction l as [|y l IH]; simpl; auto. destruct (fleb x y); auto.
  rewrite perm_swap. now constructor.
Qed.
Lemma sort64_perm l : Permutation l (sort64 l).
Proof.
  induction l as [|x l IH]; simpl; auto.
  rewrite <- insert64_perm. now constructor.
Qed.

Inductive chain : list f64 -> Prop :=
| chain_nil : chain []
| chain_cons x l : Forall (fun y => fleb x y = true) l -> chain l -> is_nan64 x = false -> chain (x :: l).

Lemma insert64_chain x l : is_nan64 x = false -> chain l -> chain (insert64 x l).
Proof.
  intro Nx. induction 1 as [|y l Hy Hl IH Ny]; simpl.
  - repeat constructor. exact Nx.
  - destruct (fleb x y) eqn:E.
    + constructor; auto.
      * constructor; auto. rewrite Forall_forall in *. intros z Hz. eapply fleb_trans; eauto.
      * constructor; auto.
    + constructor; auto. rewrite Forall_forall in *. intros z Hz.
      apply (Permutation_in _ (Permutation_sym (insert64_perm x l))) in Hz.
      destruct Hz as [<-|Hz]; [apply fleb_false; auto|auto].
Qed.
Lemma sort64_chain l : existsb is_nan64 l = false -> chain (sort64 l).
Proof.
  induction l as [|x l IH]; simpl; intro H; [constructor|].
  apply orb_false_iff in H as [H1 H2]. apply insert64_chain; auto.
Qed.
Lemma chain_sorted l : chain l -> sorted64 l.
Proof.
  induction 1 as [|x l Hx Hl IH Nx]; intros i j Hij; simpl in Hij; [lia|].
  destruct i, j; simpl; try lia.
  - now apply fleb_refl.
  - rewrite Forall_forall in Hx. apply Hx. apply nth_In. lia.
  - apply IH. lia.
Qed.

Lemma np_median_spec l : l <> [] -> existsb is_nan64 l = false -> is_median l (np_median l).
Proof.
  intros Hl Hn. unfold np_median. rewrite Hn. cbn [orb].
  assert (El : (length l =? 0) = false) by (apply Nat.eqb_neq; destruct l; simpl; [congruence|lia]).
  rewrite El. exists (sort64 l). split; [apply sort64_perm|].
  split; [apply chain_sorted, sort64_chain, Hn|].
  apply Nat.eqb_neq in El.
  destruct (Nat.even (length l)) eqn:Ee.
  - right. apply Nat.even_spec in Ee as (h & Eh). exists (h - 1). split; [lia|].
    replace (length l / 2) with h by (rewrite Eh, Nat.mul_comm, Nat.div_mul; lia).
    replace (h - 1 + 1) with h by lia. reflexivity.
  - left. rewrite <- Nat.negb_odd in Ee. apply negb_false_iff, Nat.odd_spec in Ee as (h & Eh).
    exists h. split; [lia|]. f_equal. rewrite Eh.
    replace (2 * h + 1) with (1 + h * 2) by lia. rewrite Nat.div_add by lia. reflexivity.
Qed.

(** A sorted list is made of negative, zero and positive values in this order. *)
Lemma sign_zero x : is_nan64 x = false -> (sign64 x = 0%Z <-> nonzero64 x = false).
Proof. destruct x as [|[]| |[]]; simpl; try discriminate; split; auto; try discriminate; lia. Qed.

Lemma chain_zero_position s : chain s -> forall i,
  count (fun x => (sign64 x <? 0)%Z) s <= i ->
  i < count (fun x => (sign64 x <? 0)%Z) s + count (fun x => negb (nonzero64 x)) s ->
  nonzero64 (nth i s fnan) = false.
Proof.
  induction 1 as [|x l Hx Hl IH Nx]; intros i H1 H2; simpl in *; [lia|].
  destruct (sign64 x <? 0)%Z eqn:Es.
  - destruct i; [lia|]. apply IH; [lia|].
    assert (nonzero64 x = true).
    { destruct (nonzero64 x) eqn:E; auto. apply sign_zero in E; auto.
      apply Z.ltb_lt in Es. lia. }
    rewrite H in H2. simpl in H2. lia.
  - destruct (nonzero64 x) eqn:Ez; simpl in H2.
    + (* x is positive, so is everything after *)
      exfalso. apply Z.ltb_ge in Es.
      assert (0 < sign64 x)%Z.
      { assert (sign64 x <> 0%Z); [|lia]. intro E. apply sign_zero in E; auto. congruence. }
      assert (Z0 : count (fun x => negb (nonzero64 x)) l = 0).
      { clear -Hx H Nx. induction l as [|y l IHl]; simpl; auto. inversion Hx; subst.
        rewrite IHl by assumption. destruct (nonzero64 y) eqn:E; auto.
        destruct (fleb_not_nan _ _ H2) as [_ Ny]. apply sign_zero in E; auto.
        apply fleb_sign in H2. lia. }
      assert (N0 : count (fun x => (sign64 x <? 0)%Z) l = 0).
      { clear -Hx H Nx. induction l as [|y l IHl]; simpl; auto. inversion Hx; subst.
        rewrite IHl by assumption. destruct (sign64 y <? 0)%Z eqn:E; auto.
        apply fleb_sign in H2. apply Z.ltb_lt in E. lia. }
      lia.
    + (* x is zero: no negative value after *)
      assert (N0 : count (fun x => (sign64 x <? 0)%Z) l = 0).
      { apply sign_zero in Ez; auto. clear -Hx Ez. induction l as [|y l IHl]; simpl; auto.
        inversion Hx; subst. rewrite IHl by assumption. destruct (sign64 y <? 0)%Z eqn:E; auto.
        apply fleb_sign in H1. apply Z.ltb_lt in E. lia. }
      destruct i; [exact Ez|]. apply IH; simpl; lia.
Qed.

Lemma count_split (s : list f64) :
  count (fun x => (sign64 x <? 0)%Z) s + count (fun x => negb (nonzero64 x)) s <= length s.
Proof.
  induction s as [|x s IH]; simpl; auto.
  destruct (sign64 x <? 0)%Z eqn:E; destruct (nonzero64 x) eqn:E2; simpl; try lia.
  exfalso. apply Z.ltb_lt in E. destruct x as [|[]| |[]]; simpl in *; try discriminate; lia.
Qed.
Lemma count_negb {A} (p : A -> bool) l : count p l + count (fun x => negb (p x)) l = length l.
Proof. induction l as [|x l IH]; simpl; auto. destruct (p x); simpl; lia. Qed.

(** A non-zero median needs non-zero values in at least half of the places. *)
Lemma median_nonzero l : existsb is_nan64 l = false -> l <> [] ->
  nonzero64 (np_median l) = true -> length l <= 2 * count nonzero64 l.
Proof.
  intros Hn Hl Hm.
  destruct (le_lt_dec (length l) (2 * count nonzero64 l)) as [|Hlt]; [assumption|exfalso].
  pose proof (sort64_chain l Hn) as Hc.
  pose proof (sort64_perm l) as Hp.
  pose proof (count_perm nonzero64 l _ Hp) as C1.
  pose proof (Permutation_length Hp) as Len.
  pose proof (count_negb nonzero64 (sort64 l)) as C2.
  pose proof (count_split (sort64 l)) as C3.
  pose proof (chain_zero_position (sort64 l) Hc) as Z.
  unfold np_median in Hm. rewrite Hn in Hm. cbn [orb] in Hm.
  assert (El : (length l =? 0) = false) by (apply Nat.eqb_neq; destruct l; simpl; [congruence|lia]).
  rewrite El in Hm. apply Nat.eqb_neq in El.
  destruct (Nat.even (length l)) eqn:Ee.
  - apply Nat.even_spec in Ee as (h & Eh).
    replace (length l / 2) with h in Hm by (rewrite Eh, Nat.mul_comm, Nat.div_mul; lia).
    assert (Z1 : nonzero64 (nth (h - 1) (sort64 l) fnan) = false) by (apply Z; lia).
    assert (Z2 : nonzero64 (nth h (sort64 l) fnan) = false) by (apply Z; lia).
    destruct (nth (h - 1) (sort64 l) fnan) as [[]| | |], (nth h (sort64 l) fnan) as [[]| | |];
      try discriminate.
  - rewrite <- Nat.negb_odd in Ee. apply negb_false_iff, Nat.odd_spec in Ee as (h & Eh).
    replace (length l / 2) with h in Hm.
    2: { rewrite Eh. replace (2 * h + 1) with (1 + h * 2) by lia. rewrite Nat.div_add by lia. reflexivity. }
    assert (Z1 : nonzero64 (nth h (sort64 l) fnan) = false) by (apply Z; lia).
    congruence.
Qed.

(** * What is behind a returned value *)
Lemma flat_lt a b n m : a < n -> b < m -> a * m + b < n * m.
Proof.
  intros Ha Hb. assert (H : Datatypes.S a * m <= n * m) by (apply Nat.mul_le_mono_r; lia).
  rewrite Nat.mul_succ_l in H. lia.
Qed.
Lemma Forall2_impl_in {A B} (P Q : A -> B -> Prop) l l' : Forall2 P l l' ->
  (forall x y, In x l -> P x y -> Q x y) -> Forall2 Q l l'.
Proof.
  induction 1 as [|x y l l' H1 H2 IH]; intro H; constructor.
  - apply H; [now left|assumption].
  - apply IH. intros a b Ha Hab. apply H; [now right|assumption].
Qed.
Lemma Forall2_concat {A B I} (P : A -> B -> Prop) (f : I -> list A) (g : I -> list B) l :
  (forall i, In i l -> Forall2 P (f i) (g i)) -> Forall2 P (concat (map f l)) (concat (map g l)).
Proof.
  induction l as [|i l IH]; simpl; intro H; [constructor|].
  apply Forall2_app; auto.
Qed.
Lemma mapM_Forall2 {A B} (f : A -> result B) l : forall r, mapM f l = Ok r ->
  Forall2 (fun x y => f x = Ok y) l r.
Proof.
  induction l as [|x l IH]; simpl; intros r H; [injection H as <-; constructor|].
  destruct (f x) eqn:E; simpl in H; [|discriminate].
  destruct (mapM f l); simpl in H; [|discriminate]. injection H as <-. constructor; auto.
Qed.
Lemma Forall2_nth {A B} (P : A -> B -> Prop) l l' da db : Forall2 P l l' ->
  forall k, k < length l -> P (nth k l da) (nth k l' db).
Proof.
  induction 1 as [|x y l l' H1 H2 IH]; simpl; intros k Hk; [lia|].
  destruct k; [assumption|]. apply IH. lia.
Qed.
Lemma Forall2_length' {A B} (P : A -> B -> Prop) l l' : Forall2 P l l' -> length l' = length l.
Proof. induction 1; simpl; auto. Qed.
Lemma nth_seq0 k m : k < m -> nth k (seq 0 m) 0 = k.
Proof. intro H. now rewrite seq_nth. Qed.
Lemma lookup_some l b sp : lookup b l = Ok sp -> In (b, sp) l.
Proof.
  induction l as [|[k s] l IH]; simpl; [discriminate|].
  destruct (k =? b) eqn:E; intro H.
  - apply Nat.eqb_eq in E. left. congruence.
  - right. auto.
Qed.
Lemma lookup_own_numbered keys sps b sp : lookup b (own keys (numbered 0 sps)) = Ok sp ->
  b < length sps /\ sp = nth b sps ([], []).
Proof.
  intro H. apply lookup_some in H. unfold own in H. apply filter_In in H as [H _].
  unfold numbered in H.
  apply (In_nth _ _ (0, ([], []))) in H as (k & Hk & E).
  rewrite combine_length, seq_length, Nat.min_id in Hk.
  rewrite combine_nth in E by apply seq_length. rewrite seq_nth in E by assumption.
  injection E as <- <-. auto.
Qed.
Lemma own_all l : own (map fst l) l = l.
Proof.
  unfold own. set (keys := map fst l).
  assert (G : forall l', (forall x, In x l' -> In (fst x) keys) -> filter (fun x : nat * split => existsb (Nat.eqb (fst x)) keys) l' = l').
  { induction l' as [|x l' IH]; simpl; intro H; auto.
    assert (Ex : existsb (Nat.eqb (fst x)) keys = true).
    { apply existsb_exists. exists (fst x). split; [apply H; now left|apply Nat.eqb_refl]. }
    rewrite Ex. f_equal. apply IH. intros y Hy. apply H. now right. }
  apply G. intros x Hx. unfold keys. now apply in_map.
Qed.

Lemma concat_nth {A} k (rows : list (list A)) i j dd : Forall (fun r => length r = k) rows ->
  i < length rows -> j < k -> nth j (nth i rows []) dd = nth (i * k + j) (concat rows) dd.
Proof.
  intros H Hi Hj. rewrite <- (chunks_nth k (length rows)); auto.
  - now rewrite chunks_concat.
  - now apply concat_length_const.
Qed.

Section Summary.
  Context {S E Rng : Type}.
  Variable env : np_env.
  Variable d : dims.
  Variable sol : nat -> solver S E.
  Variable draw : bool -> Rng -> result (split * Rng).
  Variable post : nd -> nd -> result (nd * nd).
  Hypothesis Hnb : 1 <= n_boots_sel d.
  Hypothesis Hshape : forall i, shapes_ok d (sol i).

  Definition sel_prov n (sps : list split) (t : nat) (row : list f64) : Prop :=
    exists i s s' rows, i < n /\
      sweep (sol i) s (sel_regs d n t) (fst (nth (sel_boot d n t) sps ([], []))) = Ok (s', rows) /\
      row = concat rows.

  Lemma sel_loop_prov n i keys sps tasks : i < n -> forall curr s x,
    sel_loop d (sol i) n (own keys (numbered 0 sps)) tasks curr s = Ok x ->
    Forall2 (sel_prov n sps) tasks (snd x).
  Proof.
    intro Hi. induction tasks as [|t ts IH]; intros curr s x H.
    - injection H as <-. constructor.
    - cbn [sel_loop] in H.
      destruct (lookup (sel_boot d n t) (own keys (numbered 0 sps))) as [sp|] eqn:El;
        simpl bind in H; [|discriminate].
      apply lookup_own_numbered in El as [_ ->].
      match type of H with context [sweep (sol i) ?s1 ?r ?tr] =>
        destruct (sweep (sol i) s1 r tr) as [[s' rows]|] eqn:Es end;
        simpl bind in H; [|discriminate].
      destruct (store_sweep d (many d n) rows) as [row|] eqn:Est; simpl bind in H; [|discriminate].
      destruct (sel_loop d (sol i) n _ ts _ s') as [y|] eqn:Ey; simpl bind in H; [|discriminate].
      injection H as <-. simpl. constructor.
      + eexists i, _, s', rows. split; [exact Hi|]. split; [exact Es|].
        unfold store_sweep in Est. destruct (_ && _); [discriminate|]. congruence.
      + apply (IH _ _ _ Ey).
  Qed.

  Lemma all_prov_coefs n sps allrows : 1 <= n ->
    Forall2 (sel_prov n sps)
      (seq 0 (if many d n then n_boots_sel d * n_reg d else n_boots_sel d)) allrows ->
    selection_coefs d sol n sps (coefs_of d (concat allrows)).
  Proof.
    intros Hn H. pose proof (Forall2_length' _ _ _ H) as Hlen. rewrite seq_length in Hlen.
    assert (Hw : Forall (fun r => length r = row_width d n) allrows).
    { apply Forall_forall. intros row Hrow. apply (In_nth _ _ []) in Hrow as (t & Ht & <-).
      pose proof (Forall2_nth _ _ _ 0 [] H t ltac:(rewrite seq_length; lia)) as (i & s & s' & rows & Hi & Es & ->).
      apply (Hshape i) in Es as [Hl Hf].
      rewrite (concat_length_const (n_coef d)) by assumption. rewrite Hl.
      unfold sel_regs, row_width. destruct (many d n); simpl; [lia|now rewrite seq_length]. }
    assert (Hflat : length (concat allrows) = n_boots_sel d * (n_reg d * n_coef d)).
    { rewrite (concat_length_const (row_width d n)) by assumption. rewrite Hlen. unfold row_width.
      destruct (many d n); lia. }
    destruct (chunks_spec _ _ _ Hflat) as [Hc1 Hc2].
    unfold selection_coefs, coefs_of. cbn [c_reg c_feat c_data].
    split; [reflexivity|]. split; [reflexivity|]. split; [now rewrite map_length|].
    intros b r Hb Hr.
    rewrite nth_indep with (d' := chunks (n_coef d) (n_reg d) []) by (rewrite map_length; lia).
    rewrite map_nth.
    destruct (many d n) eqn:Em.
    - assert (Ht : b * n_reg d + r < n_boots_sel d * n_reg d).
      { now apply flat_lt. }
      pose proof (Forall2_nth _ _ _ 0 [] H (b * n_reg d + r) ltac:(now rewrite seq_length)) as P.
      rewrite seq_nth in P by assumption. simpl in P.
      destruct P as (i & s & s' & rows & Hi & Es & Er).
      unfold sel_boot, sel_regs in Es. rewrite Em in Es.
      rewrite Nat.add_comm, Nat.div_add, Nat.div_small, Nat.mod_add, Nat.mod_small in Es by lia.
      simpl (0 + b) in Es.
      destruct (Hshape i) as [Hs _]. destruct (Hs _ _ _ _ _ Es) as [Hl Hf].
      destruct rows as [|row [|]]; simpl in Hl; try lia. inversion Hf; subst.
      simpl in Er. rewrite app_nil_r in Er.
      exists i, s, [r], s', [row], 0. split; [exact Hi|]. split; [exact Es|].
      split; [simpl; lia|]. split; [reflexivity|]. simpl nth.
      assert (Hchunk : length (nth b (chunks (n_reg d * n_coef d) (n_boots_sel d) (concat allrows)) []) = n_reg d * n_coef d).
      { rewrite Forall_forall in Hc2. apply Hc2. apply nth_In. lia. }
      destruct (chunks_spec _ _ _ Hchunk) as [Hd1 Hd2].
      symmetry. apply (nth_ext _ _ fzero fzero).
      + rewrite Forall_forall in Hd2. rewrite Hd2 by (apply nth_In; lia). congruence.
      + intros j Hj. assert (Hj' : j < n_coef d).
        { rewrite Forall_forall in Hd2. rewrite Hd2 in Hj by (apply nth_In; lia). exact Hj. }
        rewrite (chunks_nth _ _ _ _ _ _ Hchunk) by lia.
        assert (r * n_coef d + j < n_reg d * n_coef d).
        { apply flat_lt; lia. }
        rewrite (chunks_nth _ _ _ _ _ _ Hflat) by lia.
        rewrite <- Er.
        assert (Hw' : Forall (fun r => length r = n_coef d) allrows).
        { unfold row_width in Hw. rewrite Em in Hw. exact Hw. }
        rewrite (concat_nth (n_coef d) allrows) by (auto; lia).
        f_equal. lia.
    - pose proof (Forall2_nth _ _ _ 0 [] H b ltac:(now rewrite seq_length)) as P.
      rewrite seq_nth in P by assumption. simpl in P.
      destruct P as (i & s & s' & rows & Hi & Es & Er).
      unfold sel_boot, sel_regs in Es. rewrite Em in Es.
      destruct (Hshape i) as [Hs _]. destruct (Hs _ _ _ _ _ Es) as [Hl Hf].
      rewrite seq_length in Hl.
      exists i, s, (seq 0 (n_reg d)), s', rows, r. split; [exact Hi|]. split; [exact Es|].
      rewrite seq_length. split; [exact Hr|]. split; [now apply nth_seq0|].
      assert (Hw' : Forall (fun r => length r = n_reg d * n_coef d) allrows).
      { unfold row_width in Hw. rewrite Em in Hw. exact Hw. }
      rewrite <- Hlen. rewrite (chunks_concat (n_reg d * n_coef d)) by assumption.
      rewrite Er. rewrite <- Hl. rewrite chunks_concat by assumption. reflexivity.
  Qed.

  Definition est_prov n sup ns (sps : list split) (t : nat) (o : list f64 * f64) : Prop :=
    exists i boots, i < n /\ t / ns < length sps /\
      lookup (t / ns) boots = Ok (nth (t / ns) sps ([], [])) /\
      est_task d (sol i) sup ns boots t = Ok o.

  Lemma est_mapM_prov n sup ns keys sps i tasks outs : i < n ->
    mapM (est_task d (sol i) sup ns (own keys (numbered 0 sps))) tasks = Ok outs ->
    Forall2 (est_prov n sup ns sps) tasks outs.
  Proof.
    intros Hi H. apply mapM_Forall2 in H. eapply Forall2_impl_in; [exact H|].
    intros t o Ht Ho. exists i, (own keys (numbered 0 sps)). split; [exact Hi|].
    pose proof Ho as Ho'. unfold est_task in Ho'.
    destruct (lookup (t / ns) (own keys (numbered 0 sps))) as [sp|] eqn:El; [|discriminate].
    pose proof (lookup_own_numbered _ _ _ _ El) as [E1 E2]. subst sp. auto.
  Qed.

  (** [Pr] is anything that the selection loops are known to guarantee. *)
  Definition sel_count n := if many d n then n_boots_sel d * n_reg d else n_boots_sel d.
  Definition facts n (R : nat -> Rng) (Pr : list split -> nat -> list f64 -> Prop) (F : fitted) : Prop :=
    exists sps r1 allrows sup ns sps2 r2 outs x,
      draw_list draw true (n_boots_sel d) (R 0) = Ok (sps, r1) /\
      Forall2 (Pr sps) (seq 0 (sel_count n)) allrows /\
      intersect d (coefs_of d (concat allrows)) = Ok sup /\ n_supports sup = Ok ns /\
      draw_list draw false (n_boots_est d) r1 = Ok (sps2, r2) /\
      Forall2 (est_prov n sup ns sps2) (seq 0 (n_boots_est d * ns)) outs /\
      finish d (sol 0) ns (concat (map fst outs)) (map snd outs) = Ok x /\
      package post sup x = Ok F.
  Definition loops_give n (s0 : nat -> S) (Pr : list split -> nat -> list f64 -> Prop) : Prop :=
    forall sps keys i x, i < n -> length sps = n_boots_sel d ->
      (forall t, In t (sel_tasks d n i) -> In (sel_boot d n t) keys) ->
      sel_loop d (sol i) n (own keys (numbered 0 sps)) (sel_tasks d n i) None (s0 i) = Ok x ->
      Forall2 (Pr sps) (sel_tasks d n i) (snd x).

  Lemma facts_dist n (R : nat -> Rng) s0 Pr i F : 1 < n -> loops_give n s0 Pr ->
    outcome d sol draw post n R s0 i = Some (Ok F) -> facts n R Pr F.
  Proof.
    intros Hn HPr H. unfold outcome in H.
    destruct (draw_list draw true (n_boots_sel d) (R 0)) as [[sps r1]|e] eqn:Ed.
    2: { unfold at_rank in H. destruct (i =? 0); discriminate. }
    destruct (all_ok n (sel_result d sol n s0 sps)) eqn:Es.
    2: { unfold failing in H. destruct (sel_result d sol n s0 sps i); discriminate. }
    destruct (intersect d _) as [sup|e] eqn:Ei in H.
    2: { unfold at_rank in H. destruct (i =? 0); discriminate. }
    destruct (n_supports sup) as [ns|e] eqn:En; [|discriminate].
    destruct (draw_list draw false (n_boots_est d) r1) as [[sps2 r2]|e] eqn:Ed2.
    2: { unfold at_rank in H. destruct (i =? 0); discriminate. }
    destruct (all_ok n (est_result d sol n sup ns sps2)) eqn:Ee.
    2: { unfold failing in H. destruct (est_result d sol n sup ns sps2 i); discriminate. }
    cbv zeta in H.
    destruct (finish d (sol 0) ns _ _) as [x|e] eqn:Ef in H.
    2: { unfold at_rank in H. destruct (i =? 0); discriminate. }
    injection H as HF.
    exists sps, r1, (concat (map (fun i => ok_or [] (sel_result d sol n s0 sps i)) (seq 0 n))), sup, ns, sps2, r2,
      (concat (map (fun i => ok_or [] (est_result d sol n sup ns sps2 i)) (seq 0 n))), x.
    split; [exact Ed|]. split; [|split; [exact Ei|split; [exact En|split; [exact Ed2|split; [|split; [exact Ef|exact HF]]]]]].
    - pose proof (all_ok_true n Hn _ [] Es) as Hok.
      assert (Et : seq 0 (sel_count n) = concat (map (sel_tasks d n) (seq 0 n))).
      { unfold sel_tasks, sel_count. destruct (many d n); symmetry; apply array_split_concat; lia. }
      rewrite Et. apply Forall2_concat. intros j Hj. apply in_seq in Hj.
      specialize (Hok j ltac:(lia)).
      unfold sel_result in *. destruct (sel_loop d (sol j) n _ _ _ _) as [y|] eqn:El; [|discriminate].
      simpl. apply (HPr sps (sel_keys d n j) j y ltac:(lia) (draw_list_length _ _ _ _ _ Ed)); [|exact El].
      intros t Ht. unfold sel_keys. now apply in_map.
    - rewrite <- (array_split_concat (n_boots_est d * ns) n) by lia.
      pose proof (all_ok_true n Hn _ [] Ee) as Hok.
      apply Forall2_concat. intros j Hj. apply in_seq in Hj.
      specialize (Hok j ltac:(lia)).
      destruct (est_result d sol n sup ns sps2 j) as [o|] eqn:Eo; [|discriminate]. simpl.
      unfold est_result in Eo. eapply est_mapM_prov; [|exact Eo]. lia.
  Qed.

  Lemma facts_serial (R : nat -> Rng) s0 Pr F : loops_give 1 s0 Pr ->
    serial_result d (sol 0) draw post (R 0) (s0 0) = Ok F -> facts 1 R Pr F.
  Proof.
    unfold serial_result. intros HPr H.
    destruct (draw_list draw true (n_boots_sel d) (R 0)) as [[sps r1]|e] eqn:Ed; [|discriminate].
    cbn [bind fst snd] in H.
    destruct (sel_loop d (sol 0) 1 _ _ _ _) as [y|] eqn:El in H; [|discriminate].
    cbn [bind rmap] in H.
    destruct (intersect d _) as [sup|e] eqn:Ei in H; [|discriminate]. cbn [bind] in H.
    destruct (n_supports sup) as [ns|e] eqn:En; [|discriminate]. cbn [bind] in H.
    destruct (draw_list draw false (n_boots_est d) r1) as [[sps2 r2]|e] eqn:Ed2; [|discriminate].
    cbn [bind fst snd] in H.
    destruct (mapM _ _) as [outs|e] eqn:Eo in H; [|discriminate]. cbn [bind] in H.
    destruct (finish d (sol 0) ns _ _) as [x|e] eqn:Ef in H; [|discriminate]. cbn [bind] in H.
    exists sps, r1, (snd y), sup, ns, sps2, r2, outs, x.
    split; [exact Ed|]. split; [|split; [exact Ei|split; [exact En|split; [exact Ed2|split; [|split; [exact Ef|exact H]]]]]].
    - pose proof (draw_list_length _ _ _ _ _ Ed) as Hlen. simpl in Hlen.
      assert (Et : seq 0 (sel_count 1) = sel_tasks d 1 0).
      { unfold sel_tasks, sel_count. rewrite many_1 by assumption. symmetry. apply split_1. }
      rewrite Et. apply (HPr sps (map fst (numbered 0 sps)) 0 y); auto.
      + intros t Ht. unfold sel_tasks, sel_boot in *. rewrite many_1 in * by assumption.
        rewrite split_1 in Ht. unfold numbered.
        assert (Em : forall (a : list nat) (b : list split), length a = length b -> map fst (combine a b) = a).
        { induction a as [|u a IH]; intros [|v b]; simpl; intro L; try lia; auto. f_equal. apply IH. lia. }
        rewrite Em by apply seq_length. now rewrite Hlen.
      + rewrite own_all, <- Et. unfold sel_count. rewrite many_1 by assumption. exact El.
    - rewrite <- (own_all (numbered 0 sps2)) in Eo.
      eapply est_mapM_prov; [|exact Eo]. lia.
  Qed.

  Lemma facts_returned n (R : nat -> Rng) s0 Pr F : loops_give n s0 Pr ->
    returned env d sol draw post n false R s0 F -> facts n R Pr F.
  Proof.
    intros HPr (wait & m & cf & i & Hi & Hs & Hp).
    destruct (Nat.eq_dec n 1) as [->|Hn].
    - assert (Hr : runs 1 (fun i => fit env d (sol i) draw post 1 i false (R i) (s0 i))
                       (fun i => serial_result d (sol 0) draw post (R 0) (s0 0))).
      { apply RunDone. intros j Hj. assert (j = 0) by lia. subst j. unfold fit.
        now apply serial_eq. }
      destruct (runs_async _ _ _ Hr) as (_ & _ & H3).
      symmetry in Hp. pose proof (H3 wait m cf Hs i _ Hi (eq_sym Hp)) as Ho.
      apply (facts_serial R s0); [exact HPr|]. symmetry. exact Ho.
    - assert (Hn' : 1 < n) by lia.
      pose proof (hruns_async _ _ _ (fit_outcome env d sol draw post n Hn' R s0 Hshape)) as (_ & H2 & _).
      apply (facts_dist n R s0 Pr i F Hn' HPr). exact (H2 wait m cf Hs i _ Hi Hp).
  Qed.
End Summary.

(** * Choice of the supports and bagging *)
Lemma nth_map_lt {A B} (f : A -> B) l i da db : i < length l ->
  nth i (map f l) db = f (nth i l da).
Proof. intro H. rewrite nth_indep with (d' := f da) by now rewrite map_length. apply map_nth. Qed.

Lemma finish_facts {S E} d (sol : solver S E) ns (outs : list (list f64 * f64)) x :
  Forall (fun o => length (fst o) = n_coef d) outs -> length outs = n_boots_est d * ns ->
  finish d sol ns (concat (map fst outs)) (map snd outs) = Ok x ->
  exists ests scs rp coef ic,
    x = (ests, scs, rp, nd_of_floats [out_dim d; n_feat d] coef, ic) /\
    nd_shape ests = [n_boots_est d; ns; n_coef d] /\ nd_shape scs = [n_boots_est d; ns] /\
    nd_shape rp = [n_boots_est d] /\
    (forall b j k, b < n_boots_est d -> j < ns -> k < n_coef d ->
       at3 ests b j k = nth k (fst (nth (b * ns + j) outs ([], fnan))) fnan) /\
    (forall b j, b < n_boots_est d -> j < ns -> at2 scs b j = snd (nth (b * ns + j) outs ([], fnan))) /\
    (forall b, b < n_boots_est d -> np_argmax (map (at2 scs b) (seq 0 ns)) = Ok (index_at rp b)) /\
    length coef = n_coef d /\
    (forall k, k < n_coef d -> nth k coef fzero
       = np_median (map (fun b => at3 ests b (index_at rp b) k) (seq 0 (n_boots_est d)))) /\
    fit_int sol coef = Ok ic.
Proof.
  intros Hf Hl H. unfold finish in H.
  destruct (mapM np_argmax _) as [rp|] eqn:Erp; cbn [bind] in H; [|discriminate].
  match type of H with context [fit_int sol ?c] => set (coef := c) in * end.
  destruct (fit_int sol coef) as [ic|] eqn:Eic; cbn [bind] in H; [|discriminate].
  injection H as <-.
  set (ests := nd_of_floats [n_boots_est d; ns; n_coef d] (concat (map fst outs))) in *.
  set (scs := nd_of_floats [n_boots_est d; ns] (map snd outs)) in *.
  assert (Hrows : Forall (fun r => length r = n_coef d) (map fst outs)).
  { apply Forall_forall. intros r Hr. apply in_map_iff in Hr as (o & <- & Ho).
    rewrite Forall_forall in Hf. auto. }
  assert (Hlen : length (concat (map fst outs)) = n_boots_est d * (ns * n_coef d)).
  { rewrite (concat_length_const (n_coef d)) by assumption. rewrite map_length. lia. }
  assert (A3 : forall b j k, b < n_boots_est d -> j < ns -> k < n_coef d ->
     at3 ests b j k = nth k (fst (nth (b * ns + j) outs ([], fnan))) fnan).
  { intros b j k Hb Hj Hk. unfold at3, ests, nd_of_floats. cbn [nd_shape nd_data].
    pose proof (flat_lt b j _ _ Hb Hj) as Hbj.
    rewrite <- (map_nth fst). cbn [fst].
    rewrite (concat_nth (n_coef d)) by (auto; rewrite ?map_length; lia).
    rewrite (map_nth SFlt). reflexivity. }
  assert (A2 : forall b j, b < n_boots_est d -> j < ns ->
     at2 scs b j = snd (nth (b * ns + j) outs ([], fnan))).
  { intros b j Hb Hj. unfold at2, scs, nd_of_floats. cbn [nd_shape nd_data].
    rewrite (map_nth SFlt). rewrite <- (map_nth snd). reflexivity. }
  assert (Hls : length (map snd outs) = n_boots_est d * ns) by now rewrite map_length.
  destruct (chunks_spec _ _ _ Hls) as [Hc1 Hc2].
  pose proof (mapM_length _ _ _ Erp) as Hrp. rewrite Hc1 in Hrp.
  assert (Ix : forall b, b < n_boots_est d -> index_at (nd_of_nats rp) b = nth b rp 0).
  { intros b Hb. unfold index_at, nd_of_nats. cbn [nd_data].
    rewrite (nth_map_lt _ _ _ 0) by lia. apply Nat2Z.id. }
  assert (Am : forall b, b < n_boots_est d ->
     np_argmax (map (at2 scs b) (seq 0 ns)) = Ok (index_at (nd_of_nats rp) b)).
  { intros b Hb. rewrite Ix by assumption.
    rewrite <- (mapM_nth _ _ [] 0 _ Erp b) by lia. f_equal.
    assert (Hlb : length (nth b (chunks ns (n_boots_est d) (map snd outs)) []) = ns).
    { rewrite Forall_forall in Hc2. apply Hc2. apply nth_In. lia. }
    apply (nth_ext _ _ fnan fnan).
    - rewrite map_length, seq_length. lia.
    - intros j Hj. rewrite map_length, seq_length in Hj.
      rewrite nth_map_seq by assumption. rewrite A2 by assumption.
      rewrite (chunks_nth _ _ _ _ _ _ Hls) by assumption.
      rewrite (nth_map_lt _ _ _ ([], fnan)); [reflexivity|]. rewrite Hl. now apply flat_lt. }
  exists ests, scs, (nd_of_nats rp), coef, ic.
  split; [reflexivity|]. split; [reflexivity|]. split; [reflexivity|].
  split; [unfold nd_of_nats; simpl; now rewrite Hrp|]. split; [exact A3|]. split; [exact A2|].
  split; [exact Am|]. split; [unfold coef; now rewrite map_length, seq_length|].
  split; [|exact Eic].
  intros k Hk. unfold coef. rewrite nth_map_seq by assumption. f_equal.
  destruct (chunks_spec _ _ _ Hlen) as [Hd1 Hd2].
  set (est := map (chunks (n_coef d) ns) (chunks (ns * n_coef d) (n_boots_est d) (concat (map fst outs)))).
  assert (Hest : length est = n_boots_est d) by (unfold est; now rewrite map_length).
  apply (nth_ext _ _ fnan fnan).
  - rewrite !map_length, combine_length, seq_length. lia.
  - intros b Hb. rewrite !map_length, combine_length in Hb.
    assert (Hb' : b < n_boots_est d) by lia.
    rewrite nth_map_seq by assumption.
    rewrite (nth_map_lt _ _ _ []) by (rewrite map_length, combine_length; lia).
    rewrite (nth_map_lt _ _ _ ([], 0)) by (rewrite combine_length; lia).
    rewrite combine_nth by lia. cbn [fst snd].
    rewrite Ix by assumption.
    pose proof (np_argmax_lt _ _ (Am b Hb')) as Hlt. rewrite map_length, seq_length, Ix in Hlt by assumption.
    rewrite A3 by assumption.
    unfold est. rewrite (nth_map_lt _ _ _ []) by lia.
    assert (Hcb : length (nth b (chunks (ns * n_coef d) (n_boots_est d) (concat (map fst outs))) []) = ns * n_coef d).
    { rewrite Forall_forall in Hd2. apply Hd2. apply nth_In. lia. }
    rewrite (chunks_nth _ _ _ _ _ _ Hcb) by assumption.
    rewrite (chunks_nth _ _ _ _ _ _ Hlen) by (auto; now apply flat_lt).
    rewrite <- (map_nth fst). cbn [fst].
    pose proof (flat_lt b (nth b rp 0) _ _ Hb' Hlt) as Hbj.
    rewrite (concat_nth (n_coef d)) by (auto; rewrite ?map_length; lia).
    rewrite nth_indep with (d' := fnan).
    + f_equal. lia.
    + rewrite Hlen. rewrite Nat.mul_assoc. rewrite Nat.mul_assoc, Nat.add_assoc, <- Nat.mul_add_distr_r.
      apply flat_lt; assumption.
Qed.
