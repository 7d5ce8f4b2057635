From Coq Require Import ZArith List Bool Arith Lia Permutation.
From Verif Require Import Prelude F64 Model_Intersection Spec_Intersection.
Import ListNotations.

(** * List facts *)

Lemma count_filter {A} (p : A -> bool) l : count p l = length (filter p l).
Proof. induction l as [|x l IH]; simpl; auto. destruct (p x); simpl; lia. Qed.

Lemma count_ext {A} (p q : A -> bool) l : (forall x, In x l -> p x = q x) ->
  count p l = count q l.
Proof.
  induction l as [|x l IH]; simpl; auto; intros H.
  rewrite (H x) by auto. rewrite IH by auto. reflexivity.
Qed.

Lemma count_perm {A} (p : A -> bool) l l' : Permutation l l' -> count p l = count p l'.
Proof.
  induction 1; simpl; auto; try lia.
Qed.

Lemma filter_map_comm {A B} (f : A -> B) (p : B -> bool) l :
  filter p (map f l) = map f (filter (fun x => p (f x)) l).
Proof. induction l as [|x l IH]; simpl; auto. destruct (p (f x)); simpl; congruence. Qed.

Lemma seq_nth_id {A} (l : list A) d : map (fun i => nth i l d) (seq 0 (length l)) = l.
Proof.
  induction l as [|x l IH]; simpl; auto. f_equal.
  rewrite <- seq_shift, map_map. exact IH.
Qed.

Lemma count_nth {A} (p : A -> bool) l d :
  count p l = length (filter (fun i => p (nth i l d)) (seq 0 (length l))).
Proof.
  rewrite count_filter. rewrite <- (seq_nth_id l d) at 1.
  rewrite filter_map_comm, map_length. reflexivity.
Qed.

Lemma count_le_length {A} (p : A -> bool) l : count p l <= length l.
Proof. induction l as [|x l IH]; simpl; auto. destruct (p x); lia. Qed.

(** * Sorting without duplicates *)

Section USort.
  Context {A : Type} (cmp : A -> A -> comparison) (lt : A -> A -> Prop).
  Hypothesis cmp_eq : forall a b, cmp a b = Eq <-> a = b.
  Hypothesis cmp_lt : forall a b, cmp a b = Lt <-> lt a b.
  Hypothesis cmp_gt : forall a b, cmp a b = Gt <-> lt b a.
  Hypothesis lt_trans : forall a b c, lt a b -> lt b c -> lt a c.

  Fixpoint sorted_lt (l : list A) : Prop :=
    match l with [] => True | a :: r => Forall (lt a) r /\ sorted_lt r end.

  Lemma uinsert_in x y l : In x (uinsert cmp y l) <-> x = y \/ In x l.
  Proof.
    induction l as [|z l IH]; simpl.
    - intuition.
    - destruct (cmp y z) eqn:E; simpl.
      + apply cmp_eq in E. subst. intuition.
      + intuition.
      + rewrite IH. intuition.
  Qed.

  Lemma usort_in x l : In x (usort cmp l) <-> In x l.
  Proof.
    induction l as [|y l IH]; simpl; [tauto|]. rewrite uinsert_in, IH. intuition.
  Qed.

  Lemma uinsert_sorted x l : sorted_lt l -> sorted_lt (uinsert cmp x l).
  Proof.
    induction l as [|z l IH]; simpl; intro H.
    - split; constructor.
    - destruct H as [H1 H2]. destruct (cmp x z) eqn:E; simpl.
      + now split.
      + apply cmp_lt in E. split; [|now split]. constructor; auto.
        eapply Forall_impl; [|exact H1]. intros a Ha. eapply lt_trans; eauto.
      + apply cmp_gt in E. split; [|now apply IH].
        apply Forall_forall. intros y Hy. apply uinsert_in in Hy.
        destruct Hy as [->|Hy]; auto. rewrite Forall_forall in H1. now apply H1.
  Qed.

  Lemma usort_sorted l : sorted_lt (usort cmp l).
  Proof. induction l; simpl; [exact I|]. now apply uinsert_sorted. Qed.

  Hypothesis lt_irrefl : forall a, ~ lt a a.

  (** A strictly sorted list is determined by its elements. *)
  Lemma sorted_ext l l' : sorted_lt l -> sorted_lt l' ->
    (forall x, In x l <-> In x l') -> l = l'.
  Proof.
    revert l'. induction l as [|a l IH]; intros l' H H' E.
    - destruct l' as [|b l']; auto. exfalso. apply (E b). now left.
    - destruct l' as [|b l']; [exfalso; apply (E a); now left|].
      destruct H as [H1 H2], H' as [H1' H2'].
      rewrite Forall_forall in H1, H1'.
      assert (a = b).
      { destruct (proj1 (E a) (or_introl eq_refl)) as [->|Ha]; auto.
        destruct (proj2 (E b) (or_introl eq_refl)) as [->|Hb]; auto.
        exfalso. apply (lt_irrefl a). eapply lt_trans; eauto. }
      subst b. f_equal. apply IH; auto. intro x. split; intro Hx.
      + destruct (proj1 (E x) (or_intror Hx)) as [<-|?]; auto.
        exfalso. apply (lt_irrefl a). now apply H1.
      + destruct (proj2 (E x) (or_intror Hx)) as [<-|?]; auto.
        exfalso. apply (lt_irrefl a). now apply H1'.
  Qed.
End USort.

(** Rows. *)
Lemma row_cmp_eq a b : row_cmp a b = Eq <-> a = b.
Proof.
  revert b. induction a as [|x a IH]; destruct b as [|y b]; simpl; try easy.
  destruct x, y; simpl; rewrite ?IH; split; intro H; try congruence; inversion H; auto.
Qed.

Lemma row_cmp_lt a b : row_cmp a b = Lt <-> lex_lt a b.
Proof.
  revert b. induction a as [|x a IH]; destruct b as [|y b]; simpl.
  - split; [discriminate|]. intro H; inversion H.
  - split; [constructor|auto].
  - split; [discriminate|]. intro H; inversion H.
  - destruct x, y; simpl; rewrite ?IH; split; intro H;
      try discriminate; try (constructor; assumption); auto; inversion H; auto.
Qed.

Lemma row_cmp_gt a b : row_cmp a b = Gt <-> lex_lt b a.
Proof.
  revert b. induction a as [|x a IH]; destruct b as [|y b]; simpl.
  - split; [discriminate|]. intro H; inversion H.
  - split; [discriminate|]. intro H; inversion H.
  - split; [constructor|auto].
  - destruct x, y; simpl; rewrite ?IH; split; intro H;
      try discriminate; try (constructor; assumption); auto; inversion H; auto.
Qed.

Lemma lex_trans a b c : lex_lt a b -> lex_lt b c -> lex_lt a c.
Proof.
  intro H. revert c. induction H; intros c Hc; inversion Hc; subst; constructor; auto.
Qed.

Lemma lex_irrefl a : ~ lex_lt a a.
Proof. induction a as [|x a IH]; intro H; inversion H; subst; auto. Qed.

Lemma sorted_increasing l : sorted_lt lex_lt l <-> increasing l.
Proof. induction l as [|a l IH]; simpl; [tauto|]. now rewrite IH. Qed.

Lemma usort_rows_in x l : In x (usort row_cmp l) <-> In x l.
Proof. apply usort_in. apply row_cmp_eq. Qed.

Lemma usort_rows_increasing l : increasing (usort row_cmp l).
Proof.
  apply sorted_increasing. apply usort_sorted.
  - apply row_cmp_eq.
  - apply row_cmp_lt.
  - apply row_cmp_gt.
  - apply lex_trans.
Qed.

Lemma increasing_NoDup l : increasing l -> NoDup l.
Proof.
  induction l as [|a l IH]; simpl; intro H; constructor; destruct H as [H1 H2]; auto.
  intro Hin. rewrite Forall_forall in H1. apply (lex_irrefl a). now apply H1.
Qed.

Lemma increasing_ext l l' : increasing l -> increasing l' ->
  (forall x, In x l <-> In x l') -> l = l'.
Proof.
  rewrite <- !sorted_increasing. apply sorted_ext.
  - apply lex_trans.
  - apply lex_irrefl.
Qed.

(** Booleans. *)
Definition blt (a b : bool) : Prop := a = false /\ b = true.
Lemma bool_cmp_eq a b : bool_cmp a b = Eq <-> a = b.
Proof. destruct a, b; simpl; split; congruence. Qed.
Lemma usort_bool_in x l : In x (usort bool_cmp l) <-> In x l.
Proof. apply usort_in. apply bool_cmp_eq. Qed.

Lemma usort_bool_shape l :
  usort bool_cmp l = [] \/ usort bool_cmp l = [false] \/
  usort bool_cmp l = [true] \/ usort bool_cmp l = [false; true].
Proof.
  induction l as [|x l IH]; simpl; auto.
  destruct IH as [E|[E|[E|E]]]; rewrite E; destruct x; simpl; auto.
Qed.

(** * The rows of [intersection] *)

Definition row_of (c : coefs3) (t : Z) (r : nat) : list bool :=
  map (fun j => (t <=? Z.of_nat (times_selected c r j))%Z) (seq 0 (c_feat c)).

Lemma count_times c r j :
  count (fun b => nonzero64 (entry b r j)) (c_data c) = times_selected c r j.
Proof. unfold times_selected. rewrite (count_nth _ _ []). reflexivity. Qed.

Lemma support_rows_eq c t : support_rows c t = map (row_of c t) (seq 0 (c_reg c)).
Proof.
  unfold support_rows. apply map_ext. intro r. unfold row_of. apply map_ext.
  intro j. now rewrite count_times.
Qed.

Lemma all_rows_in c ts m :
  In m (all_support_rows c ts) <->
  exists t r, In t ts /\ r < c_reg c /\ m = row_of c t r.
Proof.
  unfold all_support_rows. rewrite in_flat_map. split.
  - intros (t & Ht & Hm). rewrite support_rows_eq, in_map_iff in Hm.
    destruct Hm as (r & <- & Hr). apply in_seq in Hr. exists t, r. repeat split; auto. lia.
  - intros (t & r & Ht & Hr & ->). exists t. split; auto. rewrite support_rows_eq.
    apply in_map. apply in_seq. lia.
Qed.

Lemma all_rows_length c ts : length (all_support_rows c ts) = length ts * c_reg c.
Proof.
  unfold all_support_rows. induction ts as [|t ts IH]; simpl; auto.
  rewrite app_length, IH, support_rows_eq, map_length, seq_length. lia.
Qed.

Lemma row_of_length c t r : length (row_of c t r) = c_feat c.
Proof. unfold row_of. now rewrite map_length, seq_length. Qed.

Lemma nth_map_seq {A} (f : nat -> A) n j d : j < n -> nth j (map f (seq 0 n)) d = f j.
Proof.
  intro H. rewrite (nth_indep _ d (f 0)) by (rewrite map_length, seq_length; exact H).
  rewrite map_nth, seq_nth by exact H. f_equal.
Qed.

Lemma row_of_nth c t r j : j < c_feat c ->
  nth j (row_of c t r) false = (t <=? Z.of_nat (times_selected c r j))%Z.
Proof. intro H. unfold row_of. now rewrite nth_map_seq. Qed.

Lemma is_support_row c t r m : is_support c t r m <-> m = row_of c t r.
Proof.
  split.
  - intros [Hl H]. apply nth_ext with (d := false) (d' := false).
    + now rewrite row_of_length.
    + intros j Hj. rewrite Hl in Hj. rewrite row_of_nth by exact Hj.
      specialize (H j Hj). destruct (nth j m false).
      * symmetry. apply Z.leb_le. now apply H.
      * symmetry. apply Z.leb_gt. destruct (Z.leb_spec t (Z.of_nat (times_selected c r j))); auto.
        apply H in H0. discriminate.
  - intros ->. split; [apply row_of_length|]. intros j Hj.
    rewrite row_of_nth by exact Hj. apply Z.leb_le.
Qed.

(** Both axes have at least two entries: no axis is squeezed away. *)
Lemma intersection_rank2 c ts :
  2 <= length ts * c_reg c -> 2 <= c_feat c ->
  intersection c (Some ts) =
  Ok (Arr2 (c_feat c) (usort row_cmp (all_support_rows c ts))).
Proof.
  intros Hm Hp. unfold intersection, squeeze2. rewrite all_rows_length.
  destruct (Nat.eqb_spec (length ts * c_reg c) 1); [lia|].
  destruct (Nat.eqb_spec (c_feat c) 1); [lia|]. reflexivity.
Qed.

Lemma rows_usort_in c ts m :
  In m (usort row_cmp (all_support_rows c ts)) <->
  exists t r, In t ts /\ r < c_reg c /\ is_support c t r m.
Proof.
  rewrite usort_rows_in, all_rows_in. split; intros (t & r & H1 & H2 & H3); exists t, r.
  - split; [exact H1|]. split; [exact H2|]. now apply is_support_row.
  - split; [exact H1|]. split; [exact H2|]. now apply is_support_row.
Qed.

Theorem intersection_exact c ts :
  2 <= length ts * c_reg c -> 2 <= c_feat c ->
  exists rows, intersection c (Some ts) = Ok (Arr2 (c_feat c) rows) /\
    (forall mask, In mask rows <->
       exists t r, In t ts /\ r < c_reg c /\ is_support c t r mask) /\
    increasing rows /\ NoDup rows.
Proof.
  intros Hm Hp. eexists. split; [now apply intersection_rank2|]. split.
  - intro. apply rows_usort_in.
  - split; [apply usort_rows_increasing|]. apply increasing_NoDup, usort_rows_increasing.
Qed.

(** * Independence of order and magnitude *)

Lemma support_rows_counts c c' t :
  c_reg c = c_reg c' -> c_feat c = c_feat c' ->
  (forall r j, r < c_reg c -> j < c_feat c -> times_selected c r j = times_selected c' r j) ->
  support_rows c t = support_rows c' t.
Proof.
  intros E1 E2 H. rewrite !support_rows_eq, <- E1. apply map_ext_in. intros r Hr.
  apply in_seq in Hr. unfold row_of. rewrite <- E2. apply map_ext_in. intros j Hj.
  apply in_seq in Hj. rewrite H by lia. reflexivity.
Qed.

Lemma all_rows_counts c c' ts :
  c_reg c = c_reg c' -> c_feat c = c_feat c' ->
  (forall r j, r < c_reg c -> j < c_feat c -> times_selected c r j = times_selected c' r j) ->
  all_support_rows c ts = all_support_rows c' ts.
Proof.
  intros E1 E2 H. unfold all_support_rows. induction ts as [|t ts IH]; simpl; auto.
  rewrite IH. f_equal. now apply support_rows_counts.
Qed.

Theorem intersection_perm c data' ts :
  Permutation (c_data c) data' ->
  intersection c ts = intersection (mkCoefs (c_reg c) (c_feat c) data') ts.
Proof.
  intro P. unfold intersection. simpl. rewrite (Permutation_length P).
  f_equal. f_equal. apply all_rows_counts; auto.
  intros r j _ _. rewrite <- !count_times. simpl. now apply count_perm.
Qed.

Theorem intersection_pattern c c' ts :
  c_reg c = c_reg c' -> c_feat c = c_feat c' ->
  length (c_data c) = length (c_data c') ->
  (forall b r j, b < length (c_data c) -> r < c_reg c -> j < c_feat c ->
     nonzero64 (coef_at c b r j) = nonzero64 (coef_at c' b r j)) ->
  intersection c ts = intersection c' ts.
Proof.
  intros E1 E2 E3 H. unfold intersection. rewrite E3, E2. f_equal. f_equal.
  apply all_rows_counts; auto.
  intros r j Hr Hj. unfold times_selected. rewrite <- E3. f_equal.
  apply filter_ext_in. intros b Hb. apply in_seq in Hb. apply H; lia.
Qed.

(** * Monotonicity in the threshold *)

Lemma support_mono c t t' r m m' : (t <= t')%Z ->
  is_support c t r m -> is_support c t' r m' ->
  forall j, j < c_feat c -> nth j m' false = true -> nth j m false = true.
Proof.
  intros Hle [_ H] [_ H'] j Hj Hm. apply H; auto. apply H' in Hm; auto. lia.
Qed.

Theorem intersection_monotone c t t' rows rows' :
  2 <= c_reg c -> 2 <= c_feat c -> (t <= t')%Z ->
  intersection c (Some [t]) = Ok (Arr2 (c_feat c) rows) ->
  intersection c (Some [t']) = Ok (Arr2 (c_feat c) rows') ->
  forall m', In m' rows' ->
  exists m, In m rows /\
    forall j, j < c_feat c -> nth j m' false = true -> nth j m false = true.
Proof.
  intros Hr Hp Hle E E' m' Hm'.
  rewrite intersection_rank2 in E, E' by (simpl; lia).
  assert (R : rows = usort row_cmp (all_support_rows c [t])) by congruence.
  assert (R' : rows' = usort row_cmp (all_support_rows c [t'])) by congruence.
  clear E E'. subst rows rows'. apply rows_usort_in in Hm'. destruct Hm' as (u & r & Hu & Hrr & S').
  destruct Hu as [<-|[]].
  exists (row_of c t r). split.
  - apply rows_usort_in. exists t, r. split; [now left|]. split; [exact Hrr|]. now apply is_support_row.
  - eapply support_mono; eauto. now apply is_support_row.
Qed.

Lemma filter_length_all {A} (p : A -> bool) l :
  length l <= length (filter p l) <-> forall x, In x l -> p x = true.
Proof.
  induction l as [|x l IH]; simpl.
  - split; [intros _ y []|lia].
  - destruct (p x) eqn:E; simpl.
    + split.
      * intros H y [<-|Hy]; auto. apply IH; auto. lia.
      * intro H. apply le_n_S. apply IH. auto.
    + split.
      * intro H. exfalso. assert (length (filter p l) <= length l).
        { clear. induction l; simpl; auto. destruct (p a); simpl; lia. }
        lia.
      * intro H. rewrite (H x) in E by auto. discriminate.
Qed.

Lemma times_all c r j :
  length (c_data c) <= times_selected c r j <->
  forall b, b < length (c_data c) -> nonzero64 (coef_at c b r j) = true.
Proof.
  unfold times_selected.
  rewrite <- (seq_length (length (c_data c)) 0) at 1.
  rewrite filter_length_all. split; intros H b Hb.
  - apply H. apply in_seq. lia.
  - apply in_seq in Hb. apply H. lia.
Qed.

Lemma filter_length_some {A} (p : A -> bool) l :
  1 <= length (filter p l) <-> exists x, In x l /\ p x = true.
Proof.
  split.
  - intro H. destruct (filter p l) as [|x f] eqn:E; [simpl in H; lia|].
    assert (Hx : In x (filter p l)) by (rewrite E; now left).
    apply filter_In in Hx. eauto.
  - intros (x & Hx & Hp). assert (Hf : In x (filter p l)) by now apply filter_In.
    destruct (filter p l); simpl in *; [contradiction|lia].
Qed.

Lemma times_some c r j :
  1 <= times_selected c r j <->
  exists b, b < length (c_data c) /\ nonzero64 (coef_at c b r j) = true.
Proof.
  unfold times_selected. rewrite filter_length_some. split; intros (b & Hb & Hn).
  - apply in_seq in Hb. exists b. split; auto. lia.
  - exists b. split; auto. apply in_seq. lia.
Qed.

Theorem hard_intersection c :
  2 <= c_reg c -> 2 <= c_feat c ->
  intersection c None = intersection c (Some [Z.of_nat (length (c_data c))]) /\
  exists rows, intersection c None = Ok (Arr2 (c_feat c) rows) /\
  forall mask, In mask rows <->
    length mask = c_feat c /\
    exists r, r < c_reg c /\
      forall j, j < c_feat c ->
        (nth j mask false = true <->
         forall b, b < length (c_data c) -> nonzero64 (coef_at c b r j) = true).
Proof.
  intros Hr Hp. split; [reflexivity|].
  destruct (intersection_exact c [Z.of_nat (length (c_data c))]) as (rows & E & H & _);
    [simpl; lia|exact Hp|].
  exists rows. split; [exact E|]. intro mask. rewrite H. split.
  - intros (t & r & [<-|[]] & Hr' & [Hl Hs]). split; [exact Hl|]. exists r. split; auto.
    intros j Hj. rewrite (Hs j Hj), <- times_all. lia.
  - intros (Hl & r & Hr' & Hs). exists (Z.of_nat (length (c_data c))), r.
    split; [now left|]. split; auto. split; auto.
    intros j Hj. rewrite (Hs j Hj), <- times_all. lia.
Qed.

Theorem soft_one_intersection c :
  2 <= c_reg c -> 2 <= c_feat c ->
  exists rows, intersection c (Some [1%Z]) = Ok (Arr2 (c_feat c) rows) /\
  forall mask, In mask rows <->
    length mask = c_feat c /\
    exists r, r < c_reg c /\
      forall j, j < c_feat c ->
        (nth j mask false = true <->
         exists b, b < length (c_data c) /\ nonzero64 (coef_at c b r j) = true).
Proof.
  intros Hr Hp.
  destruct (intersection_exact c [1%Z]) as (rows & E & H & _); [simpl; lia|exact Hp|].
  exists rows. split; [exact E|]. intro mask. rewrite H. split.
  - intros (t & r & [<-|[]] & Hr' & [Hl Hs]). split; [exact Hl|]. exists r. split; auto.
    intros j Hj. rewrite (Hs j Hj), <- times_some. lia.
  - intros (Hl & r & Hr' & Hs). exists 1%Z, r.
    split; [now left|]. split; auto. split; auto.
    intros j Hj. rewrite (Hs j Hj), <- times_some. lia.
Qed.

(** * Degenerate shapes *)

Theorem degenerate_single_row c t mask :
  c_reg c = 1 -> 2 <= c_feat c -> is_support c t 0 mask ->
  exists l, intersection c (Some [t]) = Ok (Arr1 l) /\
    (forall b, In b l <-> In b mask) /\
    (l = [false] \/ l = [true] \/ l = [false; true]).
Proof.
  intros Er Hp Hs. apply is_support_row in Hs.
  unfold intersection, squeeze2. rewrite all_rows_length. simpl length. rewrite Er.
  change (1 * 1 =? 1) with true.
  destruct (Nat.eqb_spec (c_feat c) 1); [lia|].
  assert (Eh : hd [] (all_support_rows c [t]) = mask).
  { unfold all_support_rows. simpl. rewrite app_nil_r, support_rows_eq, Er. simpl. auto. }
  rewrite Eh. simpl. eexists. split; [reflexivity|]. split.
  - intro b. apply usort_bool_in.
  - destruct (usort_bool_shape mask) as [E|E]; auto. exfalso.
    assert (L : length mask = c_feat c) by (subst mask; apply row_of_length).
    destruct mask as [|b m]; [simpl in L; lia|].
    assert (In b (usort bool_cmp (b :: m))) by (apply usort_bool_in; now left).
    rewrite E in H. contradiction.
Qed.

Theorem degenerate_single_column c ts :
  c_feat c = 1 -> 2 <= length ts * c_reg c ->
  exists l, intersection c (Some ts) = Ok (Arr1 l) /\
    forall b, In b l <->
      exists t r, In t ts /\ r < c_reg c /\ is_support c t r [b].
Proof.
  intros Ep Hm. unfold intersection, squeeze2. rewrite all_rows_length, Ep.
  destruct (Nat.eqb_spec (length ts * c_reg c) 1); [lia|].
  change (1 =? 1) with true. simpl. eexists. split; [reflexivity|].
  intro b. rewrite usort_bool_in, in_map_iff. split.
  - intros (m & Eb & Hm'). apply all_rows_in in Hm'. destruct Hm' as (t & r & Ht & Hr & ->).
    exists t, r. split; [exact Ht|]. split; [exact Hr|]. apply is_support_row. subst b.
    unfold row_of; rewrite Ep; reflexivity.
  - intros (t & r & Ht & Hr & Hs). apply is_support_row in Hs.
    exists [b]. split; auto. apply all_rows_in. exists t, r. auto.
Qed.

Theorem degenerate_both c t :
  c_feat c = 1 -> c_reg c = 1 -> intersection c (Some [t]) = Raise ValueError.
Proof.
  intros Ep Er. unfold intersection, squeeze2. rewrite all_rows_length, Ep, Er. reflexivity.
Qed.

(** * Union over classes *)

Lemma or_rows_length rows p : Forall (fun r => length r = p) rows ->
  length (or_rows rows p) = p.
Proof.
  induction rows as [|r rows IH]; simpl; intro H.
  - apply repeat_length.
  - inversion H; subst. rewrite map_length, combine_length, IH by assumption.
    apply Nat.min_id.
Qed.

Lemma or_rows_nth rows p j : Forall (fun r => length r = p) rows -> j < p ->
  nth j (or_rows rows p) false = existsb (fun r => nth j r false) rows.
Proof.
  intros H Hj. induction rows as [|r rows IH]; simpl.
  - apply nth_repeat.
  - inversion H; subst.
    rewrite (nth_indep _ false (false || false)).
    + change (false || false) with ((fun ab : bool * bool => fst ab || snd ab) (false, false)).
      rewrite map_nth, combine_nth by (symmetry; apply or_rows_length; assumption).
      simpl. now rewrite IH.
    + rewrite map_length, combine_length, or_rows_length by assumption. lia.
Qed.

Lemma chunks_spec {A} k n (l : list A) : length l = n * k ->
  length (chunks k n l) = n /\ Forall (fun r => length r = k) (chunks k n l).
Proof.
  revert l. induction n as [|n IH]; simpl; intros l Hl; [split; auto|].
  destruct (IH (skipn k l)) as [H1 H2].
  - rewrite skipn_length. lia.
  - split; [now rewrite H1|]. constructor; auto. rewrite firstn_length. lia.
Qed.

Lemma chunks_nth {A} k n (l : list A) i j d : length l = n * k -> i < n -> j < k ->
  nth j (nth i (chunks k n l) []) d = nth (i * k + j) l d.
Proof.
  revert l i. induction n as [|n IH]; simpl; intros l i Hl Hi Hj; [lia|].
  destruct i as [|i].
  - simpl. rewrite <- (firstn_skipn k l) at 2.
    rewrite app_nth1; [reflexivity|]. rewrite firstn_length. lia.
  - rewrite IH by (try rewrite skipn_length; lia).
    rewrite <- (firstn_skipn k l) at 2.
    rewrite app_nth2 by (rewrite firstn_length; lia).
    rewrite firstn_length. f_equal. replace (Nat.min k (length l)) with k by lia. simpl. lia.
Qed.

Lemma chunks_concat {A} k (rows : list (list A)) : Forall (fun r => length r = k) rows ->
  chunks k (length rows) (concat rows) = rows.
Proof.
  induction rows as [|r rows IH]; simpl; intro H; auto.
  inversion H; subst. f_equal.
  - rewrite firstn_app, Nat.sub_diag, firstn_O, app_nil_r, firstn_all. reflexivity.
  - rewrite skipn_app, Nat.sub_diag, skipn_all. simpl. auto.
Qed.

Lemma concat_length_const {A} k (rows : list (list A)) :
  Forall (fun r => length r = k) rows -> length (concat rows) = length rows * k.
Proof.
  induction 1; simpl; auto. rewrite app_length. lia.
Qed.

Theorem glm_shared_exact c ts dim nf :
  2 <= dim -> 1 <= nf -> c_feat c = dim * nf -> 2 <= length ts * c_reg c ->
  exists rows, glm_intersect dim true c ts = Ok (Arr2 nf rows) /\
    (forall mask, In mask rows <->
       length mask = nf /\
       exists t r, In t ts /\ r < c_reg c /\
         forall j, j < nf ->
           (nth j mask false = true <->
            exists k, k < dim /\ (t <= Z.of_nat (times_selected c r (k * nf + j)))%Z)) /\
    increasing rows /\ NoDup rows.
Proof.
  intros Hd Hnf Hp Hm.
  assert (Hp2 : 2 <= c_feat c) by (rewrite Hp; destruct dim as [|[|d]]; simpl; lia).
  unfold glm_intersect. rewrite intersection_rank2 by assumption. simpl bind.
  replace (1 <? dim) with true by (symmetry; apply Nat.ltb_lt; lia). simpl andb. cbv iota.
  set (rows0 := usort row_cmp (all_support_rows c ts)).
  assert (F0 : Forall (fun r => length r = dim * nf) rows0).
  { apply Forall_forall. intros m H. apply rows_usort_in in H.
    destruct H as (t & r & _ & _ & [L _]). lia. }
  unfold union_over_classes. simpl last_axis. simpl flat. rewrite Hp.
  rewrite (Nat.mul_comm dim nf), Nat.div_mul by lia.
  replace (dim * nf =? 0) with false by (symmetry; apply Nat.eqb_neq; destruct dim; simpl; lia).
  rewrite (concat_length_const _ _ F0).
  rewrite Nat.mod_mul, Nat.div_mul by (destruct dim; simpl; lia). simpl.
  rewrite (chunks_concat _ _ F0).
  eexists. split; [reflexivity|]. split.
  - intro mask. rewrite usort_rows_in, in_map_iff. split.
    + intros (g & <- & Hg). pose proof Hg as Hg'.
      apply rows_usort_in in Hg'. destruct Hg' as (t & r & Ht & Hr & [L S]).
      rewrite Hp in L. destruct (chunks_spec nf dim g L) as [C1 C2].
      split; [now apply or_rows_length|]. exists t, r. split; auto. split; auto.
      intros j Hj. rewrite or_rows_nth by assumption.
      rewrite existsb_exists. split.
      * intros (row & Hrow & Hv). apply In_nth with (d := []) in Hrow.
        destruct Hrow as (k & Hk & <-). rewrite C1 in Hk. exists k. split; auto.
        rewrite (chunks_nth nf dim g k j false L Hk Hj) in Hv.
        apply S; auto. rewrite Hp. apply Nat.lt_le_trans with (k * nf + nf); [lia|].
        replace (k * nf + nf) with (Datatypes.S k * nf) by (simpl; lia). apply Nat.mul_le_mono_r. lia.
      * intros (k & Hk & Hv). exists (nth k (chunks nf dim g) []). split.
        -- apply nth_In. lia.
        -- rewrite (chunks_nth nf dim g k j false L Hk Hj). apply S; auto.
           rewrite Hp. apply Nat.lt_le_trans with (k * nf + nf); [lia|].
           replace (k * nf + nf) with (Datatypes.S k * nf) by (simpl; lia). apply Nat.mul_le_mono_r. lia.
    + intros (Lm & t & r & Ht & Hr & S).
      exists (row_of c t r). split.
      * assert (L : length (row_of c t r) = dim * nf) by (rewrite row_of_length; exact Hp).
        destruct (chunks_spec nf dim _ L) as [C1 C2].
        apply nth_ext with (d := false) (d' := false).
        -- rewrite or_rows_length by assumption. auto.
        -- intros j Hj. rewrite or_rows_length in Hj by assumption.
           rewrite or_rows_nth by assumption.
           apply eq_true_iff_eq. rewrite (S j Hj), existsb_exists. split.
           ++ intros (row & Hrow & Hv). apply In_nth with (d := []) in Hrow.
              destruct Hrow as (k & Hk & <-). rewrite C1 in Hk. exists k. split; auto.
              rewrite (chunks_nth nf dim _ k j false L Hk Hj) in Hv.
              rewrite row_of_nth in Hv.
              ** now apply Z.leb_le.
              ** rewrite Hp. apply Nat.lt_le_trans with (k * nf + nf); [lia|].
                 replace (k * nf + nf) with (Datatypes.S k * nf) by (simpl; lia). apply Nat.mul_le_mono_r. lia.
           ++ intros (k & Hk & Hv). exists (nth k (chunks nf dim (row_of c t r)) []). split.
              ** apply nth_In. lia.
              ** rewrite (chunks_nth nf dim _ k j false L Hk Hj). rewrite row_of_nth.
                 --- now apply Z.leb_le.
                 --- rewrite Hp. apply Nat.lt_le_trans with (k * nf + nf); [lia|].
                     replace (k * nf + nf) with (Datatypes.S k * nf) by (simpl; lia). apply Nat.mul_le_mono_r. lia.
      * apply rows_usort_in. exists t, r. split; [exact Ht|]. split; [exact Hr|]. now apply is_support_row.
  - split; [apply usort_rows_increasing|]. apply increasing_NoDup, usort_rows_increasing.
Qed.

(** Without shared support, or with one class, [intersect] is [intersection]. *)
Theorem glm_unshared c ts dim shared :
  dim <= 1 \/ shared = false -> glm_intersect dim shared c ts = intersection c (Some ts).
Proof.
  intros H. unfold glm_intersect.
  assert (E : (1 <? dim) && shared = false).
  { destruct H as [H| ->]; [|apply andb_false_r].
    apply andb_false_iff. left. apply Nat.ltb_ge. exact H. }
  destruct (intersection c (Some ts)); simpl; auto. now rewrite E.
Qed.
