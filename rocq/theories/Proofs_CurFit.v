(** Proofs for column_select and the fits of UoI_CUR and CUR. *)
From Coq Require Import ZArith List Bool Arith Reals Permutation Sorted Lia Lra.
From Verif Require Import Prelude F64 Num Spec_Rescale Spec_Poisson Model_Thresholds Model_Cur Spec_Cur
  Proofs_Rescale Proofs_Poisson Proofs_LbfgsVec Proofs_Intersection Proofs_Cur.
Import ListNotations.

Section Generic.
  Context {N : NumOps}.
  Variable argsort : list N -> list nat.

  Definition picks (V : list (list N)) (c : N) (u : nat -> N) (j : nat) : bool :=
    nltb (u j) (min1 (nmul c (nth j (leverages V) nzero))).

  Lemma nth_flags {A} (f : nat -> A) n j d : j < n -> nth j (map f (seq 0 n)) d = f j.
  Proof.
    intro H. rewrite (nth_indep _ d (f 0)) by (now rewrite map_length, seq_length).
    rewrite (map_nth f). now rewrite seq_nth.
  Qed.
  Lemma select_plain V c u :
    column_select argsort V c false u = filter (picks V c u) (seq 0 (length V)).
  Proof.
    unfold column_select. rewrite map_length, seq_length. apply filter_ext_in.
    intros j Hj. apply in_seq in Hj. now rewrite nth_flags by lia.
  Qed.
  Lemma select_sort V c u :
    column_select argsort V c true u =
    (let l := filter (picks V c u) (seq 0 (length V)) in
     map (fun i => nth i l 0) (argsort (map (fun j => nth j (leverages V) nzero) l))).
  Proof.
    pose proof (select_plain V c u) as E. unfold column_select in *. now rewrite E.
  Qed.
  Lemma select_In V c u j :
    In j (column_select argsort V c false u) <-> j < length V /\ picks V c u j = true.
  Proof. rewrite select_plain, filter_In, in_seq. intuition lia. Qed.
  Lemma select_sorted V c u : StronglySorted lt (column_select argsort V c false u).
  Proof. rewrite select_plain. apply filter_sorted, seq_sorted. Qed.

  Lemma map_nth_seq {A} (l : list A) d : map (fun i => nth i l d) (seq 0 (length l)) = l.
  Proof.
    apply nth_ext with (d := d) (d' := d); [now rewrite map_length, seq_length|].
    intros i Hi. rewrite map_length, seq_length in Hi. now rewrite nth_flags.
  Qed.
  Lemma select_perm V c u : (forall l, Permutation (argsort l) (seq 0 (length l))) ->
    Permutation (column_select argsort V c true u) (column_select argsort V c false u).
  Proof.
    intro HP. rewrite select_sort, select_plain. cbv zeta. set (l := filter _ _).
    pose proof (HP (map (fun j => nth j (leverages V) nzero) l)) as P. rewrite map_length in P.
    apply (Permutation_map (fun i => nth i l 0)) in P. now rewrite map_nth_seq in P.
  Qed.
End Generic.

Section Fit.
  Context {N : NumOps}.
  Variables (of_f64 : f64 -> N) (argsort : list N -> list nat) (RS : Type) (seeded : Z -> RS)
    (tts : RS -> result (list nat) * RS) (svd : list (list N) -> RS -> result (list (list N)) * RS).
  Notation runs g X := (boots (list (list N)) RS (source_of seeded (random_state g)) (split_of (boots_frac_is_1 g) (length X) tts) svd (rows_of X)).

  Lemma with_rng_call {A} a (f : RS -> A * RS) st x st' :
    with_rng RS seeded a f st = (x, st') <-> call RS (source_of seeded a) f st x st'.
  Proof.
    destruct a as [z|]; cbn; [|easy]. split; [intro H; injection H as <- <-; easy|now intros [-> ->]].
  Qed.
  Lemma rows_all (X : list (list N)) : rows_of X (seq 0 (length X)) = X.
  Proof. apply map_nth_seq. Qed.
  Lemma bootstrap_ok g X st V st' :
    bootstrap RS seeded tts svd g X st = (Ok V, st') <->
    exists ix st1, call RS (source_of seeded (random_state g)) (split_of (boots_frac_is_1 g) (length X) tts) st (Ok ix) st1 /\
                   call RS (source_of seeded (random_state g)) (svd (rows_of X ix)) st1 (Ok V) st'.
  Proof.
    unfold bootstrap, split_of. destruct (boots_frac_is_1 g); cbn [fst snd].
    - rewrite with_rng_call. split.
      + intro H. exists (seq 0 (length X)), st. rewrite rows_all. split; [|exact H]. now destruct (random_state g).
      + intros (ix & st1 & H1 & H2). destruct (random_state g); cbn in H1.
        * destruct H1 as [E1 ->]. injection E1 as <-. now rewrite rows_all in H2.
        * injection H1 as <- <-. now rewrite rows_all in H2.
    - destruct (with_rng RS seeded (random_state g) tts st) as [r st1] eqn:E. cbn [fst snd].
      apply with_rng_call in E. destruct r as [ix|e]; cbn.
      + rewrite with_rng_call. split; [intro H; now exists ix, st1|].
        intros (ix' & st1' & H1 & H2).
        assert (ix' = ix /\ st1' = st1) as [-> ->]; [|exact H2].
        destruct (random_state g); cbn in E, H1; [destruct E, H1; split; congruence|]. rewrite E in H1. injection H1 as <- <-. easy.
      + split; [discriminate|]. intros (ix' & st1' & H1 & H2). exfalso.
        destruct (random_state g); cbn in E, H1; [destruct E, H1; congruence|]. rewrite E in H1. discriminate H1.
  Qed.
  Lemma bootstraps_ok g X p ks cs u k : forall b st cols st',
    bootstraps argsort RS seeded tts svd g X p ks cs u k b st = (Ok cols, st') <->
    exists l, length l = k /\ runs g X st l st' /\
      cols = map (fun i => boot_columns argsort p ks cs (snd (nth i l ([], []))) (u (b + i))) (seq 0 k).
  Proof.
    induction k as [|k IH]; intros b st cols st'; cbn [bootstraps].
    - split.
      + intro H; injection H as <- <-. exists []. split; [easy|]. split; [constructor|easy].
      + intros (l & L & R & ->). apply length_zero_iff_nil in L. subst l. now inversion R.
    - destruct (bootstrap RS seeded tts svd g X st) as [r st2] eqn:E. cbn [fst snd].
      assert (Eseq : forall l V (ix : list nat), map (fun i => boot_columns argsort p ks cs (snd (nth i ((ix, V) :: l) ([], []))) (u (b + i))) (seq 0 (S k)) =
         boot_columns argsort p ks cs V (u b) :: map (fun i => boot_columns argsort p ks cs (snd (nth i l ([], []))) (u (S b + i))) (seq 0 k)).
      { intros l V ix. cbn [seq map nth snd]. rewrite Nat.add_0_r. f_equal. rewrite <- seq_shift, map_map.
        apply map_ext. intro i. now rewrite Nat.add_succ_r. }
      destruct r as [V|e].
      + destruct (bootstraps argsort RS seeded tts svd g X p ks cs u k (S b) st2) as [rest st3] eqn:E2. cbn [fst snd].
        split.
        * intro H. destruct rest as [cols'|]; [|discriminate]. cbn in H. injection H as <- <-.
          apply IH in E2. destruct E2 as (l & L & R & ->). apply bootstrap_ok in E. destruct E as (ix & st1 & C1 & C2).
          exists ((ix, V) :: l). split; [cbn; now rewrite L|]. split; [econstructor; eassumption|]. now rewrite Eseq.
        * intros (l & L & R & ->). destruct l as [|[ix V'] l]; [discriminate L|]. injection L as L.
          inversion R as [|? ? st1 ? st2' ? ? C1 C2 R' Ea Eb]. subst.
          assert (E' : bootstrap RS seeded tts svd g X st = (Ok V', st2')) by (apply bootstrap_ok; eauto).
          rewrite E in E'. injection E' as <- <-. rewrite Eseq.
          assert (E3 : bootstraps argsort RS seeded tts svd g X p ks cs u (length l) (S b) st2 =
             (Ok (map (fun i => boot_columns argsort p ks cs (snd (nth i l ([], []))) (u (S b + i))) (seq 0 (length l))), st'))
            by (apply IH; eauto).
          rewrite E2 in E3. injection E3 as -> ->. reflexivity.
      + split; [discriminate|]. intros (l & L & R & _). exfalso. destruct l as [|[ix V'] l]; [discriminate L|].
        inversion R as [|? ? st1 ? st2' ? ? C1 C2 R' Ea Eb]. subst.
        assert (E' : bootstrap RS seeded tts svd g X st = (Ok V', st2')) by (apply bootstrap_ok; eauto).
        congruence.
  Qed.

  (** Counting. *)
  Lemma at_least_count t n (f : nat -> bool) (P : nat -> Prop) : (forall b, b < n -> (f b = true <-> P b)) ->
    at_least t n P <-> (t <= Z.of_nat (count f (seq 0 n)))%Z.
  Proof.
    intro H. rewrite count_filter. split.
    - intros (l & ND & Hl & Ht). etransitivity; [exact Ht|]. apply inj_le. apply NoDup_incl_length; [exact ND|].
      intros b Hb. destruct (Hl b Hb) as [Hb' Pb]. apply filter_In. split; [apply in_seq; lia|]. now apply H.
    - intro Ht. exists (filter f (seq 0 n)). split; [apply NoDup_filter, seq_NoDup|]. split; [|exact Ht].
      intros b Hb. apply filter_In in Hb. destruct Hb as [Hb Fb]. apply in_seq in Hb. split; [lia|]. apply H; [lia|exact Fb].
  Qed.
  Lemma sum_count {A} (f : A -> bool) l : fold_right Nat.add 0 (map (fun x => if f x then 1 else 0) l) = count f l.
  Proof. induction l; simpl; congruence. Qed.

  (** Column [j] is drawn in a bootstrap with singular vectors V for the i-th rank. *)
  Definition drawn_in (ks : list Z) (cs : list N) (V : list (list N)) (u : nat -> nat -> N) (i j : nat) : Prop :=
    In j (column_select argsort (map (firstn (Z.to_nat (nth i ks 0%Z))) V) (nth i cs nzero) false (u i)).

  Lemma boot_columns_nth p ks cs V u i j : i < length ks -> j < p ->
    nth j (nth i (boot_columns argsort p ks cs V u) []) 0 =
    if existsb (Nat.eqb j) (column_select argsort (map (firstn (Z.to_nat (nth i ks 0%Z))) V) (nth i cs nzero) false (u i)) then 1 else 0.
  Proof. intros Hi Hj. unfold boot_columns. rewrite nth_flags by easy. cbv zeta. now rewrite nth_flags. Qed.
  Lemma existsb_In j l : existsb (Nat.eqb j) l = true <-> In j l.
  Proof. rewrite existsb_exists. split; [intros (x & Hx & E); apply Nat.eqb_eq in E; now subst|]. intro H. exists j. now rewrite Nat.eqb_refl. Qed.

  Lemma selected_In p ks cs u n (Vs : nat -> list (list N)) t j :
    In j (selected p (length ks) t (map (fun b => boot_columns argsort p ks cs (Vs b) (u b)) (seq 0 n))) <->
    j < p /\ exists i, i < length ks /\ at_least t n (fun b => drawn_in ks cs (Vs b) (u b) i j).
  Proof.
    unfold selected. rewrite filter_In, in_seq, existsb_exists.
    assert (K : forall i, j < p -> i < length ks ->
      (Z.leb t (Z.of_nat (fold_right Nat.add 0 (map (fun boot => nth j (nth i boot []) 0) (map (fun b => boot_columns argsort p ks cs (Vs b) (u b)) (seq 0 n))))) = true
       <-> at_least t n (fun b => drawn_in ks cs (Vs b) (u b) i j))).
    { intros i Hj Hi. rewrite map_map.
      rewrite (map_ext _ (fun b => if existsb (Nat.eqb j) (column_select argsort (map (firstn (Z.to_nat (nth i ks 0%Z))) (Vs b)) (nth i cs nzero) false (u b i)) then 1 else 0))
        by (intro b; now apply boot_columns_nth).
      rewrite (sum_count (fun b => existsb (Nat.eqb j) (column_select argsort (map (firstn (Z.to_nat (nth i ks 0%Z))) (Vs b)) (nth i cs nzero) false (u b i)))).
      rewrite (at_least_count t n (fun b => existsb (Nat.eqb j) (column_select argsort (map (firstn (Z.to_nat (nth i ks 0%Z))) (Vs b)) (nth i cs nzero) false (u b i))));
        [now rewrite Z.leb_le|].
      intros b _. apply existsb_In. }
    split.
    - intros [Hj (i & Hi & E)]. apply in_seq in Hi. split; [lia|]. exists i. split; [lia|]. apply K; [lia|lia|exact E].
    - intros [Hj (i & Hi & E)]. split; [lia|]. exists i. split; [apply in_seq; lia|]. now apply K.
  Qed.
  Lemma selected_sorted p n t cols : StronglySorted lt (selected p n t cols).
  Proof. apply filter_sorted, seq_sorted. Qed.

  Definition values (c : counts) : list N := match c with CountsInt l => map nofZ l | CountsFloat l => map of_f64 l end.
  Lemma values_arr c : arr_nums of_f64 (arr_of c) = values c.
  Proof. now destruct c. Qed.

  (** A fit that has valid arguments and whose bootstraps run. *)
  Lemma fit_runs g X p ks cs u st o ksv c t l st' :
    valid_ks (max_k g) ks ksv -> valid_cs ksv cs c ->
    cur_stability_selection_to_threshold (stability_selection g) (n_boots g) = Ok t ->
    length l = Z.to_nat (n_boots g) -> runs g X st l st' ->
    exists idx,
      cur_fit of_f64 argsort RS seeded tts svd g X p ks cs u st o =
        (mkCur (Some idx) (Some (if Nat.eqb (length idx) 0 then [[]] else take_columns idx X)), Ok tt, st') /\
      StronglySorted lt idx /\
      forall j, In j idx <-> j < p /\ exists i, i < length ksv /\
        at_least t (length l) (fun b => drawn_in ksv (values c) (snd (nth b l ([], []))) (u b) i j).
  Proof.
    intros Hk Hc Ht L R.
    assert (E : check_ks_and_cs (max_k g) ks cs = Ok (ksv, arr_of c)) by (now apply check_valid).
    pose proof (proj2 (bootstraps_ok g X p ksv (values c) u (length l) 0 st _ st') (ex_intro _ l (conj eq_refl (conj R eq_refl)))) as B.
    exists (selected p (length ksv) t (map (fun i => boot_columns argsort p ksv (values c) (snd (nth i l ([], []))) (u (0 + i))) (seq 0 (length l)))).
    split; [|split].
    - unfold cur_fit. rewrite E, Ht, values_arr, <- L, B. reflexivity.
    - apply selected_sorted.
    - intro j. apply selected_In.
  Qed.
  (** Every fit that returns is of this kind; one that raises leaves the object alone. *)
  Lemma fit_inv g X p ks cs u st o o' st' :
    cur_fit of_f64 argsort RS seeded tts svd g X p ks cs u st o = (o', Ok tt, st') ->
    exists ksv c t l, valid_ks (max_k g) ks ksv /\ valid_cs ksv cs c /\
      cur_stability_selection_to_threshold (stability_selection g) (n_boots g) = Ok t /\
      length l = Z.to_nat (n_boots g) /\ runs g X st l st'.
  Proof.
    unfold cur_fit. destruct (check_ks_and_cs (max_k g) ks cs) as [[ksv a]|] eqn:E; [|discriminate].
    destruct (cur_stability_selection_to_threshold _ _) as [t|] eqn:Et; [|discriminate].
    destruct (bootstraps _ _ _ _ _ g X p ksv _ u _ 0 st) as [r st2] eqn:B. cbn [fst snd].
    destruct r as [cols|]; [|discriminate]. intro H. injection H as _ <-.
    assert (exists c, a = arr_of c) as [c ->].
    { unfold check_ks_and_cs in E. destruct (ks_array _ _); [|discriminate]. cbn in E. destruct (check_ranks _ _); [|discriminate]. cbn in E.
      destruct (cs_array _ _); [|discriminate]. cbn in E. destruct (check_counts _ _) eqn:Ec; [|discriminate]. cbn in E. injection E as <- <-.
      destruct (check_counts_arr _ _ _ Ec) as (c' & _ & ->). eauto. }
    apply check_valid in E. apply bootstraps_ok in B. destruct B as (l & L & R & _). exists ksv, c, t, l. tauto.
  Qed.
  Lemma fit_raise g X p ks cs u st o o' e st' :
    cur_fit of_f64 argsort RS seeded tts svd g X p ks cs u st o = (o', Raise e, st') -> o' = o.
  Proof.
    unfold cur_fit. destruct (check_ks_and_cs _ _ _) as [[ksv a]|]; [|congruence].
    destruct (cur_stability_selection_to_threshold _ _); [|congruence].
    destruct (fst _); congruence.
  Qed.

  (** With an int seed all bootstraps are the same. *)
  Lemma seed_same (split : RS -> result (list nat) * RS) (rows : list nat -> list (list N)) s st l st' : boots (list (list N)) RS (Own s) split svd rows st l st' ->
    st' = st /\ forall b, b < length l -> nth b l ([], []) = nth 0 l ([], []).
  Proof.
    intro B. remember (Own s) as src eqn:Es. induction B as [|st ix st1 V st2 l st3 C1 C2 B IH]; [split; [easy|]; intros b Hb; cbn in Hb; lia|]; subst src.
    destruct C1 as [C1 ->], C2 as [C2 ->]. destruct IH as [-> IH']. split; [easy|].
    intros [|b] Hb; [easy|]. cbn [nth]. cbn in Hb. rewrite IH' by lia. destruct l as [|[ix' V'] l]; [cbn in Hb; lia|]. cbn [nth].
    inversion B as [|? ? ? ? ? ? ? D1 D2 B']. subst. destruct D1 as [D1 ->], D2 as [D2 ->]. rewrite C1 in D1. injection D1 as <-. rewrite C2 in D2. now injection D2 as <-.
  Qed.
End Fit.
