(** Proofs about the fit of UoI_NMF, for any arithmetic. *)
From Coq Require Import ZArith List Bool Arith Reals Sorted Lia Lra.
From Verif Require Import Prelude F64 Num Spec_Rescale Spec_Poisson Model_Nmf Spec_Nmf Proofs_CurFit.
Import ListNotations.

Section Runs.
  Context {N : NumOps}.
  Variables (RS : Type) (nmf : nat -> list (list N) -> RS -> result (list (list N)) * RS).
  Lemma rank_fits_ok ks s : forall st l st', rank_fits RS nmf ks s st = (Ok l, st') <-> factorized _ RS nmf s ks st l st'.
  Proof.
    induction ks as [|k ks IH]; intros st l st'; cbn [rank_fits].
    - split; [intro H; injection H as <- <-; constructor|]. intro H. now inversion H.
    - destruct (nmf k s st) as [r st1] eqn:E. cbn [fst snd]. destruct r as [H|e].
      + destruct (rank_fits RS nmf ks s st1) as [t st2] eqn:E2. cbn [fst snd]. split.
        * intro Q. destruct t as [t|]; [|discriminate]. cbn in Q. injection Q as <- <-. econstructor; [exact E|]. now apply IH.
        * intro Q. inversion Q as [|? ? ? H' st1' l' ? Q1 Q2]. subst. rewrite E in Q1. injection Q1 as <- <-. apply IH in Q2. rewrite E2 in Q2. injection Q2 as -> ->. reflexivity.
      + split; [discriminate|]. intro Q. inversion Q as [|? ? ? H' st1' l' ? Q1 Q2]. subst. congruence.
  Qed.
  Lemma boot_fits_ok ks X reps : forall st bs st', boot_fits RS nmf ks X reps st = (Ok bs, st') <->
    all_factorized _ RS nmf ks (map (fun rep => map (fun i => nth i X []) rep) reps) st bs st'.
  Proof.
    induction reps as [|rep reps IH]; intros st bs st'; cbn [boot_fits map].
    - split; [intro H; injection H as <- <-; constructor|]. intro H. now inversion H.
    - destruct (rank_fits RS nmf ks (map (fun i => nth i X []) rep) st) as [r st1] eqn:E. cbn [fst snd]. destruct r as [b|e].
      + apply rank_fits_ok in E. destruct (boot_fits RS nmf ks X reps st1) as [t st2] eqn:E2. cbn [fst snd]. split.
        * intro Q. destruct t as [t|]; [|discriminate]. cbn in Q. injection Q as <- <-. econstructor; [exact E|]. now apply IH.
        * intro Q. inversion Q as [|? ? ? b' st1' bs' ? Q1 Q2]. subst. apply rank_fits_ok in Q1, E. rewrite E in Q1. injection Q1 as <- <-. apply IH in Q2. rewrite E2 in Q2. injection Q2 as -> ->. reflexivity.
      + split; [discriminate|]. intro Q. inversion Q as [|? ? ? b' st1' bs' ? Q1 Q2]. subst. apply rank_fits_ok in Q1. congruence.
  Qed.
  Lemma all_length ks ss st bs st' : all_factorized _ RS nmf ks ss st bs st' -> length bs = length ss.
  Proof. induction 1; cbn; congruence. Qed.
  Lemma factorized_entries s ks st l st' : factorized _ RS nmf s ks st l st' ->
    map fst l = ks /\ forall k H, In (k, H) l -> exists st1 st2, nmf k s st1 = (Ok H, st2).
  Proof.
    induction 1 as [|k ks st H st1 l st2 E F [I1 I2]]; [split; [easy|intros ? ? []]|]. split; [cbn; congruence|].
    intros k' H' [Q|Q]; [injection Q as <- <-; eauto|eauto].
  Qed.
  Lemma all_entries ks ss st bs st' : all_factorized _ RS nmf ks ss st bs st' ->
    forall b, In b bs -> map fst b = ks /\ forall k H, In (k, H) b -> exists s st1 st2, nmf k s st1 = (Ok H, st2).
  Proof.
    induction 1 as [|s ss st b st1 bs st2 F A IH]; [intros ? []|]. intros b' [<-|Hb]; [|auto].
    destruct (factorized_entries _ _ _ _ _ F) as [F1 F2]. split; [exact F1|]. intros k H Q. destruct (F2 k H Q) as (a & c & E). eauto.
  Qed.

  (** The basis that is kept. *)
  Lemma kept_bases k (boot : list (nat * list (list N))) H : kept _ k boot H -> bases_of k boot = H.
  Proof.
    intros (l1 & l2 & -> & Nin). unfold bases_of. rewrite rev_app_distr. cbn [rev]. rewrite <- app_assoc. cbn [app].
    assert (E : forall l r, ~ In k (map fst l) -> find (fun e : nat * list (list N) => Nat.eqb (fst e) k) (rev l ++ r) = find (fun e => Nat.eqb (fst e) k) r).
    { clear. induction l as [|[a B] l IH]; intros r Nin; [reflexivity|]. cbn [rev]. rewrite <- app_assoc, IH by (intro C; apply Nin; now right).
      cbn. destruct (Nat.eqb_spec a k); [|reflexivity]. exfalso. apply Nin. now left. }
    rewrite E by exact Nin. cbn. now rewrite Nat.eqb_refl.
  Qed.
  Lemma kept_exists k boot : In k (map fst boot) -> exists H, kept (list (list N)) k boot H /\ In (k, H) boot.
  Proof.
    induction boot as [|[a B] boot IH]; intros Q; [destruct Q|]. destruct (in_dec Nat.eq_dec k (map fst boot)) as [I|I].
    - destruct (IH I) as (H & (l1 & l2 & E & Nin) & HI). exists H. split; [|now right]. exists ((a, B) :: l1), l2. split; [now rewrite E|exact Nin].
    - destruct Q as [Q|Q]; [|easy]. cbn in Q. subst a. exists B. split; [|now left]. exists [], boot. split; [reflexivity|exact I].
  Qed.
End Runs.

(** ** argmin *)
Section Argmin.
  Context {N : NumOps}.
  (** A value that is not NaN, a total order on these. *)
  Variable D : N -> Prop.
  Hypothesis Deq : forall x, D x -> neqb x x = true.
  Hypothesis Dtrans : forall x y z, D x -> D y -> D z -> nleb x y = true -> nleb y z = true -> nleb x z = true.
  Hypothesis Dtotal : forall x y, D x -> D y -> nleb x y = true \/ nleb y x = true.
  Hypothesis Drefl : forall x, D x -> nleb x x = true.

  Lemma argmin_from_spec l : Forall D l -> forall pre best besti,
    Forall D pre -> besti < length pre -> nth besti pre nzero = best ->
    (forall j, j < length pre -> nleb best (nth j pre nzero) = true) ->
    (forall j, j < besti -> nleb (nth j pre nzero) best = false) ->
    let i := argmin_from (length pre) best besti l in
    i < length (pre ++ l) /\
    (forall j, j < length (pre ++ l) -> nleb (nth i (pre ++ l) nzero) (nth j (pre ++ l) nzero) = true) /\
    (forall j, j < i -> nleb (nth j (pre ++ l) nzero) (nth i (pre ++ l) nzero) = false).
  Proof.
    induction 1 as [|v l Dv Dl IH]; intros pre best besti Dp Hb Eb Hle Hlt; cbv zeta.
    - cbn [argmin_from]. rewrite app_nil_r, Eb. auto.
    - cbn [argmin_from].
      assert (Db : D best) by (rewrite <- Eb; rewrite Forall_forall in Dp; apply Dp, nth_In, Hb).
      replace (pre ++ v :: l) with ((pre ++ [v]) ++ l) by (now rewrite <- app_assoc).
      assert (Ln : length (pre ++ [v]) = S (length pre)) by (rewrite app_length; cbn; lia).
      assert (Dp' : Forall D (pre ++ [v])) by (apply Forall_app; split; [exact Dp|now constructor]).
      destruct (nleb best v) eqn:E.
      + rewrite <- Ln. apply IH; [exact Dp'|lia|now rewrite app_nth1|..].
        * intros j Hj. rewrite Ln in Hj. destruct (Nat.eq_dec j (length pre)) as [->|Ne]; [rewrite app_nth2, Nat.sub_diag by lia; exact E|]. rewrite app_nth1 by lia. apply Hle. lia.
        * intros j Hj. rewrite app_nth1 by lia. now apply Hlt.
      + rewrite (Deq v Dv). rewrite <- Ln. apply IH; [exact Dp'|lia|rewrite app_nth2, Nat.sub_diag by lia; reflexivity|..].
        * intros j Hj. rewrite Ln in Hj. destruct (Nat.eq_dec j (length pre)) as [->|Ne]; [rewrite app_nth2, Nat.sub_diag by lia; now apply Drefl|].
          rewrite app_nth1 by lia. assert (Dj : D (nth j pre nzero)) by (rewrite Forall_forall in Dp; apply Dp, nth_In; lia).
          apply (Dtrans _ best); auto; [|apply Hle; lia]. destruct (Dtotal best v Db Dv) as [C|C]; [congruence|exact C].
        * intros j Hj. rewrite app_nth1 by lia. assert (Dj : D (nth j pre nzero)) by (rewrite Forall_forall in Dp; apply Dp, nth_In; lia).
          destruct (nleb (nth j pre nzero) v) eqn:C; [|reflexivity]. assert (nleb best v = true); [|congruence].
          apply (Dtrans _ (nth j pre nzero)); auto; apply Hle; lia.
  Qed.
  Lemma np_argmin_spec l : l <> [] -> Forall D l -> exists i, np_argmin l = Ok i /\ i < length l /\
    (forall j, j < length l -> nleb (nth i l nzero) (nth j l nzero) = true) /\
    (forall j, j < i -> nleb (nth j l nzero) (nth i l nzero) = false).
  Proof.
    intros Ne F. destruct l as [|v l]; [easy|]. inversion F as [|? ? Dv Dl]. subst. cbn [np_argmin]. rewrite (Deq v Dv).
    eexists. split; [reflexivity|]. apply (argmin_from_spec l Dl [v] v 0); auto.
    - intros [|j] Hj; [cbn; now apply Drefl|cbn in Hj; lia].
    - intros j Hj. lia.
  Qed.
End Argmin.

(** With a NaN: the first NaN. *)
Lemma argmin_from_nan {N : NumOps} (l : list N) z : (forall x y, neqb y y = false -> nleb (n := N) x y = false) -> z < length l -> neqb (nth z l nzero) (nth z l nzero) = false ->
  forall k best besti, exists i, argmin_from k best besti l = k + i /\ i <= z /\ neqb (nth i l nzero) (nth i l nzero) = false /\ i < length l.
Proof.
  intro NL. revert z. induction l as [|v l IH]; intros z Hz Hn k best besti; [cbn in Hz; lia|]. cbn [argmin_from].
  destruct (neqb v v) eqn:Ev.
  - destruct z as [|z]; [cbn in Hn; congruence|]. cbn in Hz, Hn.
    destruct (nleb best v).
    + destruct (IH z ltac:(lia) Hn (S k) best besti) as (i & -> & Hi & Q & R). exists (S i). repeat split; cbn; try lia; try exact Q.
    + destruct (IH z ltac:(lia) Hn (S k) v k) as (i & -> & Hi & Q & R). exists (S i). repeat split; cbn; try lia; try exact Q.
  - rewrite (NL best v Ev). exists 0. repeat split; cbn; try lia; try exact Ev.
Qed.
Lemma np_argmin_nan {N : NumOps} (l : list N) z : (forall x y, neqb y y = false -> nleb (n := N) x y = false) -> z < length l -> neqb (nth z l nzero) (nth z l nzero) = false ->
  exists i, np_argmin l = Ok i /\ i <= z /\ i < length l /\ neqb (nth i l nzero) (nth i l nzero) = false.
Proof.
  intros NL Hz Hn. destruct l as [|v l]; [cbn in Hz; lia|]. cbn [np_argmin]. destruct (neqb v v) eqn:Ev.
  - destruct z as [|z]; [cbn in Hn; congruence|]. cbn in Hz, Hn. destruct (argmin_from_nan l z NL ltac:(lia) Hn 1 v 0) as (i & -> & Hi & Q & R).
    exists (S i). repeat split; cbn; try lia; exact Q.
  - exists 0. repeat split; cbn; try lia; exact Ev.
Qed.

(** ** Clusters *)
Lemma insert_unique_In x y l : In y (insert_unique x l) <-> y = x \/ In y l.
Proof.
  induction l as [|a l IH]; cbn; [intuition|]. destruct (Z.ltb_spec x a); [cbn; intuition|].
  destruct (Z.eqb_spec x a); [cbn; subst; intuition|]. cbn. rewrite IH. intuition.
Qed.
Lemma insert_unique_sorted x l : StronglySorted Z.lt l -> StronglySorted Z.lt (insert_unique x l).
Proof.
  induction l as [|a l IH]; intro S; cbn; [repeat constructor|]. apply StronglySorted_inv in S as [S F].
  destruct (Z.ltb_spec x a); [constructor; [now constructor|]; constructor; [exact H|]; eapply Forall_impl; [|exact F]; cbn; lia|].
  destruct (Z.eqb_spec x a); [now constructor|]. constructor; [now apply IH|]. rewrite Forall_forall in *. intros y Hy. apply insert_unique_In in Hy. destruct Hy as [->|Hy]; [lia|auto].
Qed.
Lemma unique_In y l : In y (unique l) <-> In y l.
Proof. induction l as [|a l IH]; cbn; [easy|]. rewrite insert_unique_In, IH. intuition. Qed.
Lemma unique_sorted l : StronglySorted Z.lt (unique l).
Proof. induction l; cbn; [constructor|]. now apply insert_unique_sorted. Qed.
Lemma sorted_ext (l l' : list Z) : StronglySorted Z.lt l -> StronglySorted Z.lt l' -> (forall x, In x l <-> In x l') -> l = l'.
Proof.
  intro S. revert l'. induction S as [|a l S IH F]; intros l' S' E.
  - destruct l' as [|b l']; [reflexivity|]. destruct (proj2 (E b) (or_introl eq_refl)).
  - destruct S' as [|b l' S' F']; [destruct (proj1 (E a) (or_introl eq_refl))|].
    rewrite Forall_forall in F, F'.
    assert (a = b) as ->.
    { destruct (proj1 (E a) (or_introl eq_refl)) as [Q|Q]; [easy|]. destruct (proj2 (E b) (or_introl eq_refl)) as [Q'|Q']; [easy|].
      specialize (F _ Q'). specialize (F' _ Q). lia. }
    f_equal. apply IH; [exact S'|]. intro x. split; intro Q.
    + destruct (proj1 (E x) (or_intror Q)) as [<-|Q']; [|exact Q']. specialize (F _ Q). lia.
    + destruct (proj2 (E x) (or_intror Q)) as [<-|Q']; [|exact Q']. specialize (F' _ Q). lia.
Qed.
Lemma seq_Z_sorted n a : StronglySorted Z.lt (map Z.of_nat (seq a n)).
Proof.
  revert a. induction n; intro a; cbn; constructor; [apply IHn|]. rewrite Forall_forall. intros x Hx. apply in_map_iff in Hx. destruct Hx as (i & <- & Hi). apply in_seq in Hi. lia.
Qed.
Lemma cluster_ids k labels : labelling k labels -> unique (filter (fun l => negb (l =? -1)%Z) labels) = map Z.of_nat (seq 0 k).
Proof.
  intros [L1 L2]. apply sorted_ext; [apply unique_sorted|apply seq_Z_sorted|]. intro x. rewrite unique_In, filter_In, in_map_iff. split.
  - intros [Hx Nx]. destruct (Z.eqb_spec x (-1)); [discriminate|]. destruct (L1 x Hx) as [|B]; [easy|]. exists (Z.to_nat x). split; [lia|]. apply in_seq. lia.
  - intros (i & <- & Hi). apply in_seq in Hi. split; [apply L2; lia|]. destruct (Z.eqb_spec (Z.of_nat i) (-1)); [lia|reflexivity].
Qed.
Lemma members_labelled {N : NumOps} (H : list (list N)) labels c : members H labels c = labelled H labels c.
Proof.
  revert labels. unfold members. induction H as [|r H IH]; intros [|l labels]; cbn; try reflexivity.
  destruct (l =? c)%Z; cbn; now rewrite IH.
Qed.

Section Consensus.
  Context {N : NumOps}.
  Lemma set_row_ok (A : list (list N)) z r v : set_row (A ++ z :: r) (Z.of_nat (length A)) v = Ok (A ++ v :: r).
  Proof.
    unfold set_row. destruct (Z.ltb_spec (Z.of_nat (length A)) 0); [lia|]. cbn [orb].
    rewrite app_length. cbn [length]. destruct (Z.leb_spec (Z.of_nat (length A + S (length r))) (Z.of_nat (length A))); [lia|].
    destruct (Z.ltb_spec (Z.of_nat (length A)) 0); [lia|]. cbn [orb].
    f_equal. rewrite Nat2Z.id. rewrite firstn_app, firstn_all, Nat.sub_diag. cbn [firstn]. rewrite app_nil_r. f_equal.
    rewrite skipn_app, skipn_all2 by lia. replace (S (length A) - length A) with 1 by lia. reflexivity.
  Qed.
  Lemma fill_rows (f : Z -> list N) z n : forall A, foldM (fun C c => set_row C c (f c)) (map Z.of_nat (seq (length A) n)) (A ++ repeat z n) =
    Ok (A ++ map (fun i => f (Z.of_nat i)) (seq (length A) n)).
  Proof.
    induction n as [|n IH]; intro A; cbn [seq map foldM repeat]; [reflexivity|]. rewrite set_row_ok. cbn [bind].
    replace (A ++ f (Z.of_nat (length A)) :: repeat z n) with ((A ++ [f (Z.of_nat (length A))]) ++ repeat z n) by (now rewrite <- app_assoc).
    replace (S (length A)) with (length (A ++ [f (Z.of_nat (length A))])) by (rewrite app_length; cbn; lia).
    rewrite IH. now rewrite <- app_assoc.
  Qed.
  Variables (finite : N -> bool) (cluster : list (list N) -> result (list Z)) (cons_meth : list (list N) -> list N).

  (** Decomposition of a successful clustering step. *)
  Lemma consensus_inv Hpre p H labels C : consensus finite cluster cons_meth Hpre p = Ok (H, labels, C) ->
    sk_normalize finite (filter (fun r => nnonzero (nsum r)) Hpre) p = Ok H /\ cluster H = Ok labels /\
    forall k, labelling k labels ->
      sk_normalize finite (map (fun i => cons_meth (labelled H labels (Z.of_nat i))) (seq 0 k)) p = Ok C.
  Proof.
    unfold consensus. destruct (sk_normalize finite (filter _ Hpre) p) as [H0|] eqn:E1; [|discriminate]. cbn [bind].
    destruct (cluster H0) as [l0|] eqn:E2; [|discriminate]. cbn [bind].
    destruct (foldM _ _ _) as [C0|] eqn:E3; [|discriminate]. cbn [bind].
    destruct (sk_normalize finite C0 p) as [C1|] eqn:E4; [|discriminate]. cbn [bind]. intro Q. injection Q as <- <- <-.
    split; [reflexivity|]. split; [exact E2|]. intros k Lk.
    rewrite (cluster_ids k l0 Lk), map_length, seq_length in E3.
    pose proof (fill_rows (fun c => cons_meth (members H0 l0 c)) (repeat nzero p) k []) as F. cbn [length app] in F.
    rewrite F in E3. injection E3 as <-. rewrite <- E4. f_equal. apply map_ext. intro i. now rewrite members_labelled.
  Qed.
  Lemma consensus_fwd Hpre p H labels k C : sk_normalize finite (filter (fun r => nnonzero (nsum r)) Hpre) p = Ok H -> cluster H = Ok labels ->
    labelling k labels -> sk_normalize finite (map (fun i => cons_meth (labelled H labels (Z.of_nat i))) (seq 0 k)) p = Ok C ->
    consensus finite cluster cons_meth Hpre p = Ok (H, labels, C).
  Proof.
    intros E1 E2 Lk E4. unfold consensus. rewrite E1. cbn [bind]. rewrite E2. cbn [bind]. rewrite (cluster_ids k labels Lk), map_length, seq_length.
    pose proof (fill_rows (fun c => cons_meth (members H labels c)) (repeat nzero p) k []) as F. cbn [length app] in F. rewrite F. cbn [bind].
    rewrite (map_ext _ (fun i => cons_meth (labelled H labels (Z.of_nat i)))) by (intro i; now rewrite members_labelled). rewrite E4. reflexivity.
  Qed.
  Lemma consensus_noise Hpre p H labels : sk_normalize finite (filter (fun r => nnonzero (nsum r)) Hpre) p = Ok H -> cluster H = Ok labels ->
    Forall (fun l => l = (-1)%Z) labels -> consensus finite cluster cons_meth Hpre p = Raise ValueError.
  Proof.
    intros E1 E2 F. unfold consensus. rewrite E1. cbn [bind]. rewrite E2. cbn [bind].
    assert (E : filter (fun l => negb (l =? -1)%Z) labels = []).
    { clear -F. induction F as [|l ls E F IH]; [reflexivity|]. cbn. subst l. cbn. exact IH. }
    rewrite E. reflexivity.
  Qed.
  Lemma set_row_length (A B : list (list N)) i v : set_row A i v = Ok B -> length B = length A.
  Proof.
    unfold set_row. cbv zeta. set (n := Z.of_nat (length A)). set (j := if (i <? 0)%Z then (i + n)%Z else i).
    destruct ((j <? 0)%Z || (n <=? j)%Z) eqn:E; [discriminate|]. intro Q.
    apply (f_equal (fun r => match r with Ok b => length b | Raise _ => 0 end)) in Q. cbv beta iota in Q. rewrite <- Q.
    apply orb_false_iff in E. destruct E as [E1 E2]. apply Z.ltb_ge in E1. apply Z.leb_gt in E2.
    rewrite app_length, firstn_length.
    match goal with |- context [length (v :: ?x)] => change (length (v :: x)) with (S (length x)) end. rewrite skipn_length. unfold n in *. lia.
  Qed.
  Lemma set_row_raise (A : list (list N)) i v e : set_row A i v = Raise e -> e = IndexError.
  Proof. unfold set_row. destruct (_ || _); [|discriminate]. now intros [= <-]. Qed.
  (** A label outside -n..n-1, where n is the number of clusters. *)
  Lemma fold_bad (f : Z -> list N) ids : forall A c, In c ids -> (c < - Z.of_nat (length A) \/ Z.of_nat (length A) <= c)%Z ->
    foldM (fun C c => set_row C c (f c)) ids A = Raise IndexError.
  Proof.
    induction ids as [|a ids IH]; intros A c I B; [destruct I|]. cbn [foldM].
    destruct (set_row A a (f a)) as [A'|e] eqn:E; cbn [bind].
    - destruct I as [->|I].
      + exfalso. unfold set_row in E. destruct (Z.ltb_spec c 0).
        * destruct (Z.ltb_spec (c + Z.of_nat (length A)) 0); [discriminate|lia].
        * destruct (Z.ltb_spec c 0); [lia|]. destruct (Z.leb_spec (Z.of_nat (length A)) c); [discriminate|lia].
      + apply (IH A' c I). now rewrite (set_row_length _ _ _ _ E).
    - now rewrite (set_row_raise _ _ _ _ E).
  Qed.
  Lemma consensus_bad_label Hpre p H labels c : sk_normalize finite (filter (fun r => nnonzero (nsum r)) Hpre) p = Ok H -> cluster H = Ok labels ->
    In c labels -> c <> (-1)%Z ->
    (let n := Z.of_nat (length (unique (filter (fun l => negb (l =? -1)%Z) labels))) in c < - n \/ n <= c)%Z ->
    consensus finite cluster cons_meth Hpre p = Raise IndexError.
  Proof.
    intros E1 E2 I Nc B. cbv zeta in B. unfold consensus. rewrite E1. cbn [bind]. rewrite E2. cbn [bind].
    rewrite (fold_bad _ _ _ c); [reflexivity| |now rewrite repeat_length].
    apply unique_In, filter_In. split; [exact I|]. destruct (Z.eqb_spec c (-1)); easy.
  Qed.
End Consensus.

(** ** The fit *)
Section Fit.
  Context {N : NumOps}.
  Variables (finite : N -> bool) (RS : Type) (randint : nat -> nat -> RS -> result (list (list nat)) * RS)
    (nmf : nat -> list (list N) -> RS -> result (list (list N)) * RS) (cluster : list (list N) -> result (list Z)) (cons_meth : list (list N) -> list N).
  Notation fit := (nmf_fit finite RS randint nmf cluster cons_meth).
  Lemma nmf_fit_inv X p st o o' st' : fit X p st o = (o', Ok tt, st') ->
    exists ks reps st1 boots Hpre H labels C,
      ranks o = Some ks /\ randint (length X) (n_boots o) st = (Ok reps, st1) /\
      all_factorized _ RS nmf ks (map (fun rep => map (fun i => nth i X []) rep) reps) st1 boots st' /\
      snd (choose_bases o ks boots) = Ok Hpre /\ consensus finite cluster cons_meth Hpre p = Ok (H, labels, C) /\
      o' = mkNmf (n_boots o) (ranks o) (use_dissimilarity o) (Some C) (Some H) (Some labels) (Some reps) (dissimilarity_ (fst (choose_bases o ks boots))) None.
  Proof.
    unfold nmf_fit. destruct (check_non_negative X); [|discriminate].
    destruct (ranks o) as [ks|] eqn:Ek; [|discriminate].
    destruct (randint (length X) (n_boots o) st) as [r st1] eqn:Er. cbn [fst snd]. destruct r as [reps|]; [|discriminate].
    destruct (boot_fits RS nmf ks X reps st1) as [b st2] eqn:Eb. cbn [fst snd]. destruct b as [boots|]; [|discriminate].
    destruct (snd (choose_bases o ks boots)) as [Hpre|] eqn:Ec; cbn [bind]; [|discriminate].
    destruct (consensus finite cluster cons_meth Hpre p) as [[[H labels] C]|] eqn:Ef; [|discriminate].
    intro Q. injection Q as <- <-. exists ks, reps, st1, boots, Hpre, H, labels, C. rewrite <- Ek. repeat (split; [first [reflexivity|assumption|now apply boot_fits_ok]|]). reflexivity.
  Qed.
  Lemma nmf_fit_fwd X p st o ks reps st1 boots st' Hpre : check_non_negative X = Ok tt ->
    ranks o = Some ks -> randint (length X) (n_boots o) st = (Ok reps, st1) ->
    all_factorized _ RS nmf ks (map (fun rep => map (fun i => nth i X []) rep) reps) st1 boots st' ->
    snd (choose_bases o ks boots) = Ok Hpre ->
    fit X p st o = match consensus finite cluster cons_meth Hpre p with
      | Raise e => (fst (choose_bases o ks boots), Raise e, st')
      | Ok (H, labels, C) => (mkNmf (n_boots o) (ranks o) (use_dissimilarity o) (Some C) (Some H) (Some labels) (Some reps) (dissimilarity_ (fst (choose_bases o ks boots))) None, Ok tt, st')
      end.
  Proof.
    intros E0 Ek Er A Ec. apply boot_fits_ok in A. unfold nmf_fit. rewrite E0, Ek, Er. cbn [fst snd]. rewrite A. cbn [fst snd]. rewrite Ec. cbn [bind].
    destruct (consensus _ _ _ Hpre p) as [[[H l] C]|]; reflexivity.
  Qed.
End Fit.
