(** Proofs about the fit of UoI_NMF in binary64: a zero basis vector makes the rank win. *)
From Coq Require Import ZArith List Bool Arith Lia Floats.SpecFloat.
From Verif Require Import Prelude F64 F64Order Num Model_Nmf Spec_Nmf Proofs_NmfFit Proofs_NmfMain Proofs_CurMain.
Import ListNotations.

Lemma mapM_len {A B} (f : A -> result B) l r : mapM f l = Ok r -> length r = length l.
Proof.
  revert r. induction l as [|a l IH]; cbn; intros r E; [injection E as <-; reflexivity|].
  destruct (f a); [|discriminate]. cbn in E. destruct (mapM f l); [|discriminate]. cbn in E. injection E as <-. cbn. f_equal. now apply IH.
Qed.
Lemma mapM_nth {A B} (f : A -> result B) l r d d' i : mapM f l = Ok r -> i < length l -> f (nth i l d) = Ok (nth i r d').
Proof.
  revert r i. induction l as [|a l IH]; cbn; intros r i E Hi; [lia|].
  destruct (f a) eqn:Ea; [|discriminate]. cbn in E. destruct (mapM f l) eqn:El; [|discriminate]. cbn in E. injection E as <-. destruct i; [exact Ea|]. cbn [nth]. apply (IH _ i eq_refl). lia.
Qed.
Lemma forall2_nth {A B} (P : A -> B -> Prop) l l' d d' i : Forall2 P l l' -> i < length l -> P (nth i l d) (nth i l' d').
Proof. intro F. revert i. induction F as [|x y l l' Q F IH]; intros i Hi; cbn in *; [lia|]. destruct i; [exact Q|apply IH; lia]. Qed.

Section Generic.
  Context {N : NumOps}.
  Variable nan : N.
  Hypotheses (add_l : forall x, nadd nan x = nan) (add_r : forall x, nadd x nan = nan) (mul_l : forall x, nmul nan x = nan) (mul_r : forall x, nmul x nan = nan)
    (sub_r : forall x, nsub x nan = nan) (div_l : forall x, ndiv nan x = nan) (eq_nan : neqb nan nan = false).
  (** An entry equal to zero. *)
  Hypothesis zero_row : forall r, r <> [] -> Forall (fun x => neqb x nzero = true) r -> map (fun x => ndiv x (vector_norm r)) r = repeat nan (length r).

  Lemma sum_nan (l : list N) : In nan l -> nsum l = nan.
  Proof. unfold nsum. induction l as [|a l IH]; intros []; cbn [fold_right]; [subst; apply add_l|]. rewrite (IH H). apply add_r. Qed.
  Lemma dot_nan_l (p : nat) b : b <> [] -> p <> 0 -> ndot (repeat nan p) b = nan.
  Proof. intros Hb Hp. destruct b; [easy|]. destruct p; [easy|]. apply sum_nan. cbn. left. apply mul_l. Qed.
  Lemma dot_nan_r (p : nat) b : b <> [] -> p <> 0 -> ndot b (repeat nan p) = nan.
  Proof. intros Hb Hp. destruct b; [easy|]. destruct p; [easy|]. apply sum_nan. cbn. left. apply mul_r. Qed.
  Lemma max_nan (l : list N) : l <> [] -> Forall (fun x => x = nan) l -> np_max l = nan.
  Proof.
    intros Ne F. destruct F as [|x l -> F]; [easy|]. cbn. clear Ne F. induction l as [|a l IH]; [reflexivity|]. cbn [fold_left].
    replace (np_maximum nan a) with nan; [exact IH|]. unfold np_maximum. rewrite eq_nan. now rewrite orb_true_r.
  Qed.
  Lemma unit_nonempty (H : list (list N)) p r : p <> 0 -> Forall (fun r => length r = p) H -> In r (unit_rows H) -> r <> [].
  Proof.
    intros Hp F I. apply in_map_iff in I. destruct I as (x & <- & Hx). rewrite Forall_forall in F. specialize (F x Hx). destruct x; cbn in *; [congruence|discriminate].
  Qed.
  Lemma zero_unit (H : list (list N)) p r : p <> 0 -> Forall (fun r => length r = p) H -> In r H -> Forall (fun x => neqb x nzero = true) r -> In (repeat nan p) (unit_rows H).
  Proof.
    intros Hp F I Z. apply in_map_iff. exists r. split; [|exact I]. rewrite Forall_forall in F. specialize (F r I). rewrite zero_row; [now rewrite F| |exact Z]. destruct r; cbn in *; congruence.
  Qed.
  Lemma dissimilarity_nan k p (H1 H2 : list (list N)) d r : 0 < k -> p <> 0 -> shape k p H1 -> shape k p H2 -> dissimilarity H1 H2 = Ok d ->
    Forall (fun x => neqb x nzero = true) r -> In r H1 \/ In r H2 -> d = nan.
  Proof.
    intros Hk Hp [L1 F1] [L2 F2]. unfold dissimilarity. destruct (negb _); [discriminate|]. destruct (_ || _); [discriminate|]. intros Q Z I. injection Q as <-.
    match goal with |- nsub none (ndiv (nadd ?a ?b) ?c) = _ => set (A := a); set (B := b) end.
    cut (A = nan \/ B = nan). { intros [->| ->]; [rewrite add_l|rewrite add_r]; rewrite div_l; apply sub_r. }
    destruct I as [I|I].
    - right. unfold B. apply sum_nan. pose proof (zero_unit H1 p r Hp F1 I Z) as U. apply in_map_iff.
      exists (map (ndot (repeat nan p)) (unit_rows H2)). split; [|apply in_map_iff; eexists; split; [reflexivity|exact U]].
      apply max_nan; [destruct H2; cbn in *; [lia|discriminate]|]. apply Forall_forall. intros x Hx. apply in_map_iff in Hx. destruct Hx as (b & <- & Hb).
      apply dot_nan_l; [exact (unit_nonempty H2 p b Hp F2 Hb)|exact Hp].
    - left. unfold A. apply sum_nan. pose proof (zero_unit H2 p r Hp F2 I Z) as U. destruct (In_nth _ _ [] U) as (j & Hj & Ej).
      apply in_map_iff. exists j. split; [|apply in_seq; lia]. apply max_nan; [destruct H1; cbn in *; [lia|discriminate]|].
      apply Forall_forall. intros x Hx. apply in_map_iff in Hx. destruct Hx as (c & <- & Hc). apply in_map_iff in Hc. destruct Hc as (a & <- & Ha).
      rewrite (nth_indep _ nzero (ndot a [])) by (now rewrite map_length). rewrite (map_nth (ndot a)), Ej.
      apply dot_nan_r; [exact (unit_nonempty H1 p a Hp F1 Ha)|exact Hp].
  Qed.
  Lemma gamma_nan_keep (Hs : list (list (list N))) l : forall g, foldM (fun g ij => let* d := dissimilarity (nth (fst ij) Hs []) (nth (snd ij) Hs []) in Ok (nadd g d)) l nan = Ok g -> g = nan.
  Proof.
    induction l as [|ij l IH]; intros g E; cbn [foldM] in E; [now injection E|]. destruct (dissimilarity _ _); [|discriminate]. cbn [bind] in E. rewrite add_l in E. now apply IH.
  Qed.
  Lemma gamma_nan n (Hs : list (list (list N))) g a b : a < b < n -> gamma_of n Hs = Ok g ->
    (forall d, dissimilarity (nth a Hs []) (nth b Hs []) = Ok d -> d = nan) -> g = nan.
  Proof.
    intros Hab E D. pose proof (combinations_in n a b Hab) as I. unfold gamma_of in E. revert E I. generalize (combinations n) as l, (nzero : N) as z.
    induction l as [|ij l IH]; intros z E I; [destruct I|]. cbn [foldM] in E. destruct (dissimilarity (nth (fst ij) Hs []) (nth (snd ij) Hs [])) as [d|] eqn:Ed; [|discriminate]. cbn [bind] in E.
    destruct I as [->|I]; [|exact (IH _ E I)]. cbn [fst snd] in Ed. rewrite (D d Ed), add_r in E. exact (gamma_nan_keep _ _ _ E).
  Qed.

  Variables (finite : N -> bool) (RS : Type) (randint : nat -> nat -> RS -> result (list (list nat)) * RS)
    (nmf : nat -> list (list N) -> RS -> result (list (list N)) * RS) (cluster : list (list N) -> result (list Z)) (cons_meth : list (list N) -> list N).
  Variable p : nat.
  Hypothesis contract : forall k s st H st', nmf k s st = (Ok H, st') -> shape k p H.
  Hypothesis sizes : forall n b st reps st', randint n b st = (Ok reps, st') -> length reps = b.
  Hypothesis leb_nan : forall x y, neqb y y = false -> nleb (n := N) x y = false.
  Hypothesis only_nan : forall x, neqb (n := N) x x = false -> x = nan.

  Lemma fit_nan X st o o' st' ks : nmf_fit finite RS randint nmf cluster cons_meth X p st o = (o', Ok tt, st') -> ranks o = Some ks -> Forall (fun k => 0 < k) ks ->
    use_dissimilarity o = true -> 2 <= n_boots o ->
    exists reps st1 boots ds i H,
      randint (length X) (n_boots o) st = (Ok reps, st1) /\
      all_factorized _ RS nmf ks (map (fun rep => map (fun i => nth i X []) rep) reps) st1 boots st' /\
      dissimilarity_ o' = Some ds /\ length ds = length ks /\ bases_samples_ o' = Some H /\
      (forall z Hs b r, z < length ks -> Forall2 (kept _ (nth z ks 0)) boots Hs -> b < n_boots o -> In r (nth b Hs []) ->
         Forall (fun x => neqb x nzero = true) r -> nth z ds nzero = nan /\ i <= z /\ nth i ds nzero = nan) /\
      (forall Hs, Forall2 (kept _ (nth i ks 0)) boots Hs ->
         Forall2 (fun r h => exists d, h = map (fun x => ndiv x d) r) (filter (fun r => negb (neqb (nsum r) nzero)) (concat Hs)) H).
  Proof.
    intros Ft Ek Pk Ud Hn. apply nmf_fit_inv in Ft. destruct Ft as (ks' & reps & st1 & boots & Hpre & H & labels & C & Ek' & Er & A & Ec & Ef & ->).
    rewrite Ek in Ek'. injection Ek' as <-.
    assert (Lb : length boots = n_boots o) by (rewrite (all_length _ _ _ _ _ _ _ A), map_length; exact (sizes _ _ _ _ _ Er)).
    assert (Kb : forall k Hs, Forall2 (kept _ k) boots Hs -> map (bases_of k) boots = Hs).
    { intros k Hs F. clear -F. induction F as [|b B bs Bs K F IH]; [reflexivity|]. cbn. f_equal; [now apply kept_bases|exact IH]. }
    unfold choose_bases in Ec |- *. rewrite Ud in Ec |- *.
    destruct (mapM (fun k => gamma_of (n_boots o) (map (bases_of k) boots)) ks) as [gamma|] eqn:Em; [|discriminate]. cbn [fst snd] in Ec |- *.
    destruct (np_argmin gamma) as [i|] eqn:Ei; [|discriminate]. cbn [bind] in Ec. injection Ec as <-.
    pose proof (mapM_len _ _ _ Em) as Lg.
    assert (Nds : forall m, m < length gamma -> nth m gamma nzero = nan -> nth m (map (mean_dissimilarity (n_boots o)) gamma) nzero = nan).
    { intros m Hm E. rewrite (nth_indep _ nzero (mean_dissimilarity (n_boots o) nzero)) by (now rewrite map_length). rewrite (map_nth (mean_dissimilarity (n_boots o))), E.
      unfold mean_dissimilarity. now rewrite mul_l, div_l. }
    apply consensus_inv in Ef. destruct Ef as (E1 & _ & _). apply normalize_eq in E1. destruct E1 as (_ & Pp & EH).
    exists reps, st1, boots, (map (mean_dissimilarity (n_boots o)) gamma), i, H.
    split; [exact Er|]. split; [exact A|]. split; [reflexivity|]. split; [now rewrite map_length|]. split; [reflexivity|]. split.
    - intros z Hs b r Hz F Hb Hr Zr. pose proof (Kb _ _ F) as M.
      assert (LHs : length Hs = n_boots o) by (rewrite <- M, map_length; exact Lb).
      assert (Sh : forall c, c < n_boots o -> shape (nth z ks 0) p (nth c Hs [])).
      { intros c Hc. assert (Hc' : c < length boots) by (rewrite Lb; exact Hc). pose proof (forall2_nth _ _ _ [] [] c F Hc') as (l1 & l2 & E & _).
        destruct (all_entries RS nmf ks _ _ _ _ A (nth c boots []) (nth_In boots [] Hc')) as [_ Q].
        destruct (Q (nth z ks 0) (nth c Hs [])) as (s & a & a' & Qe). { rewrite E. apply in_or_app. right. now left. } exact (contract _ _ _ _ _ Qe). }
      assert (Pz : 0 < nth z ks 0) by (rewrite Forall_forall in Pk; apply Pk, nth_In, Hz).
      assert (Gz : nth z gamma nzero = nan).
      { pose proof (mapM_nth _ ks gamma 0 nzero z Em Hz) as G. cbv beta in G. rewrite M in G.
        assert (B0 : 0 < n_boots o) by lia. assert (B1 : 1 < n_boots o) by lia. assert (Hp : p <> 0) by lia.
        destruct (Nat.eq_dec b 0) as [->|Nb].
        - assert (B01 : 0 < 1 < n_boots o) by lia. apply (gamma_nan _ _ _ 0 1 B01 G). intros d Ed. apply (dissimilarity_nan (nth z ks 0) p _ _ d r Pz Hp (Sh 0 B0) (Sh 1 B1) Ed Zr). now left.
        - assert (B0b : 0 < b < n_boots o) by lia. apply (gamma_nan _ _ _ 0 b B0b G). intros d Ed. apply (dissimilarity_nan (nth z ks 0) p _ _ d r Pz Hp (Sh 0 B0) (Sh b Hb) Ed Zr). now right. }
      split; [apply Nds; [congruence|exact Gz]|].
      destruct (np_argmin_nan gamma z leb_nan ltac:(congruence)) as (i' & Ei' & Hle & Hlt & Hnan); [rewrite Gz; exact eq_nan|].
      rewrite Ei in Ei'. injection Ei' as <-. split; [exact Hle|]. apply Nds; [exact Hlt|]. now apply only_nan.
    - intros Hs F. rewrite (Kb _ _ F) in EH. rewrite EH. unfold nnonzero.
      generalize (filter (fun r => negb (neqb (nsum r) nzero)) (concat Hs)) as l. induction l as [|r l IH]; cbn [map]; constructor; [|exact IH]. eexists. reflexivity.
  Qed.
End Generic.

Section Floats.
  Variables (exp64 ln64 : f64 -> f64).
  Notation FN := (Fnum exp64 ln64).
  Lemma feqb_zero x : feqb x fzero = true -> exists s, x = S754_zero s.
  Proof. destruct x as [s|s| |s m e]; intro E; [eauto|destruct s; discriminate|discriminate|destruct s; discriminate]. Qed.
  Lemma zero_norm (r : list f64) : Forall (fun x => feqb x fzero = true) r -> vector_norm (N := FN) r = fzero.
  Proof.
    intro F. assert (E : nsum (N := FN) (map (nsquare (N := FN)) r) = fzero).
    { induction F as [|x r E F IH]; [reflexivity|]. destruct (feqb_zero x E) as [s ->].
      etransitivity; [exact (f_equal (fadd (fmul (S754_zero s) (S754_zero s))) IH)|]. destruct s; reflexivity. }
    unfold vector_norm. etransitivity; [exact (f_equal fsqrt E)|]. reflexivity.
  Qed.
  Lemma zero_unit_row (r : list f64) : r <> [] -> Forall (fun x => feqb x fzero = true) r ->
    map (fun x => fdiv x (vector_norm (N := FN) r)) r = repeat fnan (length r).
  Proof.
    intros _ F. rewrite (zero_norm r F). induction F as [|x r E F IH]; [reflexivity|]. cbn [map length repeat]. f_equal; [|exact IH].
    destruct (feqb_zero x E) as [s ->]. destruct s; reflexivity.
  Qed.
  Lemma feqb_self x : feqb x x = false -> x = fnan.
  Proof.
    destruct x as [s|s| |s m e]; intro E; [destruct s; discriminate|destruct s; discriminate|reflexivity|].
    exfalso. revert E. unfold feqb, SFeqb, SFcompare. destruct s; rewrite Z.compare_refl, Pos.compare_refl; discriminate.
  Qed.
End Floats.
