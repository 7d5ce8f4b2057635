(** Proofs about the fit of UoI_NMF over the reals: choice of the rank and consensus. *)
From Coq Require Import ZArith List Bool Arith Reals Lia Lra.
From Verif Require Import Prelude F64 Num Spec_Rescale Spec_Poisson Model_Nmf Spec_Nmf
  Proofs_Rescale Proofs_Poisson Proofs_LbfgsVec Proofs_Nmf Proofs_NmfFit.
Import ListNotations.
Local Open Scope R_scope.

(** ** Sums over pairs *)
Definition lsum {A} (f : A -> R) (l : list A) : R := fold_right (fun a s => f a + s) 0 l.
Lemma lsum_app {A} (f : A -> R) l l' : lsum f (l ++ l') = lsum f l + lsum f l'.
Proof. unfold lsum. induction l as [|a l IH]; cbn [app fold_right]; [ring|]. rewrite IH. ring. Qed.
Lemma lsum_seq (f : nat -> R) n : lsum f (seq 0 n) = Sum n f.
Proof. induction n as [|n IH]; [reflexivity|]. rewrite seq_S, lsum_app, IH, Sum_S. unfold lsum. cbn. ring. Qed.
Lemma lsum_map {A B} (g : A -> B) (f : B -> R) l : lsum f (map g l) = lsum (fun a => f (g a)) l.
Proof. induction l as [|a l IH]; cbn; [reflexivity|]. unfold lsum in *. now rewrite IH. Qed.
Lemma lsum_flat {A B} (g : A -> list B) (f : B -> R) l : lsum f (flat_map g l) = lsum (fun a => lsum f (g a)) l.
Proof. induction l as [|a l IH]; cbn [flat_map]; [reflexivity|]. rewrite lsum_app, IH. reflexivity. Qed.
Lemma lsum_ext {A} (f g : A -> R) l : (forall a, In a l -> f a = g a) -> lsum f l = lsum g l.
Proof. induction l as [|a l IH]; intro H; [reflexivity|]. cbn. rewrite (H a (or_introl eq_refl)). unfold lsum in IH. rewrite IH; [reflexivity|]. intros; apply H; now right. Qed.
Lemma lsum_tail (f : nat -> R) n i : (i < n)%nat -> lsum f (seq (S i) (n - S i)) = Sum n (fun b => if (i <? b)%nat then f b else 0).
Proof.
  intro Hi. rewrite <- lsum_seq. replace (seq 0 n) with (seq 0 (S i) ++ seq (S i) (n - S i)) by (rewrite <- seq_app; f_equal; lia).
  rewrite lsum_app. rewrite (lsum_ext _ (fun _ => 0) (seq 0 (S i))).
  - rewrite lsum_seq, Sum_zero by reflexivity. rewrite Rplus_0_l. apply lsum_ext. intros b Hb. apply in_seq in Hb. destruct (Nat.ltb_spec i b); [reflexivity|lia].
  - intros b Hb. apply in_seq in Hb. destruct (Nat.ltb_spec i b); [lia|reflexivity].
Qed.
Lemma lsum_combinations n (f : nat -> nat -> R) : lsum (fun ij => f (fst ij) (snd ij)) (combinations n) = pair_sum n f.
Proof.
  unfold combinations, pair_sum. rewrite lsum_flat, lsum_seq. apply Sum_ext. intros i Hi. rewrite lsum_map. cbn [fst snd]. now apply lsum_tail.
Qed.
Lemma in_combinations n ij : In ij (combinations n) -> (fst ij < snd ij < n)%nat.
Proof.
  unfold combinations. intro H. apply in_flat_map in H. destruct H as (i & Hi & H). apply in_map_iff in H. destruct H as (j & <- & Hj).
  apply in_seq in Hi, Hj. cbn. lia.
Qed.
Lemma combinations_in n a b : (a < b < n)%nat -> In (a, b) (combinations n).
Proof.
  intro H. apply in_flat_map. exists a. split; [apply in_seq; lia|]. apply in_map_iff. exists b. split; [reflexivity|apply in_seq; lia].
Qed.

Lemma gamma_fold (D : nat * nat -> result R) (f : nat * nat -> R) l : (forall ij, In ij l -> D ij = Ok (f ij)) -> forall g,
  foldM (fun (g : R) ij => let* d := D ij in Ok (g + d)) l g = Ok (g + lsum f l).
Proof.
  induction l as [|ij l IH]; intros H g; cbn [foldM].
  - cbn. now rewrite Rplus_0_r.
  - rewrite (H ij (or_introl eq_refl)). cbn [bind]. rewrite IH by (intros; apply H; now right). f_equal. cbn. unfold lsum. ring.
Qed.
Lemma gamma_value k p n (Hs : list (list (list R))) : (0 < k)%nat -> (forall a, (a < n)%nat -> basis k p (nth a Hs [])) ->
  exists f, (forall a b, (a < b < n)%nat -> is_dissimilarity k p (nth a Hs []) (nth b Hs []) (f a b)) /\
    gamma_of (N := Rnum) n Hs = Ok (pair_sum n f).
Proof.
  intros Hk B.
  set (f := fun a b => match dissimilarity (N := Rnum) (nth a Hs []) (nth b Hs []) with Ok d => (d : R) | Raise _ => 0 end).
  assert (V : forall a b, (a < b < n)%nat -> dissimilarity (N := Rnum) (nth a Hs []) (nth b Hs []) = Ok (f a b) /\ is_dissimilarity k p (nth a Hs []) (nth b Hs []) (f a b)).
  { intros a b H. destruct (dissimilarity_value k p (nth a Hs []) (nth b Hs []) Hk (B a ltac:(lia)) (B b ltac:(lia))) as (d & E & I). unfold f. rewrite E. split; [reflexivity|exact I]. }
  exists f. split; [intros a b H; apply (V a b H)|].
  etransitivity; [exact (gamma_fold (fun ij => dissimilarity (N := Rnum) (nth (fst ij) Hs []) (nth (snd ij) Hs [])) (fun ij => f (fst ij) (snd ij)) (combinations n) (fun ij H => proj1 (V _ _ (in_combinations n ij H))) 0)|].
  rewrite lsum_combinations. f_equal. apply Rplus_0_l.
Qed.

(** ** argmin *)
Lemma argmin_R (l : list R) : l <> [] -> exists i, np_argmin (N := Rnum) l = Ok i /\ first_smallest l i.
Proof.
  intro Ne. destruct (np_argmin_spec (N := Rnum) (fun _ => True)
    (fun x _ => proj2 (Reqb_t x x) eq_refl)
    (fun x y z _ _ _ a b => proj2 (Rleb_t x z) (Rle_trans x y z (proj1 (Rleb_t x y) a) (proj1 (Rleb_t y z) b)))
    (fun x y _ _ => match Rle_dec x y with left a => or_introl (proj2 (Rleb_t x y) a) | right b => or_intror (proj2 (Rleb_t y x) (Rlt_le _ _ (Rnot_le_lt _ _ b))) end)
    (fun x _ => proj2 (Rleb_t x x) (Rle_refl x)) l Ne) as (i & E & Hi & H1 & H2).
  { apply Forall_forall. easy. }
  exists i. split; [exact E|]. split; [exact Hi|]. intros j Hj. split.
  - apply Rleb_t. exact (H1 j Hj).
  - intro Hij. apply Rleb_f. exact (H2 j Hij).
Qed.
Lemma mean_R n g : (2 <= n)%nat -> mean_dissimilarity (N := Rnum) n g = g / (INR n * (INR n - 1) / 2).
Proof.
  intro Hn. unfold mean_dissimilarity. change (g * 2 / IZR (Z.of_nat n * (Z.of_nat n - 1)) = g / (INR n * (INR n - 1) / 2)).
  rewrite mult_IZR, minus_IZR, <- INR_IZR_INZ. apply le_INR in Hn. change (INR 2) with 2 in Hn. field. lra.
Qed.
Lemma smallest_scale (l : list R) c i : 0 < c -> first_smallest l i -> first_smallest (map (fun g => g / c) l) i.
Proof.
  intros Hc [Hi H]. assert (E : forall j, nth j (map (fun g => g / c) l) 0 = nth j l 0 / c).
  { intro j. rewrite <- (map_nth (fun g => g / c)). f_equal. unfold Rdiv. ring. }
  split; [now rewrite map_length|]. rewrite map_length. intros j Hj. rewrite !E. destruct (H j Hj) as [A B]. unfold Rdiv. pose proof (Rinv_0_lt_compat c Hc). split.
  - apply Rmult_le_compat_r; [lra|exact A].
  - intro Hij. apply Rmult_lt_compat_r; [assumption|auto].
Qed.

(** ** Normalization *)
Lemma norm2_zero p (a : list R) : norm2 p a = 0 -> forall j, (j < p)%nat -> entry a j = 0.
Proof.
  intros E j Hj. apply sqrt_eq_0 in E; [|apply Sum_nonneg; intros; apply Rle_0_sqr].
  apply (Sum_zero_inv p (fun j => entry a j * entry a j)) with (j := j) in E; [|intros; apply Rle_0_sqr|exact Hj]. now apply Rsqr_eq_0.
Qed.
Lemma normalize_eq {N : NumOps} (finite : N -> bool) (H : list (list N)) p H' : sk_normalize finite H p = Ok H' ->
  H <> [] /\ (0 < p)%nat /\ H' = map (fun r => map (fun x => ndiv x (if neqb (vector_norm r) nzero then none else vector_norm r)) r) H.
Proof.
  unfold sk_normalize. destruct (Nat.eqb_spec (length H) 0) as [|L]; [intro Q; discriminate Q|]. cbn [orb].
  destruct (Nat.eqb_spec p 0) as [|P]; [intro Q; discriminate Q|]. cbn [orb].
  destruct (forallb _ H); [|intro Q; discriminate Q]. intro Q. injection Q as <-.
  split; [intros ->; now apply L|]. split; [lia|reflexivity].
Qed.
Lemma normalize_inv finite (H : list (list R)) p H' : sk_normalize (N := Rnum) finite H p = Ok H' -> Forall (fun r => length r = p) H ->
  H <> [] /\ (0 < p)%nat /\ Forall2 (scaled p) H H'.
Proof.
  intros Q F. apply (normalize_eq (N := Rnum)) in Q. destruct Q as (Ne & Pp & ->). split; [exact Ne|]. split; [exact Pp|].
  clear Ne. induction F as [|r H Lr F IH]; cbn [map]; constructor; [|exact IH].
  split; [now rewrite map_length|]. intros j Hj. rewrite (vector_norm_R p r Lr).
  match goal with |- entry (map ?g r) j = _ => set (g0 := g) end.
  assert (Lj : (j < length (map g0 r))%nat) by (rewrite map_length; exact (eq_ind_r (fun q => (j < q)%nat) Hj Lr)).
  unfold entry. rewrite (nth_indep _ 0 (g0 0) Lj). rewrite (map_nth g0). unfold g0. fold (entry r j).
  change (entry r j / (if Reqb (norm2 p r) 0 then 1 else norm2 p r) = entry r j / norm2 p r).
  destruct (Reqb (norm2 p r) 0) eqn:E; [|reflexivity]. apply Reqb_t in E. rewrite (norm2_zero p r E j Hj). unfold Rdiv. ring.
Qed.
Lemma scaled_norm p a b : scaled p a b -> 0 < norm2 p a -> norm2 p b = 1.
Proof.
  intros [L E] Pa. unfold norm2 at 1. rewrite (Sum_ext p _ (fun j => entry a j * entry a j * / (norm2 p a * norm2 p a))).
  - rewrite Sum_scal_r, <- norm2_sq. rewrite Rinv_r by nra. apply sqrt_1.
  - intros j Hj. rewrite (E j Hj). field. lra.
Qed.
Lemma scaled_nonneg p a b : scaled p a b -> (forall j, (j < p)%nat -> 0 <= entry a j) -> forall j, 0 <= entry b j.
Proof.
  intros [L E] Pa j. destruct (le_lt_dec p j) as [C|C]; [unfold entry; rewrite nth_overflow by lia; lra|]. rewrite (E j C).
  destruct (Req_dec (norm2 p a) 0) as [Z|Z]; [rewrite (norm2_zero p a Z j C); unfold Rdiv; lra|].
  apply Rmult_le_pos; [auto|]. left. apply Rinv_0_lt_compat. pose proof (sqrt_pos (Sum p (fun j => entry a j * entry a j))). unfold norm2 in *. lra.
Qed.

(** ** The factorizations *)
Section Contract.
  Variables (RS : Type) (nmf : nat -> list (list R) -> RS -> result (list (list R)) * RS) (p : nat).
  Lemma kept_all ks ss st bs st' k : all_factorized _ RS nmf ks ss st bs st' -> In k ks ->
    exists Hs, Forall2 (kept _ k) bs Hs /\ map (bases_of (N := Rnum) k) bs = Hs /\ forall H, In H Hs -> exists s st1 st2, nmf k s st1 = (Ok H, st2).
  Proof.
    intros A I. pose proof (all_entries (N := Rnum) RS nmf ks ss st bs st' A) as En. clear A. induction bs as [|b bs IH].
    - exists []. split; [constructor|]. split; [reflexivity|]. intros ? [].
    - destruct (IH (fun b' Hb => En b' (or_intror Hb))) as (Hs & F & M & Q). destruct (En b (or_introl eq_refl)) as [E1 E2].
      destruct (kept_exists (N := Rnum) k b ltac:(now rewrite E1)) as (H & K & IH').
      exists (H :: Hs). split; [now constructor|]. split; [cbn [map]; f_equal; [exact (kept_bases (N := Rnum) k b H K)|exact M]|].
      intros H' [<-|HI]; [eauto|auto].
  Qed.
  Lemma kept_unique k (b : list (nat * list (list R))) H H' : kept _ k b H -> kept _ k b H' -> H = H'.
  Proof. intros A B. apply (kept_bases (N := Rnum)) in A, B. congruence. Qed.
  Lemma kept_all_unique k (bs : list (list (nat * list (list R)))) Hs Hs' : Forall2 (kept _ k) bs Hs -> Forall2 (kept _ k) bs Hs' -> Hs = Hs'.
  Proof.
    intro F. revert Hs'. induction F as [|b H bs Hs K F IH]; intros Hs' F'; inversion F'; subst; [reflexivity|]. f_equal; [eapply kept_unique; eassumption|auto].
  Qed.
End Contract.

(** Rows of non-negative bases have non-zero sums. *)
Lemma nsum_entries (r : list R) p : length r = p -> nsum (N := Rnum) r = Sum p (entry r).
Proof. intros <-. exact (nsum_Sum r). Qed.
Lemma basis_row k p H r : basis k p H -> nonnegative H -> In r H ->
  length r = p /\ (forall j, 0 <= entry r j) /\ (exists j, (j < p)%nat /\ entry r j <> 0) /\ nnonzero (N := Rnum) (nsum (N := Rnum) r) = true.
Proof.
  intros [[L F] Nz] Nn I. destruct (In_nth _ _ [] I) as (i & Hi & <-). rewrite L in Hi.
  assert (Lr : length (nth i H []) = p) by (rewrite Forall_forall in F; now apply F, nth_In; rewrite L).
  split; [exact Lr|]. split; [exact (Nn i)|]. destruct (Nz i Hi) as (j & Hj & Nj). split; [exists j; auto|].
  unfold nnonzero. change (negb (Reqb (nsum (N := Rnum) (nth i H [])) 0) = true). rewrite (nsum_entries _ p Lr).
  assert (P : 0 < Sum p (entry (nth i H []))).
  { apply (Sum_pos p _ j); [intros; apply Nn|exact Hj|]. pose proof (Nn i j) as P. unfold mat in P, Nj. lra. }
  destruct (Reqb _ 0) eqn:E; [|reflexivity]. apply Reqb_t in E. lra.
Qed.
Lemma filter_all {A} (f : A -> bool) l : (forall a, In a l -> f a = true) -> filter f l = l.
Proof. induction l as [|a l IH]; intro H; [reflexivity|]. cbn. rewrite (H a (or_introl eq_refl)), IH; [reflexivity|]. intros; apply H; now right. Qed.

Lemma mapM_all {A B} (f : A -> result B) (g : A -> B) l : (forall a, In a l -> f a = Ok (g a)) -> mapM f l = Ok (map g l).
Proof. induction l as [|a l IH]; intro H; [reflexivity|]. cbn. rewrite (H a (or_introl eq_refl)). cbn. rewrite IH; [reflexivity|]. intros; apply H; now right. Qed.

Section Fit.
  Variables (finite : R -> bool) (RS : Type) (randint : nat -> nat -> RS -> result (list (list nat)) * RS)
    (nmf : nat -> list (list R) -> RS -> result (list (list R)) * RS) (cluster : list (list R) -> result (list Z)) (cons_meth : list (list R) -> list R).
  Notation fit := (nmf_fit (N := Rnum) finite RS randint nmf cluster cons_meth).
  Variable p : nat.
  Hypothesis contract : forall k s st H st', (0 < k)%nat -> nmf k s st = (Ok H, st') -> basis k p H /\ nonnegative H.
  Hypothesis sizes : forall n b st reps st', randint n b st = (Ok reps, st') -> length reps = b.

  Lemma fit_rank X st o o' st' ks : fit X p st o = (o', Ok tt, st') -> ranks o = Some ks -> Forall (fun k => (0 < k)%nat) ks ->
    use_dissimilarity o = true -> (2 <= n_boots o)%nat ->
    exists reps st1 boots ds i H,
      randint (length X) (n_boots o) st = (Ok reps, st1) /\
      all_factorized _ RS nmf ks (map (fun rep => map (fun i => nth i X []) rep) reps) st1 boots st' /\
      dissimilarity_ o' = Some ds /\ length ds = length ks /\
      (forall m, (m < length ks)%nat -> exists Hs f, Forall2 (kept _ (nth m ks 0%nat)) boots Hs /\
         (forall a b, (a < b < n_boots o)%nat -> is_dissimilarity (nth m ks 0%nat) p (nth a Hs []) (nth b Hs []) (f a b)) /\
         nth m ds 0 = pair_average (n_boots o) f) /\
      first_smallest ds i /\ bases_samples_ o' = Some H /\
      forall Hs, Forall2 (kept _ (nth i ks 0%nat)) boots Hs -> Forall2 (scaled p) (concat Hs) H.
  Proof.
    intros Ft Ek Pk Ud Hn. apply nmf_fit_inv in Ft. destruct Ft as (ks' & reps & st1 & boots & Hpre & H & labels & C & Ek' & Er & A & Ec & Ef & ->).
    rewrite Ek in Ek'. injection Ek' as <-.
    assert (Lb : length boots = n_boots o) by (rewrite (all_length (N := Rnum) _ _ _ _ _ _ _ A), map_length; exact (sizes _ _ _ _ _ Er)).
    assert (Kp : forall k, In k ks -> exists Hs, Forall2 (kept _ k) boots Hs /\ map (bases_of (N := Rnum) k) boots = Hs /\ length Hs = n_boots o /\ forall H, In H Hs -> basis k p H /\ nonnegative H).
    { intros k Hk. destruct (kept_all RS nmf ks _ _ _ _ k A Hk) as (Hs & F & M & Q). exists Hs. split; [exact F|]. split; [exact M|]. split; [rewrite <- M, map_length; exact Lb|].
      intros H0 H0I. destruct (Q H0 H0I) as (s & a & b & E). rewrite Forall_forall in Pk. exact (contract k s a H0 b (Pk k Hk) E). }
    set (gam := fun k => match gamma_of (N := Rnum) (n_boots o) (map (bases_of (N := Rnum) k) boots) with Ok g => (g : R) | Raise _ => 0 end).
    assert (Gm : forall k, In k ks -> gamma_of (N := Rnum) (n_boots o) (map (bases_of (N := Rnum) k) boots) = Ok (gam k) /\
      exists Hs f, Forall2 (kept _ k) boots Hs /\ (forall a b, (a < b < n_boots o)%nat -> is_dissimilarity k p (nth a Hs []) (nth b Hs []) (f a b)) /\ gam k = pair_sum (n_boots o) f).
    { intros k Hk. destruct (Kp k Hk) as (Hs & F & M & L & Q). rewrite Forall_forall in Pk.
      destruct (gamma_value k p (n_boots o) Hs (Pk k Hk)) as (f & D & G). { intros a Ha. apply Q, nth_In. exact (eq_ind_r (fun q => (a < q)%nat) Ha L). }
      unfold gam. rewrite M, G. split; [reflexivity|]. exists Hs, f. auto. }
    pose proof (mapM_all _ gam ks (fun k Hk => proj1 (Gm k Hk))) as Em.
    assert (Ech : choose_bases (N := Rnum) o ks boots = (set_dissimilarity (N := Rnum) o (map (mean_dissimilarity (N := Rnum) (n_boots o)) (map gam ks)),
       let* i := np_argmin (N := Rnum) (map gam ks) in Ok (concat (map (bases_of (N := Rnum) (nth i ks 0%nat)) boots)))).
    { unfold choose_bases. rewrite Ud. etransitivity; [apply (f_equal (fun g => match g with Raise e => (o, Raise e) | Ok gamma => (set_dissimilarity (N := Rnum) o (map (mean_dissimilarity (N := Rnum) (n_boots o)) gamma),
       let* i := np_argmin (N := Rnum) gamma in Ok (concat (map (bases_of (N := Rnum) (nth i ks 0%nat)) boots))) end)); exact Em|]. reflexivity. }
    rewrite Ech in Ec |- *. cbn [fst snd] in Ec |- *.
    assert (Nk : map gam ks <> []) by (intro Z; rewrite Z in Ec; discriminate).
    destruct (argmin_R (map gam ks) Nk) as (i & Ei & Si). rewrite Ei in Ec. cbn [bind] in Ec. injection Ec as <-.
    set (c := INR (n_boots o) * (INR (n_boots o) - 1) / 2).
    assert (Pc : 0 < c). { apply le_INR in Hn. change (INR 2) with 2 in Hn. unfold c. nra. }
    assert (Ed : map (mean_dissimilarity (N := Rnum) (n_boots o)) (map gam ks) = map (fun g => g / c) (map gam ks)).
    { apply map_ext. intro g. exact (mean_R (n_boots o) g Hn). }
    exists reps, st1, boots, (map (fun g => g / c) (map gam ks)), i, H.
    split; [exact Er|]. split; [exact A|]. split; [exact (f_equal Some Ed)|]. split; [now rewrite !map_length|]. split; [|split; [now apply smallest_scale|split; [reflexivity|]]].
    - intros m Hm. destruct (Gm (nth m ks 0%nat) (nth_In ks 0%nat Hm)) as (_ & Hs & f & F & D & E). exists Hs, f. split; [exact F|]. split; [exact D|].
      rewrite map_map. rewrite (nth_indep _ 0 (gam 0%nat / c)) by (now rewrite map_length). rewrite (map_nth (fun k => gam k / c)). rewrite E. reflexivity.
    - intros Hs F. destruct Si as [Hi _]. rewrite map_length in Hi. destruct (Kp (nth i ks 0%nat) (nth_In ks 0%nat Hi)) as (Hs' & F' & M & L & Q).
      rewrite (kept_all_unique _ _ _ _ F F'). apply consensus_inv in Ef. destruct Ef as (E1 & _).
      assert (Br : forall r, In r (concat Hs') -> length r = p /\ nnonzero (N := Rnum) (nsum (N := Rnum) r) = true).
      { intros r Hr. apply in_concat in Hr. destruct Hr as (B & HB & Hr). destruct (Q B HB) as [Bb Bn]. destruct (basis_row _ _ _ _ Bb Bn Hr) as (a & _ & _ & b). auto. }
      assert (E1' : sk_normalize (N := Rnum) finite (concat Hs') p = Ok H).
      { etransitivity; [|exact E1]. symmetry. apply (f_equal (fun h => sk_normalize (N := Rnum) finite h p)).
        rewrite <- (filter_all (fun r => nnonzero (N := Rnum) (nsum (N := Rnum) r)) (concat Hs')) by (intros r Hr; apply (Br r Hr)). rewrite <- M. reflexivity. }
      apply normalize_inv in E1'; [tauto|]. apply Forall_forall. intros r Hr. apply (Br r Hr).
  Qed.

  (** All clustered rows come from the factorizations. *)
  Lemma chosen_rows ks ss st boots st' o Hpre : all_factorized _ RS nmf ks ss st boots st' -> Forall (fun k => (0 < k)%nat) ks ->
    snd (choose_bases (N := Rnum) o ks boots) = Ok Hpre -> forall r, In r Hpre ->
    length r = p /\ (forall j, 0 <= entry r j) /\ (exists j, (j < p)%nat /\ entry r j <> 0) /\ nnonzero (N := Rnum) (nsum (N := Rnum) r) = true.
  Proof.
    intros A Pk Ec r Hr.
    assert (B : forall k B, In k ks -> In B (map (bases_of (N := Rnum) k) boots) -> basis k p B /\ nonnegative B).
    { intros k B Hk HB. destruct (kept_all RS nmf ks _ _ _ _ k A Hk) as (Hs & F & M & Q). rewrite M in HB. destruct (Q B HB) as (s & a & b & E). rewrite Forall_forall in Pk. exact (contract k s a B b (Pk k Hk) E). }
    assert (exists k, In k ks /\ In r (concat (map (bases_of (N := Rnum) k) boots))) as (k & Hk & Hr').
    { unfold choose_bases in Ec. destruct (use_dissimilarity o).
      - destruct (mapM _ ks) as [g|] eqn:Em; [|discriminate]. cbn [snd] in Ec.
        assert (Lg : length g = length ks). { clear -Em. revert g Em. induction ks as [|k ks IH]; cbn; intros g E; [injection E as <-; reflexivity|].
          destruct (gamma_of (n_boots o) _); [|discriminate]. cbn in E. destruct (mapM _ ks); [|discriminate]. cbn in E. injection E as <-. cbn. f_equal. now apply IH. }
        destruct (np_argmin (N := Rnum) g) as [i|] eqn:Ei; [|discriminate]. cbn [bind] in Ec. injection Ec as <-.
        assert (Ng : g <> []) by (intros ->; discriminate).
        destruct (argmin_R g Ng) as (i' & Ei' & [Hi _]). rewrite Ei in Ei'. injection Ei' as <-. exists (nth i ks 0%nat). split; [apply nth_In; exact (eq_ind (length g) (fun q => (i < q)%nat) Hi _ Lg)|exact Hr].
      - cbn [snd] in Ec. assert (Ec' : Hpre = concat (map (fun k => concat (map (bases_of (N := Rnum) k) boots)) ks)) by (destruct ks; [discriminate|injection Ec as <-; reflexivity]).
        rewrite Ec' in Hr. apply in_concat in Hr. destruct Hr as (l & Hl & Hr). apply in_map_iff in Hl. destruct Hl as (k & <- & Hk). eauto. }
    apply in_concat in Hr'. destruct Hr' as (Bs & HB & Hr'). destruct (B k Bs Hk HB) as [B1 B2]. exact (basis_row _ _ _ _ B1 B2 Hr').
  Qed.

  Lemma Forall2_in {A B} (P : A -> B -> Prop) l l' b : Forall2 P l l' -> In b l' -> exists a, In a l /\ P a b.
  Proof. induction 1 as [|x y l l' Q F IH]; intros []; [subst; exists x; split; [now left|exact Q]|]. destruct (IH H) as (a & I & Pa). exists a. split; [now right|exact Pa]. Qed.
  Lemma labelled_in {A} (H : list A) labels c r : In r (labelled H labels c) -> In r H.
  Proof. revert labels. induction H as [|x H IH]; intros [|l labels]; cbn; try tauto. destruct (l =? c)%Z; cbn; intuition eauto. Qed.
  Lemma labelled_nonempty {A} (H : list A) labels c : length labels = length H -> In c labels -> labelled H labels c <> [].
  Proof.
    revert labels. induction H as [|x H IH]; intros [|l labels] L; cbn in *; try discriminate; [easy|]. intros [->|I]; [rewrite Z.eqb_refl; discriminate|].
    destruct (l =? c)%Z; [discriminate|]. apply IH; [congruence|exact I].
  Qed.
  Lemma Forall2_nth {A B} (P : A -> B -> Prop) l l' d d' i : Forall2 P l l' -> (i < length l)%nat -> P (nth i l d) (nth i l' d').
  Proof. intro F. revert i. induction F as [|x y l l' Q F IH]; intros i Hi; cbn in *; [lia|]. destruct i; [exact Q|apply IH; lia]. Qed.
  Lemma Forall2_len {A B} (P : A -> B -> Prop) l l' : Forall2 P l l' -> length l = length l'.
  Proof. induction 1; cbn; congruence. Qed.

  Lemma fit_components X st o o' st' ks k labels : fit X p st o = (o', Ok tt, st') -> ranks o = Some ks -> Forall (fun k => (0 < k)%nat) ks ->
    labels_ o' = Some labels -> labelling k labels -> (forall rows, length (cons_meth rows) = p) ->
    exists H C, bases_samples_ o' = Some H /\ cluster H = Ok labels /\ components_ o' = Some C /\ length C = k /\
      (forall r, In r H -> length r = p /\ (forall j, 0 <= entry r j) /\ norm2 p r = 1) /\
      (forall c, (c < k)%nat -> scaled p (cons_meth (labelled H labels (Z.of_nat c))) (row C c)).
  Proof.
    intros Ft Ek Pk Lb Lk Lc. apply nmf_fit_inv in Ft. destruct Ft as (ks' & reps & st1 & boots & Hpre & H & labels' & C & Ek' & Er & A & Ec & Ef & ->).
    rewrite Ek in Ek'. injection Ek' as <-. cbn in Lb. injection Lb as ->. apply consensus_inv in Ef. destruct Ef as (E1 & E2 & E3). specialize (E3 k Lk).
    exists H, C. split; [reflexivity|]. split; [exact E2|]. split; [reflexivity|].
    pose proof (chosen_rows ks _ _ _ _ o Hpre A Pk Ec) as Rw.
    pose proof (eq_trans (f_equal (fun h => sk_normalize (N := Rnum) finite h p) (eq_sym (filter_all (fun r => nnonzero (N := Rnum) (nsum (N := Rnum) r)) Hpre (fun r Hr => proj2 (proj2 (proj2 (Rw r Hr))))))) E1) as E1'. clear E1. rename E1' into E1.
    apply normalize_inv in E1; [|apply Forall_forall; intros r Hr; apply (Rw r Hr)]. destruct E1 as (_ & _ & F1).
    apply normalize_inv in E3; [|apply Forall_forall; intros r Hr; apply in_map_iff in Hr; destruct Hr as (i & <- & _); apply Lc]. destruct E3 as (_ & _ & F3).
    split; [refine (eq_trans (eq_sym (Forall2_len _ _ _ F3)) _); now rewrite map_length, seq_length|]. split.
    - intros r Hr. destruct (Forall2_in _ _ _ _ F1 Hr) as (a & Ha & Sa). destruct (Rw a Ha) as (L & P & Nz & _). split; [apply Sa|]. split; [apply (scaled_nonneg p a r Sa); auto|apply (scaled_norm p a r Sa), norm2_pos, Nz].
    - intros c Hc. pose proof (Forall2_nth _ _ _ (cons_meth (labelled H labels (Z.of_nat 0))) [] c F3 ltac:(now rewrite map_length, seq_length)) as Q.
      rewrite (map_nth (fun i => cons_meth (labelled H labels (Z.of_nat i)))) in Q. rewrite seq_nth in Q by exact Hc. exact Q.
  Qed.
End Fit.

Lemma nonneg_sum_pos n f : (0 < n)%nat -> (forall i, (i < n)%nat -> 0 < f i) -> 0 < Sum n f.
Proof. intros Hn H. apply (Sum_pos n f 0%nat); [intros j Hj; specialize (H j Hj); lra|exact Hn|apply H, Hn]. Qed.
Lemma mean_entry p H j : (j < p)%nat -> entry (mean_vector p H) j = Sum (length H) (fun i => mat H i j) / INR (length H).
Proof.
  intro Hj. unfold entry, mean_vector. set (g := fun j => Sum (length H) (fun i => mat H i j) / INR (length H)).
  rewrite (nth_indep _ 0 (g 0%nat)) by (now rewrite map_length, seq_length). rewrite (map_nth g), seq_nth by exact Hj. reflexivity.
Qed.
(** The mean of unit vectors in the non-negative orthant is not zero. *)
Lemma mean_unit p H : H <> [] -> (forall r, In r H -> length r = p /\ (forall j, 0 <= entry r j) /\ norm2 p r = 1) ->
  (forall j, (j < p)%nat -> 0 <= entry (mean_vector p H) j) /\ 0 < norm2 p (mean_vector p H).
Proof.
  intros Ne A. destruct H as [|r0 H0] eqn:EH; [easy|]. rewrite <- EH in *. assert (Ln : (0 < length H)%nat) by (subst H; cbn; lia).
  assert (P : forall i j, (i < length H)%nat -> 0 <= mat H i j) by (intros i j Hi; apply (A (nth i H [])), nth_In, Hi).
  pose proof (lt_0_INR _ Ln) as PL.
  assert (Nn : forall j, (j < p)%nat -> 0 <= entry (mean_vector p H) j).
  { intros j Hj. rewrite mean_entry by exact Hj. apply Rmult_le_pos; [apply Sum_nonneg; intros; now apply P|left; now apply Rinv_0_lt_compat]. }
  split; [exact Nn|]. destruct (Rle_lt_or_eq_dec 0 (norm2 p (mean_vector p H)) (sqrt_pos _)) as [|Z]; [assumption|exfalso].
  symmetry in Z. pose proof (norm2_zero _ _ Z) as ZZ.
  assert (Z0 : norm2 p (nth 0 H []) = 0).
  { unfold norm2. rewrite <- sqrt_0. f_equal. apply Sum_zero. intros j Hj. specialize (ZZ j Hj). rewrite mean_entry in ZZ by exact Hj.
    assert (S0 : Sum (length H) (fun i => mat H i j) = 0) by (apply (Rmult_eq_reg_r (/ INR (length H))); [rewrite Rmult_0_l; exact ZZ|apply Rinv_neq_0_compat; lra]).
    apply (Sum_zero_inv (length H) (fun i => mat H i j)) with (j := 0%nat) in S0; [|intros; now apply P|exact Ln]. unfold mat in S0. rewrite S0. ring. }
  destruct (A (nth 0 H []) (nth_In H [] Ln)) as (_ & _ & N1). lra.
Qed.
