(** The fits of UoI_CUR and CUR over the real numbers; reproducibility; empty selections. *)
From Coq Require Import ZArith List Bool Arith Reals Permutation Sorted Lia Lra.
From Verif Require Import Prelude F64 Num Spec_Rescale Spec_Poisson Model_Thresholds Model_Cur Spec_Cur
  Proofs_Rescale Proofs_Poisson Proofs_LbfgsVec Proofs_Intersection Proofs_Cur Proofs_CurFit Proofs_CurReal.
Import ListNotations.

Lemma cur_threshold_bounds ss n t : cur_stability_selection_to_threshold ss n = Ok t -> (1 <= t <= n)%Z.
Proof.
  unfold cur_stability_selection_to_threshold. destruct (match ss with PyFloat _ => _ | _ => _ end) as [z|]; [|discriminate]. cbn [bind].
  destruct ((z <=? n)%Z && (1 <=? z)%Z) eqn:E; [|discriminate]. intro H; injection H as <-.
  apply andb_prop in E. destruct E as [E1 E2]. apply Z.leb_le in E1, E2. lia.
Qed.
Lemma valid_ranks m ks v : valid_ks m ks v -> Forall (in_range m) v.
Proof. intro H. apply ks_valid in H. destruct H as (a & _ & H). now apply check_ranks_iff in H. Qed.

Section Shapes.
  Context {N : NumOps}.
  Variables (RS : Type) (svd : list (list N) -> RS -> result (list (list N)) * RS) (P : list (list N) -> Prop).
  Hypothesis HP : forall X st V st', svd X st = (Ok V, st') -> P V.
  Lemma boots_all src split rows st l st' : boots (list (list N)) RS src split svd rows st l st' ->
    Forall (fun b => P (snd b)) l.
  Proof.
    induction 1 as [|st ix st1 V st2 l st3 C1 C2 B IH]; constructor; [|exact IH]. cbn.
    destruct src as [s|]; cbn in C2.
    - destruct C2 as [C2 _]. destruct (svd (rows ix) s) as [r s'] eqn:E. cbn in C2. subst r. exact (HP _ _ _ _ E).
    - exact (HP _ _ _ _ C2).
  Qed.
End Shapes.

Lemma at_least_ext t n (P Q : nat -> Prop) : (forall b, b < n -> (P b <-> Q b)) -> at_least t n P <-> at_least t n Q.
Proof.
  intro H. split; intros (l & ND & Hl & Ht); exists l; (split; [exact ND|]); (split; [|exact Ht]); intros b Hb; destruct (Hl b Hb) as [Hn Pb]; (split; [exact Hn|]); now apply H.
Qed.
Lemma at_least_all t n (P : nat -> Prop) : (t <= Z.of_nat n)%Z -> (forall b, b < n -> P b) -> at_least t n P.
Proof.
  intros Ht H. exists (seq 0 n). split; [apply seq_NoDup|]. split; [|now rewrite seq_length].
  intros b Hb. apply in_seq in Hb. split; [lia|]. apply H. lia.
Qed.
Lemma at_least_none t n (P : nat -> Prop) : (1 <= t)%Z -> (forall b, b < n -> ~ P b) -> ~ at_least t n P.
Proof.
  intros Ht H (l & _ & Hl & Hlen). destruct l as [|b l]; [cbn in Hlen; lia|]. destruct (Hl b (or_introl eq_refl)) as [Hb Pb]. exact (H b Hb Pb).
Qed.

Section Reals.
  Variables (of_f64 : f64 -> R) (argsort : list R -> list nat) (RS : Type) (seeded : Z -> RS)
    (tts : RS -> result (list nat) * RS) (svd : list (list R) -> RS -> result (list (list R)) * RS).
  Notation runs g X := (boots (list (list R)) RS (source_of seeded (random_state g)) (split_of (boots_frac_is_1 g) (length X) tts) svd (rows_of X)).
  Notation fit := (cur_fit (N := Rnum) of_f64 argsort RS seeded tts svd).

  Lemma value_nth c i : i < n_counts c -> nth i (values (N := Rnum) of_f64 c) 0%R = count_value of_f64 c i.
  Proof.
    destruct c as [l|l]; cbn; intro H.
    - apply (map_nth IZR).
    - rewrite (nth_indep _ 0%R (of_f64 fzero)) by (now rewrite map_length). apply (map_nth of_f64).
  Qed.
  Lemma drawn_iff m p ks ksv cs c (V : list (list R)) (u : nat -> nat -> R) i j :
    valid_ks m ks ksv -> valid_cs ksv cs c -> matrix p (Z.to_nat m) V -> i < length ksv -> j < p ->
    drawn_in (N := Rnum) argsort ksv (values (N := Rnum) of_f64 c) V u i j <->
    drawn_column (Z.to_nat (nth i ksv 0%Z)) V (count_value of_f64 c i) (u i) j.
  Proof.
    intros Hk Hc M Hi Hj. unfold drawn_in.
    pose proof (valid_ranks _ _ _ Hk) as F. rewrite Forall_forall in F.
    assert (Hr : in_range m (nth i ksv 0%Z)) by (apply F, nth_In, Hi). unfold in_range in Hr.
    set (k := Z.to_nat (nth i ksv 0%Z)). pose proof (matrix_firstn _ _ k _ M ltac:(unfold k; lia)) as Mk.
    etransitivity; [exact (select_In (N := Rnum) argsort (map (firstn k) V) (nth i (values (N := Rnum) of_f64 c) nzero) (u i) j)|].
    assert (Ec : nth i (values (N := Rnum) of_f64 c) nzero = count_value of_f64 c i)
      by (apply value_nth; destruct Hc as (_ & _ & ->); exact Hi).
    rewrite Ec. clear Ec.
    assert (E : picks (N := Rnum) (map (firstn k) V) (count_value of_f64 c i) (u i) j = true <-> drawn_column k V (count_value of_f64 c i) (u i) j).
    { etransitivity; [exact (picks_drawn p k (map (firstn k) V) _ _ j Mk Hj)|]. unfold drawn_column, probability. now rewrite leverage_firstn. }
    split; [intros [_ H]; now apply E|]. intro H. split; [|now apply E]. exact (eq_ind_r (fun n => j < n) Hj (proj1 Mk)).
  Qed.

  Lemma fit_reals g X p ks cs u st o ksv c t l st' :
    (forall X st V st', svd X st = (Ok V, st') -> matrix p (Z.to_nat (max_k g)) V) ->
    valid_ks (max_k g) ks ksv -> valid_cs ksv cs c ->
    cur_stability_selection_to_threshold (stability_selection g) (n_boots g) = Ok t ->
    length l = Z.to_nat (n_boots g) -> runs g X st l st' ->
    exists idx,
      fit g X p ks cs u st o = (mkCur (N := Rnum) (Some idx) (Some (if Nat.eqb (length idx) 0 then [[]] else columns_of 0%R X idx)), Ok tt, st') /\
      StronglySorted lt idx /\
      forall j, In j idx <-> j < p /\ exists i, i < length ksv /\
        at_least t (length l) (fun b => drawn_column (Z.to_nat (nth i ksv 0%Z)) (snd (nth b l ([], []))) (count_value of_f64 c i) (u b i) j).
  Proof.
    intros HS Hk Hc Ht L R.
    destruct (fit_runs (N := Rnum) of_f64 argsort RS seeded tts svd g X p ks cs u st o ksv c t l st' Hk Hc Ht L R) as (idx & E & S & HI).
    exists idx. split; [exact E|]. split; [exact S|]. intro j. etransitivity; [exact (HI j)|].
    pose proof (boots_all (N := Rnum) RS svd (matrix p (Z.to_nat (max_k g))) HS _ _ _ _ _ _ R) as F. rewrite Forall_forall in F.
    split; intros [Hj (i & Hi & A)]; (split; [exact Hj|]); exists i; (split; [exact Hi|]); revert A; apply at_least_ext; intros b Hb;
      [symmetry|]; apply (drawn_iff (max_k g) p ks ksv cs c); auto; apply F, nth_In, Hb.
  Qed.
  Lemma fit_reals_inv g X p ks cs u st o o' st' :
    (forall X st V st', svd X st = (Ok V, st') -> matrix p (Z.to_nat (max_k g)) V) ->
    fit g X p ks cs u st o = (o', Ok tt, st') ->
    exists ksv c t l idx,
      valid_ks (max_k g) ks ksv /\ valid_cs ksv cs c /\
      cur_stability_selection_to_threshold (stability_selection g) (n_boots g) = Ok t /\
      length l = Z.to_nat (n_boots g) /\ runs g X st l st' /\
      column_indices_ o' = Some idx /\ StronglySorted lt idx /\
      forall j, In j idx <-> j < p /\ exists i, i < length ksv /\
        at_least t (length l) (fun b => drawn_column (Z.to_nat (nth i ksv 0%Z)) (snd (nth b l ([], []))) (count_value of_f64 c i) (u b i) j).
  Proof.
    intros HS H. destruct (fit_inv (N := Rnum) _ _ _ _ _ _ _ _ _ _ _ _ _ _ _ _ H) as (ksv & c & t & l & Hk & Hc & Ht & L & R).
    destruct (fit_reals g X p ks cs u st o ksv c t l st' HS Hk Hc Ht L R) as (idx & E & S & HI).
    exists ksv, c, t, l, idx. rewrite E in H. injection H as <-. repeat (split; [assumption||reflexivity|]). exact HI.
  Qed.

  (** With an int seed every bootstrap has the same training rows and singular vectors. *)
  Lemma fit_seed g X p ks cs u st o o' st' z :
    (forall X st V st', svd X st = (Ok V, st') -> matrix p (Z.to_nat (max_k g)) V) ->
    random_state g = Seed z ->
    fit g X p ks cs u st o = (o', Ok tt, st') ->
    exists ksv c t ix V idx,
      st' = st /\
      fst (split_of (boots_frac_is_1 g) (length X) tts (seeded z)) = Ok ix /\
      fst (svd (rows_of X ix) (seeded z)) = Ok V /\
      valid_ks (max_k g) ks ksv /\ valid_cs ksv cs c /\
      cur_stability_selection_to_threshold (stability_selection g) (n_boots g) = Ok t /\
      column_indices_ o' = Some idx /\
      forall j, In j idx <-> j < p /\ exists i, i < length ksv /\
        at_least t (Z.to_nat (n_boots g)) (fun b => drawn_column (Z.to_nat (nth i ksv 0%Z)) V (count_value of_f64 c i) (u b i) j).
  Proof.
    intros HS Hz H. destruct (fit_reals_inv g X p ks cs u st o o' st' HS H) as (ksv & c & t & l & idx & Hk & Hc & Ht & L & R & EI & S & HI).
    rewrite Hz in R. cbn [source_of] in R.
    pose proof (seed_same (N := Rnum) RS svd _ _ _ _ _ _ R) as [-> Same].
    pose proof (cur_threshold_bounds _ _ _ Ht) as Bt.
    destruct l as [|[ix V] l]; [cbn in L; lia|].
    inversion R as [|? ? ? ? ? ? ? C1 C2 R' E1 E2]. subst. destruct C1 as [C1 _], C2 as [C2 _].
    assert (Same' : forall b, b < length ((ix, V) :: l) -> snd (nth b ((ix, V) :: l) ([], [])) = V) by (intros b Hb; exact (f_equal snd (Same b Hb))).
    exists ksv, c, t, ix, V, idx. repeat (split; [assumption||reflexivity|]).
    intro j. rewrite HI, <- L. split; intros [Hj (i & Hi & A)]; (split; [exact Hj|]); exists i; (split; [exact Hi|]); revert A; apply at_least_ext; intros b Hb.
    - now rewrite (Same' b Hb).
    - now rewrite (Same' b Hb).
  Qed.

  (** Draws that select a given column and draws that select nothing. *)
  Lemma entropy_in g X p ks cs st o ksv c t l st' j i :
    (forall X st V st', svd X st = (Ok V, st') -> matrix p (Z.to_nat (max_k g)) V) ->
    valid_ks (max_k g) ks ksv -> valid_cs ksv cs c ->
    cur_stability_selection_to_threshold (stability_selection g) (n_boots g) = Ok t ->
    length l = Z.to_nat (n_boots g) -> runs g X st l st' ->
    j < p -> i < length ksv ->
    (forall b, b < length l -> (0 < probability (Z.to_nat (nth i ksv 0%Z)) (snd (nth b l ([], []))) (count_value of_f64 c i) j)%R) ->
    exists u o' idx, (forall b i j, uniform (u b i j)) /\ fit g X p ks cs u st o = (o', Ok tt, st') /\
      column_indices_ o' = Some idx /\ In j idx.
  Proof.
    intros HS Hk Hc Ht L R Hj Hi HP.
    destruct (fit_reals g X p ks cs (fun _ _ _ => 0%R) st o ksv c t l st' HS Hk Hc Ht L R) as (idx & E & S & HI).
    exists (fun _ _ _ => 0%R). eexists. exists idx. split; [intros; unfold uniform; lra|]. split; [exact E|]. split; [reflexivity|].
    apply HI. split; [exact Hj|]. exists i. split; [exact Hi|]. pose proof (cur_threshold_bounds _ _ _ Ht).
    apply at_least_all; [lia|]. intros b Hb. exact (HP b Hb).
  Qed.
  Lemma entropy_out g X p ks cs st o ksv c t l st' :
    (forall X st V st', svd X st = (Ok V, st') -> matrix p (Z.to_nat (max_k g)) V) ->
    valid_ks (max_k g) ks ksv -> valid_cs ksv cs c ->
    cur_stability_selection_to_threshold (stability_selection g) (n_boots g) = Ok t ->
    length l = Z.to_nat (n_boots g) -> runs g X st l st' ->
    exists u o' idx, (forall b i j, uniform (u b i j)) /\ fit g X p ks cs u st o = (o', Ok tt, st') /\
      column_indices_ o' = Some idx /\
      forall j, (forall b i, b < length l -> i < length ksv -> (probability (Z.to_nat (nth i ksv 0%Z)) (snd (nth b l ([], []))) (count_value of_f64 c i) j < 1)%R) -> ~ In j idx.
  Proof.
    intros HS Hk Hc Ht L R.
    pose (pr := fun b i j => probability (Z.to_nat (nth i ksv 0%Z)) (snd (nth b l ([], []))) (count_value of_f64 c i) j).
    pose (u := fun b i j => if Rlt_dec (pr b i j) 1 then Rmax 0 (pr b i j) else 0%R).
    destruct (fit_reals g X p ks cs u st o ksv c t l st' HS Hk Hc Ht L R) as (idx & E & S & HI).
    exists u. eexists. exists idx. split.
    { intros b i j. unfold u, uniform. destruct (Rlt_dec (pr b i j) 1); [|lra]. split; [apply Rmax_l|]. apply Rmax_lub_lt; lra. }
    split; [exact E|]. split; [reflexivity|]. intros j HP Hj. apply HI in Hj. destruct Hj as [_ (i & Hi & A)]. revert A.
    pose proof (cur_threshold_bounds _ _ _ Ht). apply at_least_none; [lia|]. intros b Hb D.
    unfold drawn_column in D. fold (pr b i j) in D. unfold u in D. destruct (Rlt_dec (pr b i j) 1) as [_|C]; [|apply C, HP; assumption].
    pose proof (Rmax_r 0 (pr b i j)). lra.
  Qed.
End Reals.

Section Transform.
  Context {N : NumOps}.
  Variables (of_f64 : f64 -> N) (finite : N -> bool) (argsort : list N -> list nat) (RS : Type) (seeded : Z -> RS)
    (tts : RS -> result (list nat) * RS) (svd : list (list N) -> RS -> result (list (list N)) * RS).
  Notation fit := (cur_fit of_f64 argsort RS seeded tts svd).

  Lemma fit_result g X p ks cs u st o o' st' : fit g X p ks cs u st o = (o', Ok tt, st') ->
    exists idx, column_indices_ o' = Some idx /\ (forall j, In j idx -> j < p) /\
      components_ o' = Some (if Nat.eqb (length idx) 0 then [[]] else columns_of nzero X idx).
  Proof.
    intro H. destruct (fit_inv _ _ _ _ _ _ _ _ _ _ _ _ _ _ _ _ H) as (ksv & c & t & l & Hk & Hc & Ht & L & R).
    destruct (fit_runs of_f64 argsort RS seeded tts svd g X p ks cs u st o ksv c t l st' Hk Hc Ht L R) as (idx & E & S & HI).
    rewrite E in H. injection H as <-. exists idx. split; [reflexivity|]. split; [|reflexivity]. intros j Hj. now apply HI in Hj.
  Qed.
  Lemma transform_columns (o : cur N) C idx X p : components_ o = Some C -> column_indices_ o = Some idx -> (forall j, In j idx -> j < p) ->
    0 < length X -> 0 < p -> Forall (Forall (fun x => finite x = true)) X ->
    cur_transform finite o X p = Ok (columns_of nzero X idx).
  Proof.
    intros EC EI HI HX Hp F. unfold cur_transform. rewrite EC, EI. unfold check_array.
    destruct (Nat.eqb_spec (length X) 0); [lia|]. destruct (Nat.eqb_spec p 0); [lia|].
    assert (F' : forallb (forallb finite) X = true).
    { apply forallb_forall. intros r Hr. apply forallb_forall. intros x Hx. rewrite Forall_forall in F. specialize (F r Hr). rewrite Forall_forall in F. auto. }
    rewrite F'. cbn [orb negb bind].
    assert (B : forallb (fun j => Nat.ltb j p) idx = true) by (apply forallb_forall; intros j Hj; apply Nat.ltb_lt; auto).
    now rewrite B.
  Qed.
  Lemma transform_errors_of (o : cur N) (X : list (list N)) p :
    (components_ o = None -> cur_transform finite o X p = Raise NotFittedError) /\
    (forall C idx, components_ o = Some C -> column_indices_ o = Some idx ->
       (X = [] \/ p = 0 \/ Exists (Exists (fun x => finite x = false)) X -> cur_transform finite o X p = Raise ValueError) /\
       (X <> [] -> 0 < p -> Forall (Forall (fun x => finite x = true)) X -> (exists j, In j idx /\ p <= j) -> cur_transform finite o X p = Raise IndexError)).
  Proof.
    unfold cur_transform. split; [intros ->; reflexivity|]. intros C idx -> ->. unfold check_array. split.
    - intros [->|[->|E]]; [reflexivity|now rewrite orb_true_r|].
      assert (F : forallb (forallb finite) X = false).
      { apply not_true_iff_false. intro T. rewrite forallb_forall in T. apply Exists_exists in E. destruct E as (r & Hr & E). specialize (T r Hr). rewrite forallb_forall in T.
        apply Exists_exists in E. destruct E as (x & Hx & E). rewrite (T x Hx) in E. discriminate. }
      rewrite F. now rewrite orb_true_r.
    - intros NX Pp F (j & Hj & Lj). destruct (Nat.eqb_spec (length X) 0) as [L|_]; [destruct X; [easy|discriminate]|]. destruct (Nat.eqb_spec p 0); [lia|].
      assert (F' : forallb (forallb finite) X = true).
      { apply forallb_forall. intros r Hr. apply forallb_forall. intros x Hx. rewrite Forall_forall in F. specialize (F r Hr). rewrite Forall_forall in F. auto. }
      rewrite F'. cbn [orb negb bind].
      assert (B : forallb (fun j => Nat.ltb j p) idx = false).
      { apply not_true_iff_false. intro T. rewrite forallb_forall in T. specialize (T j Hj). apply Nat.ltb_lt in T. lia. }
      now rewrite B.
  Qed.
  Lemma columns_none (X : list (list N)) : columns_of nzero X [] = repeat [] (length X).
  Proof. unfold columns_of. induction X; [reflexivity|]. cbn. f_equal. exact IHX. Qed.
End Transform.

Lemma transform_errors (N : NumOps) finite (o : cur N) X p :
  (components_ o = None -> cur_transform finite o X p = Raise NotFittedError) /\
  (forall C idx, components_ o = Some C -> column_indices_ o = Some idx ->
     (X = [] \/ p = 0 \/ Exists (Exists (fun x => finite x = false)) X -> cur_transform finite o X p = Raise ValueError) /\
     (X <> [] -> 0 < p -> Forall (Forall (fun x => finite x = true)) X -> (exists j, In j idx /\ p <= j) -> cur_transform finite o X p = Raise IndexError)).
Proof. exact (transform_errors_of finite o X p). Qed.

(** NaN leverage in binary64. *)
Section Floats.
  Variables (exp64 ln64 : f64 -> f64).
  Notation FN := (Fnum exp64 ln64).
  Lemma fadd_nan_l x : fadd fnan x = fnan. Proof. reflexivity. Qed.
  Lemma fadd_nan_r x : fadd x fnan = fnan. Proof. now destruct x. Qed.
  Lemma fmul_nan_r x : fmul x fnan = fnan. Proof. now destruct x. Qed.
  Lemma nan_squares (row : list f64) : In fnan row -> nsum (N := FN) (map (nsquare (N := FN)) row) = fnan.
  Proof.
    induction row as [|a row IH]; intros [].
    - subst a. reflexivity.
    - unfold nsum in *. cbn [map fold_right]. etransitivity; [apply (f_equal (fadd (fmul a a))); exact (IH H)|]. apply fadd_nan_r.
  Qed.
  Lemma nan_leverage (V : list (list f64)) j : In fnan (nth j V []) -> nth j (leverages (N := FN) V) fzero = fnan.
  Proof.
    intro H. assert (Hj : j < length V).
    { destruct (le_lt_dec (length V) j) as [C|C]; [|exact C]. rewrite nth_overflow in H by exact C. destruct H. }
    unfold leverages. pose (f := fun row : list f64 => fdiv (nsum (N := FN) (map (nsquare (N := FN)) row)) (nofnat (N := FN) (length (hd [] V)))).
    change (nth j (map f V) fzero = fnan). rewrite (nth_indep _ fzero (f [])) by (now rewrite map_length). rewrite (map_nth f). unfold f.
    match goal with |- fdiv ?a ?b = _ => assert (E : a = fnan) by exact (nan_squares _ H) end. rewrite E. reflexivity.
  Qed.
  Lemma nan_selected argsort (V : list (list f64)) (c : f64) (u : nat -> f64) j : In fnan (nth j V []) -> fltb (u j) fone = true ->
    In j (column_select (N := FN) argsort V c false u).
  Proof.
    intros H Hu. apply (select_In (N := FN)).
    split. { destruct (le_lt_dec (length V) j) as [C|C]; [|exact C]. rewrite nth_overflow in H by exact C. destruct H. }
    unfold picks. assert (E : nth j (leverages (N := FN) V) nzero = fnan) by exact (nan_leverage V j H). rewrite E.
    assert (E' : nmul (n := FN) c fnan = fnan) by apply fmul_nan_r. rewrite E'. exact Hu.
  Qed.
End Floats.

(** Plain CUR. *)
Lemma plain_eq {N : NumOps} (argsort : list N -> list nat) RS seeded svd m a X c u st o V st' :
  with_rng RS seeded a (svd X) st = (Ok V, st') -> map (firstn (Z.to_nat m)) V = V ->
  plain_cur_fit argsort RS seeded svd m a X c u st o =
  (let idx := column_select argsort V (match c with Some c => c | None => nofZ (m + 20) end) true u in
   (mkCur (Some idx) (Some (columns_of nzero X idx)), Ok tt, st')).
Proof. intros E E2. unfold plain_cur_fit. rewrite E. cbn [fst snd]. rewrite E2. reflexivity. Qed.
Section Plain.
  Variables (argsort : list R -> list nat) (RS : Type) (seeded : Z -> RS) (svd : list (list R) -> RS -> result (list (list R)) * RS).
  Lemma plain_fit m a X p c u st o V st' : sorts argsort -> (0 < m)%Z -> call RS (source_of seeded a) (svd X) st (Ok V) st' ->
    matrix p (Z.to_nat m) V ->
    exists idx, plain_cur_fit (N := Rnum) argsort RS seeded svd m a X c u st o =
        (mkCur (N := Rnum) (Some idx) (Some (columns_of 0%R X idx)), Ok tt, st') /\ NoDup idx /\
      StronglySorted Rle (map (leverage (Z.to_nat m) V) idx) /\
      forall j, In j idx <-> j < p /\ drawn_column (Z.to_nat m) V (match c with Some c => c | None => IZR (m + 20) end) u j.
  Proof.
    intros HS Hm C M. apply (with_rng_call RS seeded) in C.
    assert (EV : map (firstn (Z.to_nat m)) V = V).
    { rewrite <- (map_id V) at 2. apply map_ext_in. intros r Hr. destruct M as [_ F]. rewrite Forall_forall in F. rewrite <- (F r Hr). apply firstn_all. }
    exists (column_select (N := Rnum) argsort V (match c with Some c => c | None => IZR (m + 20) end) true u).
    split; [|split; [now apply select_distinct|split; [now apply (select_by_leverage argsort p)|now apply select_iff]]].
    exact (plain_eq (N := Rnum) argsort RS seeded svd m a X c u st o V st' C EV).
  Qed.
End Plain.
