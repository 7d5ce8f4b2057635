(** Property theorems C56-C60 and C93 (column subset selection: UoI_CUR, CUR, column_select). *)
From Coq Require Import ZArith List Bool Arith Reals Permutation Sorted Lia Lra.
From Verif Require Import Prelude F64 Num Spec_Rescale Spec_Poisson Model_Thresholds Model_Cur Spec_Cur
  Proofs_Cur Proofs_CurFit Proofs_CurReal Proofs_CurMain Proofs_CurEx.
Import ListNotations.

(** C56.  A fit that returns has valid ranks and counts, and has run n_boots bootstraps; the
    selected columns are increasing and are exactly those that for some rank were drawn in at
    least the threshold number of bootstraps.  The singular value decomposition is any function
    that returns p-by-max_k matrices. *)
Theorem C56_union : forall of_f64 argsort RS seeded tts svd g X p ks cs u st o o' st',
  (forall X st V st', svd X st = (Ok V, st') -> matrix p (Z.to_nat (max_k g)) V) ->
  cur_fit (N := Rnum) of_f64 argsort RS seeded tts svd g X p ks cs u st o = (o', Ok tt, st') ->
  exists ksv c t l idx,
    valid_ks (max_k g) ks ksv /\ valid_cs ksv cs c /\
    cur_stability_selection_to_threshold (stability_selection g) (n_boots g) = Ok t /\
    length l = Z.to_nat (n_boots g) /\
    boots (list (list R)) RS (source_of seeded (random_state g)) (split_of (boots_frac_is_1 g) (length X) tts) svd (rows_of X) st l st' /\
    column_indices_ o' = Some idx /\ StronglySorted lt idx /\
    forall j, In j idx <-> j < p /\ exists i, i < length ksv /\
      at_least t (length l) (fun b => drawn_column (Z.to_nat (nth i ksv 0%Z)) (snd (nth b l ([], []))) (count_value of_f64 c i) (u b i) j).
Proof. exact fit_reals_inv. Qed.
Print Assumptions C56_union.

(** Valid arguments and bootstraps that run are enough for the fit to return. *)
Theorem C56_returns : forall of_f64 argsort RS seeded tts svd g X p ks cs u st o ksv c t l st',
  (forall X st V st', svd X st = (Ok V, st') -> matrix p (Z.to_nat (max_k g)) V) ->
  valid_ks (max_k g) ks ksv -> valid_cs ksv cs c ->
  cur_stability_selection_to_threshold (stability_selection g) (n_boots g) = Ok t ->
  length l = Z.to_nat (n_boots g) ->
  boots (list (list R)) RS (source_of seeded (random_state g)) (split_of (boots_frac_is_1 g) (length X) tts) svd (rows_of X) st l st' ->
  exists o', cur_fit (N := Rnum) of_f64 argsort RS seeded tts svd g X p ks cs u st o = (o', Ok tt, st').
Proof.
  intros of_f64 argsort RS seeded tts svd g X p ks cs u st o ksv c t l st' HS Hk Hc Ht L R.
  destruct (fit_reals of_f64 argsort RS seeded tts svd g X p ks cs u st o ksv c t l st' HS Hk Hc Ht L R) as (idx & E & _). eexists; exact E.
Qed.
Print Assumptions C56_returns.
Example C56_returns_ex : forall u, exists o',
  cur_fit (N := Rnum) ex_of ex_argsort nat (fun z => Z.to_nat z) ex_tts ex_svd (ex_g Generator) ex_X 2 None ex_one u 0 (fresh_cur (N := Rnum)) = (o', Ok tt, 4).
Proof.
  intro u. exact (C56_returns _ _ _ _ _ _ (ex_g Generator) _ _ _ _ _ _ _ _ _ _ ex_l _ (ex_shape Generator) ex_ks ex_cs (ex_t Generator) eq_refl ex_boots).
Qed.

(** In every arithmetic: a column is kept exactly if column_select returned it often enough. *)
Theorem C56_union_any : forall (N : NumOps) of_f64 argsort RS seeded tts svd g X p ks cs u st o ksv c t l st',
  valid_ks (max_k g) ks ksv -> valid_cs ksv cs c ->
  cur_stability_selection_to_threshold (stability_selection g) (n_boots g) = Ok t ->
  length l = Z.to_nat (n_boots g) ->
  boots (list (list N)) RS (source_of seeded (random_state g)) (split_of (boots_frac_is_1 g) (length X) tts) svd (rows_of X) st l st' ->
  exists o' idx,
    cur_fit (N := N) of_f64 argsort RS seeded tts svd g X p ks cs u st o = (o', Ok tt, st') /\
    column_indices_ o' = Some idx /\ StronglySorted lt idx /\
    forall j, In j idx <-> j < p /\ exists i, i < length ksv /\
      at_least t (length l) (fun b => In j (column_select argsort (map (firstn (Z.to_nat (nth i ksv 0%Z))) (snd (nth b l ([], []))))
         (nth i (match c with CountsInt l => map nofZ l | CountsFloat l => map of_f64 l end) nzero) false (u b i))).
Proof.
  intros N of_f64 argsort RS seeded tts svd g X p ks cs u st o ksv c t l st' Hk Hc Ht L R.
  destruct (fit_runs (N := N) of_f64 argsort RS seeded tts svd g X p ks cs u st o ksv c t l st' Hk Hc Ht L R) as (idx & E & S & HI).
  eexists; exists idx. split; [exact E|]. split; [reflexivity|]. split; [exact S|exact HI].
Qed.
Print Assumptions C56_union_any.

(** The fitted object holds the selected columns and [transform] extracts them. *)
Theorem C56_transform : forall (N : NumOps) of_f64 finite argsort RS seeded tts svd g X p ks cs u st o o' st',
  cur_fit (N := N) of_f64 argsort RS seeded tts svd g X p ks cs u st o = (o', Ok tt, st') ->
  exists idx, column_indices_ o' = Some idx /\ (forall j, In j idx -> j < p) /\
    (idx <> [] -> components_ o' = Some (columns_of nzero X idx)) /\
    forall X', 0 < length X' -> 0 < p -> Forall (Forall (fun x => finite x = true)) X' ->
      cur_transform finite o' X' p = Ok (columns_of nzero X' idx).
Proof.
  intros N of_f64 finite argsort RS seeded tts svd g X p ks cs u st o o' st' H.
  destruct (fit_result of_f64 argsort RS seeded tts svd g X p ks cs u st o o' st' H) as (idx & EI & HI & EC).
  exists idx. split; [exact EI|]. split; [exact HI|]. split.
  - intro NE. rewrite EC. destruct idx; [easy|reflexivity].
  - intros X' HX Hp F. exact (transform_columns finite o' _ idx X' p EC EI HI HX Hp F).
Qed.
Print Assumptions C56_transform.

(** [transform] raises before a fit, for input without rows or columns or with a number that is
    not finite, and for input with too few columns. *)
Theorem C56_transform_errors : forall (N : NumOps) finite (o : cur N) X p,
  (components_ o = None -> cur_transform finite o X p = Raise NotFittedError) /\
  (forall C idx, components_ o = Some C -> column_indices_ o = Some idx ->
     (X = [] \/ p = 0 \/ Exists (Exists (fun x => finite x = false)) X -> cur_transform finite o X p = Raise ValueError) /\
     (X <> [] -> 0 < p -> Forall (Forall (fun x => finite x = true)) X -> (exists j, In j idx /\ p <= j) -> cur_transform finite o X p = Raise IndexError)).
Proof. exact transform_errors. Qed.
Print Assumptions C56_transform_errors.
Example C56_transform_errors_ex : components_ (fresh_cur (N := Rnum)) = None /\
  exists o : cur Rnum, components_ o = Some [[1%R]] /\ column_indices_ o = Some [3].
Proof. split; [reflexivity|]. exists (mkCur (N := Rnum) (Some [3]) (Some [[1%R]])). split; reflexivity. Qed.

(** A fit that raises leaves the object as it was. *)
Theorem C56_raise : forall (N : NumOps) of_f64 argsort RS seeded tts svd g X p ks cs u st o o' e st',
  cur_fit (N := N) of_f64 argsort RS seeded tts svd g X p ks cs u st o = (o', Raise e, st') -> o' = o.
Proof. intros N of_f64 argsort RS seeded tts svd g X p ks cs u st o o' e st' H. exact (fit_raise _ _ _ _ _ _ _ _ _ _ _ _ _ _ _ _ _ H). Qed.
Print Assumptions C56_raise.
Example C56_raise_ex : forall u, cur_fit (N := Rnum) ex_of ex_argsort nat (fun z => Z.to_nat z) ex_tts ex_svd (ex_g Generator) ex_X 2
  (Some (PyInt 7)) None u 0 (fresh_cur (N := Rnum)) = (fresh_cur (N := Rnum), Raise ValueError, 0).
Proof. reflexivity. Qed.

(** C57.  The probability of a column is min(1, c * leverage): a column is returned exactly if
    its random number is below that. *)
Theorem C57_drawn : forall argsort p k V c s u,
  sorts argsort -> matrix p k V ->
  forall j, In j (column_select (N := Rnum) argsort V c s u) <-> j < p /\ drawn_column k V c u j.
Proof. exact select_iff. Qed.
Print Assumptions C57_drawn.
Example C57_drawn_ex : ~ In 0 (column_select (N := Rnum) ex_argsort ex_V 1%R true (fun _ => (1/2)%R)) /\
  In 1 (column_select (N := Rnum) ex_argsort ex_V 1%R true (fun _ => (1/2)%R)).
Proof.
  split; [intro H; apply (C57_drawn _ 2 1 _ _ _ _ ex_sorts ex_matrix) in H; destruct H as [_ H]; revert H
         |apply (C57_drawn _ 2 1 _ _ _ _ ex_sorts ex_matrix); split; [auto|]];
    unfold drawn_column, probability; rewrite ?ex_leverage0, ?ex_leverage1, Rmin_right; lra.
Qed.

(** Columns with c * leverage >= 1 are always returned, columns without leverage never. *)
Theorem C57_extremes : forall argsort p k V c s u,
  sorts argsort -> matrix p k V -> (forall j, uniform (u j)) ->
  forall j, j < p ->
    ((1 <= c * leverage k V j)%R -> In j (column_select (N := Rnum) argsort V c s u)) /\
    (leverage k V j = 0%R -> ~ In j (column_select (N := Rnum) argsort V c s u)).
Proof.
  intros argsort p k V c s u HS M U j Hj. split; intro H.
  - apply (select_iff argsort p k V c s u HS M). split; [exact Hj|]. now apply certain_column.
  - intro HI. apply (select_iff argsort p k V c s u HS M) in HI. destruct HI as [_ D]. revert D. apply impossible_column; [rewrite H; lra|apply U].
Qed.
Print Assumptions C57_extremes.
Example C57_extremes_ex : forall u, (forall j, uniform (u j)) -> In 0 (column_select (N := Rnum) ex_argsort ex_V 3%R false u).
Proof. intros u U. apply (C57_extremes _ 2 1 _ _ _ _ ex_sorts ex_matrix U 0); [lia|]. rewrite ex_leverage0. lra. Qed.

(** Distinct indices, increasing, or by increasing leverage. *)
Theorem C57_order : forall argsort p k V c u,
  sorts argsort -> matrix p k V ->
  StronglySorted lt (column_select (N := Rnum) argsort V c false u) /\
  NoDup (column_select (N := Rnum) argsort V c true u) /\
  StronglySorted Rle (map (leverage k V) (column_select (N := Rnum) argsort V c true u)).
Proof.
  intros argsort p k V c u HS M. split; [exact (select_sorted (N := Rnum) argsort V c u)|].
  split; [now apply select_distinct|now apply (select_by_leverage argsort p)].
Qed.
Print Assumptions C57_order.

(** The probabilities lie in [0, 1] and add up to at most c if the columns of V have unit norm;
    to exactly c if none is cut off at 1. *)
Theorem C57_expected : forall p k V c,
  0 < k -> (0 <= c)%R -> unit_columns p k V ->
  (forall j, 0 <= probability k V c j <= 1)%R /\ (Sum p (probability k V c) <= c)%R /\
  ((forall j, j < p -> (c * leverage k V j <= 1)%R) -> Sum p (probability k V c) = c).
Proof.
  intros p k V c Hk Hc U. split; [intro j; now apply probability_bounds|]. split; [now apply expected_columns|]. now apply expected_exact.
Qed.
Print Assumptions C57_expected.
Example C57_expected_ex : Sum 2 (probability 1 ex_V 1) = 1%R.
Proof.
  apply (C57_expected 2 1 ex_V 1); [lia|lra|exact ex_unit|]. intros [|[|j]] Hj; [| |lia]; rewrite ?ex_leverage0, ?ex_leverage1; lra.
Qed.

(** In binary64 a column whose singular vectors contain a NaN is always returned. *)
Theorem C57_nan : forall exp64 ln64 argsort (V : list (list f64)) (c : f64) (u : nat -> f64) j,
  In fnan (nth j V []) -> fltb (u j) fone = true ->
  In j (column_select (N := Fnum exp64 ln64) argsort V c false u).
Proof. exact nan_selected. Qed.
Print Assumptions C57_nan.
Example C57_nan_ex : In fnan (nth 1 [[fone; fzero]; [fzero; fnan]] []) /\ fltb (fdiv fone (f64_of_Z 2)) fone = true.
Proof. split; [right; now left|reflexivity]. Qed.

(** C58.  check_ks_and_cs returns exactly for valid arguments, and returns what they denote. *)
Theorem C58_returns : forall max_k ks cs v c,
  check_ks_and_cs max_k ks cs = Ok (v, match c with CountsInt l => ArrInt l | CountsFloat l => ArrFloat l end) <->
  valid_ks max_k ks v /\ valid_cs v cs c.
Proof. exact check_valid. Qed.
Print Assumptions C58_returns.
Example C58_returns_ex : check_ks_and_cs 4 (Some (PyList [PyInt 2; PyInt 4])) None = Ok ([2; 4]%Z, ArrInt [22; 24]%Z).
Proof. reflexivity. Qed.

(** Otherwise it raises ValueError. *)
Theorem C58_raises : forall max_k ks cs, numeric ks -> numeric cs ->
  (forall v c, ~ (valid_ks max_k ks v /\ valid_cs v cs c)) -> check_ks_and_cs max_k ks cs = Raise ValueError.
Proof. exact check_raises. Qed.
Print Assumptions C58_raises.
Example C58_raises_ex :
  check_ks_and_cs 4 (Some (PyList [PyInt 2; PyInt 5])) None = Raise ValueError /\
  check_ks_and_cs 4 (Some (PyBool true)) None = Raise ValueError /\
  check_ks_and_cs 4 (Some (PyList [])) None = Raise ValueError /\
  check_ks_and_cs 4 None (Some (PyFloat fnan)) = Raise ValueError /\
  check_ks_and_cs 4 None (Some (PyList [PyInt 3])) = Raise ValueError.
Proof. repeat split; reflexivity. Qed.
Example C58_raises_hyp : numeric (Some (PyInt 5)) /\ numeric None /\ forall v c, ~ (valid_ks 4 (Some (PyInt 5)) v /\ valid_cs v None c).
Proof.
  split; [exact Logic.I|]. split; [exact Logic.I|]. intros v c [H _]. inversion H as [|z R| |]. unfold in_range in R. lia.
Qed.

(** C59.  With an int random_state all bootstraps have the same training rows and singular
    vectors: only the draws of column_select, which ignore the seed, can differ. *)
Theorem C59_same_bootstraps : forall of_f64 argsort RS seeded tts svd g X p ks cs u st o o' st' z,
  (forall X st V st', svd X st = (Ok V, st') -> matrix p (Z.to_nat (max_k g)) V) ->
  random_state g = Seed z ->
  cur_fit (N := Rnum) of_f64 argsort RS seeded tts svd g X p ks cs u st o = (o', Ok tt, st') ->
  exists ksv c t ix V idx,
    st' = st /\
    fst (split_of (boots_frac_is_1 g) (length X) tts (seeded z)) = Ok ix /\
    fst (svd (rows_of X ix) (seeded z)) = Ok V /\
    valid_ks (max_k g) ks ksv /\ valid_cs ksv cs c /\
    cur_stability_selection_to_threshold (stability_selection g) (n_boots g) = Ok t /\
    column_indices_ o' = Some idx /\
    forall j, In j idx <-> j < p /\ exists i, i < length ksv /\
      at_least t (Z.to_nat (n_boots g)) (fun b => drawn_column (Z.to_nat (nth i ksv 0%Z)) V (count_value of_f64 c i) (u b i) j).
Proof. exact fit_seed. Qed.
Print Assumptions C59_same_bootstraps.
Example C59_same_ex : forall u, exists o',
  cur_fit (N := Rnum) ex_of ex_argsort nat (fun z => Z.to_nat z) ex_tts ex_svd (ex_g (Seed 5)) ex_X 2 None ex_one u 0 (fresh_cur (N := Rnum)) = (o', Ok tt, 0).
Proof.
  intro u. exact (C56_returns _ _ _ _ _ _ (ex_g (Seed 5)) _ _ _ _ _ _ _ _ _ _ [([2], ex_V); ([2], ex_V)] _ (ex_shape (Seed 5)) ex_ks ex_cs (ex_t (Seed 5)) eq_refl ex_boots_seed).
Qed.

(** Whatever random_state is, a column whose probability is positive for some rank, and below
    one for all ranks, in all bootstraps is selected for some draws and not for others. *)
Theorem C59_not_reproducible : forall of_f64 argsort RS seeded tts svd g X p ks cs st o ksv c t l st' j i,
  (forall X st V st', svd X st = (Ok V, st') -> matrix p (Z.to_nat (max_k g)) V) ->
  valid_ks (max_k g) ks ksv -> valid_cs ksv cs c ->
  cur_stability_selection_to_threshold (stability_selection g) (n_boots g) = Ok t ->
  length l = Z.to_nat (n_boots g) ->
  boots (list (list R)) RS (source_of seeded (random_state g)) (split_of (boots_frac_is_1 g) (length X) tts) svd (rows_of X) st l st' ->
  j < p -> i < length ksv ->
  (forall b, b < length l -> (0 < probability (Z.to_nat (nth i ksv 0%Z)) (snd (nth b l ([], []))) (count_value of_f64 c i) j)%R) ->
  (forall b i, b < length l -> i < length ksv -> (probability (Z.to_nat (nth i ksv 0%Z)) (snd (nth b l ([], []))) (count_value of_f64 c i) j < 1)%R) ->
  exists u1 u2 o1 o2 idx1 idx2,
    (forall b i j, uniform (u1 b i j)) /\ (forall b i j, uniform (u2 b i j)) /\
    cur_fit (N := Rnum) of_f64 argsort RS seeded tts svd g X p ks cs u1 st o = (o1, Ok tt, st') /\
    cur_fit (N := Rnum) of_f64 argsort RS seeded tts svd g X p ks cs u2 st o = (o2, Ok tt, st') /\
    column_indices_ o1 = Some idx1 /\ column_indices_ o2 = Some idx2 /\ In j idx1 /\ ~ In j idx2.
Proof.
  intros of_f64 argsort RS seeded tts svd g X p ks cs st o ksv c t l st' j i HS Hk Hc Ht L R Hj Hi P1 P2.
  destruct (entropy_in of_f64 argsort RS seeded tts svd g X p ks cs st o ksv c t l st' j i HS Hk Hc Ht L R Hj Hi P1) as (u1 & o1 & idx1 & U1 & F1 & E1 & I1).
  destruct (entropy_out of_f64 argsort RS seeded tts svd g X p ks cs st o ksv c t l st' HS Hk Hc Ht L R) as (u2 & o2 & idx2 & U2 & F2 & E2 & I2).
  exists u1, u2, o1, o2, idx1, idx2. repeat (split; [assumption|]). apply I2, P2.
Qed.
Print Assumptions C59_not_reproducible.
Example C59_not_reproducible_ex : exists u1 u2 o1 o2 idx1 idx2,
  (forall b i j, uniform (u1 b i j)) /\ (forall b i j, uniform (u2 b i j)) /\
  cur_fit (N := Rnum) ex_of ex_argsort nat (fun z => Z.to_nat z) ex_tts ex_svd (ex_g (Seed 5)) ex_X 2 None ex_one u1 0 (fresh_cur (N := Rnum)) = (o1, Ok tt, 0) /\
  cur_fit (N := Rnum) ex_of ex_argsort nat (fun z => Z.to_nat z) ex_tts ex_svd (ex_g (Seed 5)) ex_X 2 None ex_one u2 0 (fresh_cur (N := Rnum)) = (o2, Ok tt, 0) /\
  column_indices_ o1 = Some idx1 /\ column_indices_ o2 = Some idx2 /\ In 1 idx1 /\ ~ In 1 idx2.
Proof.
  apply (C59_not_reproducible ex_of ex_argsort nat _ ex_tts ex_svd (ex_g (Seed 5)) ex_X 2 None ex_one 0 _ [1%Z] (CountsInt [1%Z]) 2%Z
    [([2], ex_V); ([2], ex_V)] 0 1 0 (ex_shape (Seed 5)) ex_ks ex_cs (ex_t (Seed 5)) eq_refl ex_boots_seed); cbn [length]; try lia.
  - intros [|[|b]] Hb; [| |lia]; apply (ex_probability 1); lia.
  - intros [|[|b]] [|i] Hb Hi; try lia; apply (ex_probability 1); lia.
Qed.

(** C60.  If no column is selected, components_ is a matrix with one row and no columns,
    whereas transform returns one empty row per sample. *)
Theorem C60_empty_components : forall (N : NumOps) of_f64 finite argsort RS seeded tts svd g X p ks cs u st o o' st',
  cur_fit (N := N) of_f64 argsort RS seeded tts svd g X p ks cs u st o = (o', Ok tt, st') ->
  column_indices_ o' = Some [] ->
  components_ o' = Some [[]] /\
  (0 < length X -> 0 < p -> Forall (Forall (fun x => finite x = true)) X ->
   cur_transform finite o' X p = Ok (repeat [] (length X))).
Proof.
  intros N of_f64 finite argsort RS seeded tts svd g X p ks cs u st o o' st' H E0.
  destruct (fit_result of_f64 argsort RS seeded tts svd g X p ks cs u st o o' st' H) as (idx & EI & HI & EC).
  rewrite E0 in EI. injection EI as <-. split; [exact EC|]. intros HX Hp F.
  rewrite <- columns_none. exact (transform_columns finite o' _ [] X p EC E0 HI HX Hp F).
Qed.
Print Assumptions C60_empty_components.

(** Such draws exist for all data whose probabilities are below one. *)
Theorem C60_reachable : forall of_f64 argsort RS seeded tts svd g X p ks cs st o ksv c t l st',
  (forall X st V st', svd X st = (Ok V, st') -> matrix p (Z.to_nat (max_k g)) V) ->
  valid_ks (max_k g) ks ksv -> valid_cs ksv cs c ->
  cur_stability_selection_to_threshold (stability_selection g) (n_boots g) = Ok t ->
  length l = Z.to_nat (n_boots g) ->
  boots (list (list R)) RS (source_of seeded (random_state g)) (split_of (boots_frac_is_1 g) (length X) tts) svd (rows_of X) st l st' ->
  (forall b i j, b < length l -> i < length ksv -> j < p -> (probability (Z.to_nat (nth i ksv 0%Z)) (snd (nth b l ([], []))) (count_value of_f64 c i) j < 1)%R) ->
  exists u o', (forall b i j, uniform (u b i j)) /\
    cur_fit (N := Rnum) of_f64 argsort RS seeded tts svd g X p ks cs u st o = (o', Ok tt, st') /\ column_indices_ o' = Some [].
Proof.
  intros of_f64 argsort RS seeded tts svd g X p ks cs st o ksv c t l st' HS Hk Hc Ht L R P.
  destruct (entropy_out of_f64 argsort RS seeded tts svd g X p ks cs st o ksv c t l st' HS Hk Hc Ht L R) as (u & o' & idx & U & F & E & I).
  exists u, o'. split; [exact U|]. split; [exact F|]. rewrite E. f_equal.
  destruct (fit_result (N := Rnum) of_f64 argsort RS seeded tts svd g X p ks cs u st o o' st' F) as (idx' & E' & B & _).
  rewrite E in E'. injection E' as <-. destruct idx as [|j idx]; [reflexivity|]. exfalso.
  apply (I j); [|now left]. intros b i Hb Hi. apply P; auto. apply B. now left.
Qed.
Print Assumptions C60_reachable.
Example C60_ex : exists u o', (forall b i j, uniform (u b i j)) /\
  cur_fit (N := Rnum) ex_of ex_argsort nat (fun z => Z.to_nat z) ex_tts ex_svd (ex_g Generator) ex_X 2 None ex_one u 0 (fresh_cur (N := Rnum)) = (o', Ok tt, 4) /\
  column_indices_ o' = Some [].
Proof.
  apply (C60_reachable ex_of ex_argsort nat _ ex_tts ex_svd (ex_g Generator) ex_X 2 None ex_one 0 _ [1%Z] (CountsInt [1%Z]) 2%Z
    ex_l 4 (ex_shape Generator) ex_ks ex_cs (ex_t Generator) eq_refl ex_boots).
  intros [|[|b]] [|i] j Hb Hi Hj; cbn in Hb, Hi; try lia; apply (ex_probability j); lia.
Qed.

(** C93.  CUR (without bootstraps) selects the columns drawn for max_k singular vectors, by
    increasing leverage; c defaults to max_k + 20; components_ are the columns of X. *)
Theorem C93_plain_cur : forall argsort RS seeded svd m a X p c u st o V st',
  sorts argsort -> (0 < m)%Z -> call RS (source_of seeded a) (svd X) st (Ok V) st' -> matrix p (Z.to_nat m) V ->
  exists idx, plain_cur_fit (N := Rnum) argsort RS seeded svd m a X c u st o =
      (mkCur (N := Rnum) (Some idx) (Some (columns_of 0%R X idx)), Ok tt, st') /\ NoDup idx /\
    StronglySorted Rle (map (leverage (Z.to_nat m) V) idx) /\
    forall j, In j idx <-> j < p /\ drawn_column (Z.to_nat m) V (match c with Some c => c | None => IZR (m + 20) end) u j.
Proof. exact plain_fit. Qed.
Print Assumptions C93_plain_cur.
(** With the default c = 21 both columns of the example are certain. *)
Example C93_ex : forall u, (forall j, uniform (u j)) -> exists idx,
  fst (fst (plain_cur_fit (N := Rnum) ex_argsort nat (fun z => Z.to_nat z) ex_svd 1 Generator ex_X None u 0 (fresh_cur (N := Rnum)))) =
    mkCur (N := Rnum) (Some idx) (Some (columns_of 0%R ex_X idx)) /\ In 0 idx /\ In 1 idx.
Proof.
  intros u U. destruct (C93_plain_cur ex_argsort nat (fun z => Z.to_nat z) ex_svd 1 Generator ex_X 2 None u 0 (fresh_cur (N := Rnum)) ex_V 1 ex_sorts ltac:(lia) eq_refl ex_matrix)
    as (idx & E & _ & _ & H).
  exists idx. rewrite E. split; [reflexivity|]. split; apply H; (split; [lia|]); apply certain_column; try apply U; cbn [Z.to_nat Pos.to_nat]; change (Pos.to_nat 1) with 1; rewrite ?ex_leverage0, ?ex_leverage1; change (1 + 20)%Z with 21%Z; lra.
Qed.
