(** Synthetic data sets: C69, C95, C96. *)
From Coq Require Import ZArith List Bool Arith Reals Lia Lra Sorting.Permutation Floats.SpecFloat.
From Verif Require Import F64 Prelude Num Spec_Rescale Spec_Poisson Model_Fit Model_Datasets Spec_Datasets
  Proofs_Datasets Proofs_DatasetsMore Proofs_DatasetsF64.
Import ListNotations.

(** C69: without a given beta, the coefficients of the regression data sets live on a set
    of exactly [informative p k] features; the others are exactly zero. *)
Theorem C69_linear : forall n p k (X_loc X_scale snr low high : R) include (d : reg_draws Rnum),
  reg_draws_ok n p d -> (0 <= X_scale)%R -> (0 < snr)%R ->
  exists (r : regression Rnum) S,
    make_linear_regression (N := Rnum) p k X_loc X_scale snr None low high include d = Ok r /\
    features p (informative p k) S /\
    supported_on p S (fun j => (low + (high - low) * entry (d_beta d) j)%R) (r_beta r) /\
    ((forall j, j < p -> (low + (high - low) * entry (d_beta d) j)%R <> 0%R) ->
     length (filter (fun j => negb (Reqb (entry (r_beta r) j) 0)) (seq 0 p)) = informative p k).
Proof.
  intros n p k X_loc X_scale snr low high include d H HX Hs.
  destruct (linear_data n p k X_loc X_scale snr low high None include d H HX Hs) as
    (r & sg & E & _ & _ & _ & _ & _ & _ & HB & _); [discriminate|].
  destruct (HB eq_refl) as [F S]. exists r, (chosen p k (d_perm d)). repeat split; try apply F; try apply S; [exact E|].
  intro NZ. exact (nonzero_count p _ _ _ _ F S NZ).
Qed.
Print Assumptions C69_linear.

Theorem C69_poisson : forall n p k (X_loc X_scale shape scale : R) include (d : reg_draws Rnum)
    (pois : nat -> R -> result R) (r : regression Rnum),
  reg_draws_ok n p d -> (0 <= X_scale)%R -> (0 <= shape)%R -> (0 <= scale)%R ->
  make_poisson_regression (N := Rnum) p k X_loc X_scale None shape scale include d pois = Ok r ->
  exists S, features p (informative p k) S /\
    supported_on p S (fun j => (scale * entry (d_beta d) j)%R) (r_beta r) /\
    ((forall j, j < p -> (scale * entry (d_beta d) j)%R <> 0%R) ->
     length (filter (fun j => negb (Reqb (entry (r_beta r) j) 0)) (seq 0 p)) = informative p k).
Proof. exact poisson_support. Qed.
Print Assumptions C69_poisson.

(** ... and of the classification data sets, in every class; with a shared support it
    is the same set for all classes. *)
Theorem C69_classification : forall n p out n_classes k (shared include : bool) (w_scale : R) (d : class_draws Rnum)
    bern multi (r : classification Rnum),
  out = (if (2 <? n_classes)%Z then Z.to_nat n_classes else 1) ->
  class_draws_ok n p out (if shared || (n_classes <=? 2)%Z then 1 else out) d ->
  make_classification (N := Rnum) p k n_classes shared w_scale include d bern multi = Ok r ->
  length (k_coef r) = out /\
  exists S : nat -> list nat,
    (forall c, c < out -> features p (class_informative p k) (S c) /\
       supported_on p (S c) (fun j => (mat (c_w d) j c * w_scale)%R) (nth c (k_coef r) [])) /\
    (shared = true -> forall c c', S c = S c').
Proof. exact class_support. Qed.
Print Assumptions C69_classification.

(** Every set of the right size occurs. *)
Theorem C69_any_set : forall p k T, features p (informative p k) T ->
  exists perm, Permutation perm (seq 0 p) /\
  forall n (X_loc X_scale snr low high : R) include (d : reg_draws Rnum),
  reg_draws_ok n p d -> d_perm d = perm -> (0 <= X_scale)%R -> (0 < snr)%R ->
  exists r : regression Rnum,
    make_linear_regression (N := Rnum) p k X_loc X_scale snr None low high include d = Ok r /\
    supported_on p T (fun j => (low + (high - low) * entry (d_beta d) j)%R) (r_beta r).
Proof. exact any_set. Qed.
Print Assumptions C69_any_set.

(** The number of informative features: the requested one, cut off at the number of
    features; a negative number is counted from the end in the regression data sets and
    means none in the classification data sets. *)
Theorem C69_counts : forall p k,
  ((0 <= k <= Z.of_nat p)%Z -> Z.of_nat (informative p k) = k /\ Z.of_nat (class_informative p k) = k) /\
  ((Z.of_nat p <= k)%Z -> informative p k = p /\ class_informative p k = p) /\
  ((k < 0)%Z -> class_informative p k = 0 /\
     ((- Z.of_nat p <= k)%Z -> Z.of_nat (informative p k) = (Z.of_nat p + k)%Z)).
Proof. exact counts. Qed.
Print Assumptions C69_counts.

Example C69_ex :
  let d : reg_draws Rnum := mkRegDraws (N := Rnum) [[1; 2; 3]; [0; 1; 0]]%R [(/2); (/4); (/8)]%R [2; 0; 1] 0%R [1; -1]%R in
  reg_draws_ok 2 3 d /\ informative 3 1 = 1 /\ chosen 3 1 (d_perm d) = [1] /\
  informative 3 (-1) = 2 /\ class_informative 3 (-1) = 0.
Proof.
  cbv zeta. split; [|repeat split]. split; [|split; [reflexivity|split; [|reflexivity]]].
  - split; [reflexivity|]. repeat constructor.
  - cbn. change [2; 0; 1] with ([2] ++ [0; 1]). apply Permutation_sym, (Permutation_app_comm [0; 1] [2]).
Qed.
Example C69_class_ex :
  let d : class_draws Rnum := mkClassDraws (N := Rnum) [[1; 2]; [0; 1]]%R [[1]; [2]]%R [1%R] [[1; 0]] in
  class_draws_ok 2 2 1 1 d /\
  exists r : classification Rnum, make_classification (N := Rnum) 2 1 2 false 1%R true d (fun _ _ => 0) (fun _ _ => Ok 0) = Ok r.
Proof.
  cbv zeta.
  assert (H : class_draws_ok 2 2 1 1 (mkClassDraws (N := Rnum) [[1; 2]; [0; 1]]%R [[1]; [2]]%R [1%R] [[1; 0]])).
  { split; [split; [reflexivity|repeat constructor]|]. split; [split; [reflexivity|repeat constructor]|].
    split; [reflexivity|]. split; [reflexivity|]. constructor; [|constructor]. cbn. apply perm_swap. }
  split; [exact H|].
  destruct (binary_data 2 2 2 1 false 1%R true _ (fun _ _ => 0) (fun _ _ => Ok 0) (le_n_S _ _ (le_0_n 1)) (Z.le_refl 2) (Nat.neq_succ_diag_l 1) H) as (r & E & _).
  exists r. exact E.
Qed.

(** C95: what the data have to do with the returned coefficients.  Linear: y is the
    linear predictor plus noise whose variance is Var(linear predictor) / snr. *)
Theorem C95_linear : forall n p k (X_loc X_scale snr low high : R) beta (include : bool) (d : reg_draws Rnum),
  reg_draws_ok n p d -> (0 <= X_scale)%R -> (0 < snr)%R ->
  (forall b : list R, beta = Some b -> length b = p) ->
  exists (r : regression Rnum) (sigma : R),
    make_linear_regression (N := Rnum) p k X_loc X_scale snr beta low high include d = Ok r /\
    matrix n p (r_X r) /\ length (r_y r) = n /\ length (r_beta r) = p /\
    (forall i j, i < n -> j < p -> mat (r_X r) i j = (X_loc + X_scale * mat (d_X d) i j)%R) /\
    r_intercept r = (if include then low + (high - low) * d_int d else 0)%R /\
    (forall b, beta = Some b -> r_beta r = b) /\
    (0 <= sigma)%R /\
    (sigma * sigma * snr = variance n (eta p (r_X r) (r_beta r) (r_intercept r)))%R /\
    (forall i, i < n -> entry (r_y r) i
       = (eta p (r_X r) (r_beta r) (r_intercept r) i + sigma * entry (d_noise d) i)%R).
Proof.
  intros n p k X_loc X_scale snr low high beta include d H HX Hs Hb.
  destruct (linear_data n p k X_loc X_scale snr low high beta include d H HX Hs Hb) as
    (r & sg & E & A1 & A2 & A3 & A4 & A5 & A6 & _ & A7 & A8 & A9).
  exists r, sg. repeat (split; [assumption|]). exact A9.
Qed.
Print Assumptions C95_linear.

(** Poisson: y_i is a draw with mean exp(intercept + x_i . beta). *)
Theorem C95_poisson : forall n p k (X_loc X_scale shape scale : R) beta (include : bool) (d : reg_draws Rnum)
    (pois : nat -> R -> result R) (draw : nat -> R -> R),
  reg_draws_ok n p d -> (0 <= X_scale)%R -> (0 <= shape)%R -> (0 <= scale)%R ->
  (forall b : list R, beta = Some b -> length b = p) ->
  (forall i lam, pois i lam = Ok (draw i lam)) ->
  exists r : regression Rnum,
    make_poisson_regression (N := Rnum) p k X_loc X_scale beta shape scale include d pois = Ok r /\
    matrix n p (r_X r) /\ length (r_y r) = n /\ length (r_beta r) = p /\
    (forall i j, i < n -> j < p -> mat (r_X r) i j = (X_loc + X_scale * mat (d_X d) i j)%R) /\
    r_intercept r = (if include then scale * d_int d else 0)%R /\
    (forall b, beta = Some b -> r_beta r = b) /\
    (forall i, i < n -> entry (r_y r) i
       = draw i (exp (eta p (r_X r) (r_beta r) (r_intercept r) i))).
Proof.
  intros n p k X_loc X_scale shape scale beta include d pois draw H HX Hsh Hsc Hb Hp.
  destruct (poisson_data n p k X_loc X_scale shape scale beta include d pois draw H HX Hsh Hsc Hb Hp) as
    (r & E & A1 & A2 & A3 & A4 & A5 & A6 & _ & A7).
  exists r. repeat (split; [assumption|]). exact A7.
Qed.
Print Assumptions C95_poisson.

(** Two classes: y_i is a Bernoulli draw with probability 1 / (1 + exp(-score)). *)
Theorem C95_binary : forall n p n_classes k shared (w_scale : R) (include : bool) (d : class_draws Rnum)
    (bern : nat -> R -> nat) multi,
  0 < p -> (n_classes <= 2)%Z -> n <> 1 -> class_draws_ok n p 1 1 d ->
  exists r : classification Rnum,
    make_classification (N := Rnum) p k n_classes shared w_scale include d bern multi = Ok r /\
    matrix n p (k_X r) /\ length (k_y r) = n /\ matrix 1 p (k_coef r) /\
    k_intercept r = (if include then c_int d else [0%R]) /\
    (forall i, i < n -> nth i (k_y r) 0
       = bern i (/ (1 + exp (- score_of p (k_X r) (k_coef r) (k_intercept r) 0 i)))%R).
Proof.
  intros n p n_classes k shared w_scale include d bern multi Hp Hc Hn H.
  destruct (binary_data n p n_classes k shared w_scale include d bern multi Hp Hc Hn H) as
    (r & E & (A1 & A2 & A3 & _) & A4 & A5).
  exists r. repeat (split; [assumption|]). exact A5.
Qed.
Print Assumptions C95_binary.

(** More classes: y_i is a draw with the softmax of the scores; the intercepts are
    shifted so that the largest is 0. *)
Theorem C95_multi : forall n p out k (shared : bool) (w_scale : R) (include : bool) (d : class_draws Rnum) bern
    (multi : nat -> list R -> result nat) (label : nat -> list R -> nat),
  0 < p -> 2 < out -> class_draws_ok n p out (if shared then 1 else out) d ->
  (forall i q, multi i q = Ok (label i q)) ->
  exists r : classification Rnum,
    make_classification (N := Rnum) p k (Z.of_nat out) shared w_scale include d bern multi = Ok r /\
    matrix n p (k_X r) /\ length (k_y r) = n /\ matrix out p (k_coef r) /\
    length (k_intercept r) = out /\
    (include = false -> forall c, entry (k_intercept r) c = 0%R) /\
    (include = true -> exists top, (exists c, c < out /\ top = entry (c_int d) c) /\
       forall c, c < out -> (entry (c_int d) c <= top)%R /\
                            entry (k_intercept r) c = (entry (c_int d) c - top)%R) /\
    (forall i, i < n -> exists q : list R, nth i (k_y r) 0 = label i q /\ length q = out /\
       forall c, c < out -> entry q c
         = (exp (score_of p (k_X r) (k_coef r) (k_intercept r) c i)
            / Sum out (fun c' => exp (score_of p (k_X r) (k_coef r) (k_intercept r) c' i)))%R).
Proof. exact multi_relations. Qed.
Print Assumptions C95_multi.

Example C95_multi_ex :
  let d : class_draws Rnum := mkClassDraws (N := Rnum) [[1; 2]]%R [[1; 0; 2]; [2; 1; 1]]%R [1; 0; 3]%R [[1; 0]] in
  class_draws_ok 1 2 3 (if true then 1 else 3) d.
Proof.
  cbv zeta. split; [split; [reflexivity|repeat constructor]|]. split; [split; [reflexivity|repeat constructor]|].
  split; [reflexivity|]. split; [reflexivity|]. constructor; [|constructor]. cbn. apply perm_swap.
Qed.

(** C96: make_classification standardizes every sample, not every feature: each row of
    X sums to 0 and has mean square 1. *)
Theorem C96_rows : forall n p out n_classes k (shared include : bool) (w_scale : R) (d : class_draws Rnum)
    bern multi (r : classification Rnum) i,
  0 < p -> out = (if (2 <? n_classes)%Z then Z.to_nat n_classes else 1) ->
  class_draws_ok n p out (if shared || (n_classes <=? 2)%Z then 1 else out) d ->
  make_classification (N := Rnum) p k n_classes shared w_scale include d bern multi = Ok r -> i < n ->
  Sum p (mat (k_X r) i) = 0%R /\
  ((0 < variance p (mat (c_X d) i))%R -> Sum p (fun j => (mat (k_X r) i j * mat (k_X r) i j)%R) = INR p) /\
  (** so the scores cannot tell coefficients that differ by a constant apart *)
  (forall (w : nat -> R) t, Sum p (fun j => (mat (k_X r) i j * (w j + t))%R) = Sum p (fun j => (mat (k_X r) i j * w j)%R)).
Proof. exact class_rows. Qed.
Print Assumptions C96_rows.

(** With a single feature X is all NaN, and a binary data set cannot be drawn. *)
Theorem C96_single_feature : forall (exp64 ln64 : f64 -> f64), exp64 fnan = fnan ->
  forall k n_classes shared w include (d : class_draws (Fnum exp64 ln64)) bern multi,
  Forall (fun l => exists x, l = [x] /\ valid64 x = true) (c_X d) ->
  (forall r, make_classification (N := Fnum exp64 ln64) 1 k n_classes shared w include d bern multi = Ok r ->
     k_X r = repeat [fnan] (length (c_X d))) /\
  ((n_classes <= 2)%Z -> 2 <= length (c_X d) ->
     make_classification (N := Fnum exp64 ln64) 1 k n_classes shared w include d bern multi = Raise ValueError).
Proof. exact single_feature. Qed.
Print Assumptions C96_single_feature.

(** A single sample of two classes fails. *)
Theorem C96_single_sample : forall (N : NumOps) p k n_classes shared (w : N) include (d : class_draws N) bern multi,
  (n_classes <= 2)%Z -> length (c_X d) = 1 ->
  make_classification p k n_classes shared w include d bern multi = Raise TypeError.
Proof. exact one_sample. Qed.
Print Assumptions C96_single_sample.

(** An integer of numpy's as the seed fails; the other seeds are accepted. *)
Theorem C96_seed : forall (RS : Type) (seeded : Z -> RS) (os_entropy : RS) a,
  (exists rs, classification_rng seeded os_entropy a = Ok rs) <->
  ~ exists z, a = NpInt z.
Proof. exact seed_accepted. Qed.
Print Assumptions C96_seed.

Example C96_ex : Forall (fun l => exists x, l = [x] /\ valid64 x = true) [[fone]; [ftwo]; [fzero]].
Proof. repeat constructor; eexists; split; reflexivity. Qed.
Example C96_rows_ex :
  let d : class_draws Rnum := mkClassDraws (N := Rnum) [[1; 2]; [0; 1]]%R [[1]; [2]]%R [1%R] [[1; 0]] in
  (0 < variance 2 (mat (c_X d) 0))%R.
Proof. cbv zeta. unfold variance, average, mat, entry. cbn. lra. Qed.
