(** Model of the synthetic data sets, src/pyuoi/datasets/__init__.py:17-251.

    The random numbers are parameters: standard normal, standard gamma and uniform
    [0, 1) draws, permutations, and the draws of the response.  numpy's RandomState
    turns them into the requested distributions: normal is loc + scale * z, uniform is
    low + (high - low) * u, gamma is scale * g.  Sizes are natural numbers.  [load_swimmer]
    (lines 7-14) reads a file and is left out. *)
From Coq Require Import ZArith List Bool Arith.
From Verif Require Import Prelude Num Model_Poisson Model_Logistic Model_Fit.
Import ListNotations.

Section Datasets.
  Context {N : NumOps}.
  Notation mat := (list (list N)).

  (** The end of the slice [:k] of an array of length [n]. *)
  Definition slice_stop (n : nat) (k : Z) : nat :=
    if (k <? 0)%Z then Z.to_nat (Z.of_nat n + k) else Nat.min n (Z.to_nat k).

  (** Lines 74-76, 231-233: [zero_idx] after the slice assignment. *)
  Definition prefix_mask (n : nat) (k : Z) : list N :=
    repeat none (slice_stop n k) ++ repeat nzero (n - slice_stop n k).
  (** rng.shuffle, given by the positions that the entries come from. *)
  Definition shuffled (perm : list nat) (l : list N) : list N :=
    map (fun i => nth i l nzero) perm.

  (** np.var *)
  Definition nvar (l : list N) : N :=
    let m := nmean l in nmean (map (fun v => nsquare (nsub v m)) l).

  (** The random draws of one call of a regression data set. *)
  Record reg_draws := mkRegDraws {
    d_X : mat;                   (* standard normal, n_samples x n_features *)
    d_beta : list N;             (* uniform, or standard gamma *)
    d_perm : list nat;           (* the shuffle *)
    d_int : N;                   (* uniform, or standard gamma *)
    d_noise : list N             (* standard normal *)
  }.

  Definition normal (loc scale z : N) : N := nadd loc (nmul scale z).
  Definition uniform (low high u : N) : N := nadd low (nmul (nsub high low) u).
  Definition gamma_draw (scale g : N) : N := nmul scale g.

  (** Lines 67-79 and 224-236, for the coefficients drawn as [values]. *)
  Definition sparse_beta (p : nat) (k : Z) (perm : list nat) (values : list N) : list N :=
    map2 nmul values (shuffled perm (prefix_mask p k)).

  (** intercept + np.dot(X, beta): lines 88, 245. *)
  Definition linear_predictor (X : mat) (beta : list N) (intercept : N) : list N :=
    map (fun x => nadd intercept (ndot x beta)) X.

  Record regression := mkRegression {
    r_X : mat; r_y : list N; r_beta : list N; r_intercept : N
  }.

  (** Lines 17-94.  [rng.normal] raises for a negative scale, [np.dot] for a given
      beta of the wrong length. *)
  Definition make_linear_regression (p : nat) (k : Z) (X_loc X_scale snr : N)
      (beta : option (list N)) (low high : N) (include_intercept : bool) (d : reg_draws)
    : result regression :=
    if nltb X_scale nzero then Raise ValueError
    else
      let X := map (map (normal X_loc X_scale)) (d_X d) in
      let beta := match beta with
                  | Some b => b
                  | None => sparse_beta p k (d_perm d) (map (uniform low high) (d_beta d))
                  end in
      let intercept := if include_intercept then uniform low high (d_int d) else nzero in
      if negb (Nat.eqb (length beta) p) then Raise ValueError
      else
        let eta := linear_predictor X beta intercept in
        let noise_var := ndiv (nvar eta) snr in
        let noise := map (normal nzero (nsqrt noise_var)) (d_noise d) in
        Ok (mkRegression X (map2 nadd eta noise) beta intercept).

  (** Lines 179-251.  [pois i lam]: the draw of response number [i] with mean [lam]
      (numpy raises when the mean is too large). *)
  Definition make_poisson_regression (p : nat) (k : Z) (X_loc X_scale : N)
      (beta : option (list N)) (shape scale : N) (include_intercept : bool)
      (d : reg_draws) (pois : nat -> N -> result N) : result regression :=
    if nltb X_scale nzero then Raise ValueError
    else
      let X := map (map (normal X_loc X_scale)) (d_X d) in
      let drawn := match beta with None => true | Some _ => false end || include_intercept in
      if drawn && (nltb shape nzero || nltb scale nzero) then Raise ValueError
      else
        let beta := match beta with
                    | Some b => b
                    | None => sparse_beta p k (d_perm d) (map (gamma_draw scale) (d_beta d))
                    end in
        let intercept := if include_intercept then gamma_draw scale (d_int d) else nzero in
        if negb (Nat.eqb (length beta) p) then Raise ValueError
        else
          let eta := linear_predictor X beta intercept in
          let* y := mapM (fun i => pois i (nexp (nth i eta nzero))) (seq 0 (length eta)) in
          Ok (mkRegression X y beta intercept).

  (** ** Classification, lines 99-176 *)

  (** Lines 136-137, one row: the mean and the standard deviation are taken over the
      features of a sample. *)
  Definition standardize_row (x : list N) : list N :=
    let m := nmean x in
    let c := map (fun v => nsub v m) x in
    let s := nsqrt (nvar c) in
    map (fun v => ndiv v s) c.

  Record class_draws := mkClassDraws {
    c_X : mat;                   (* n_samples x n_features *)
    c_w : mat;                   (* n_features x n_classes, or n_features x 1 *)
    c_int : list N;              (* n_classes, or 1 *)
    c_perms : list (list nat)    (* the permutations *)
  }.

  (** Lines 146-153, 160-162: the coefficient of feature [j] in class [c]; [idxs] are
      the features to clear. *)
  Definition cleared (idxs : list nat) (j : nat) (v : N) : N :=
    if existsb (Nat.eqb j) idxs then nzero else v.
  (** [rng.permutation(n_features)[:n_not_informative]] for a positive count. *)
  Definition uninformative (n_not : Z) (perm : list nat) : list nat :=
    firstn (Z.to_nat n_not) perm.

  (** Lines 138-163, as the rows of w.T. *)
  Definition class_coef (p n_out : nat) (n_not : Z) (shared : bool) (w_scale : N) (d : class_draws)
    : mat :=
    map (fun c =>
      map (fun j =>
        let v := nth c (nth j (c_w d) []) nzero in
        let perm := nth (if shared then 0 else c) (c_perms d) [] in
        nmul (if (0 <? n_not)%Z then cleared (uninformative n_not perm) j v else v) w_scale)
        (seq 0 p))
      (seq 0 n_out).

  Record classification := mkClassification {
    k_X : mat; k_y : list nat; k_coef : mat; k_intercept : list N
  }.

  (** Line 142: [intercept -= intercept.max()]. *)
  Definition shift_max (l : list N) : list N := map (fun v => nsub v (nmaxl l)) l.

  (** Line 165-174: log-probabilities of one sample, one per row of the coefficients. *)
  Definition class_scores (coef : mat) (intercept : list N) (include_intercept : bool) (x : list N)
    : list N :=
    map (fun c => let v := ndot x (nth c coef []) in
                  if include_intercept then nadd v (nth c intercept nzero) else v)
        (seq 0 (length coef)).

  (** rng.binomial(1, p) raises unless 0 <= p <= 1. *)
  Definition binomial (bern : nat -> N -> nat) (i : nat) (q : N) : result nat :=
    if nleb nzero q && nleb q none then Ok (bern i q) else Raise ValueError.

  (** Lines 99-176 after the choice of the generator.  [bern] and [multi] draw the label
      of sample [i].  In the binary case np.squeeze removes the sample axis when there
      is only one sample, and the loop over p fails. *)
  Definition make_classification (p : nat) (k : Z) (n_classes : Z) (shared : bool) (w_scale : N)
      (include_intercept : bool) (d : class_draws) (bern : nat -> N -> nat)
      (multi : nat -> list N -> result nat) : result classification :=
    let n_not := (Z.of_nat p - k)%Z in
    let X := map standardize_row (c_X d) in
    if (2 <? n_classes)%Z then
      let n_out := Z.to_nat n_classes in
      let intercept := if include_intercept then shift_max (c_int d) else repeat nzero n_out in
      let coef := class_coef p n_out n_not shared w_scale d in
      let* y := mapM (fun i => multi i (softmax (class_scores coef intercept include_intercept (nth i X []))))
                     (seq 0 (length X)) in
      Ok (mkClassification X y coef intercept)
    else
      let intercept := if include_intercept then c_int d else [nzero] in
      let coef := class_coef p 1 n_not true w_scale d in
      if Nat.eqb (length X) 1 then Raise TypeError
      else
        let* y := mapM (fun i => binomial bern i
                     (sigmoid (nth 0 (class_scores coef intercept include_intercept (nth i X [])) nzero)))
                       (seq 0 (length X)) in
        Ok (mkClassification X y coef intercept).

  (** Lines 126-132: the generator.  An integer of numpy's is not an int for Python, so it
      is used as the generator itself; [rng.randn] then raises AttributeError. *)
  Definition classification_rng {RS} (seeded : Z -> RS) (os_entropy : RS) (a : seed_arg RS) : result RS :=
    match a with
    | PyInt z => Ok (seeded z)
    | SeedNone => Ok os_entropy
    | Instance r => Ok r
    | NpInt _ => Raise AttributeError
    end.
End Datasets.
Arguments reg_draws : clear implicits.
Arguments class_draws : clear implicits.
Arguments regression : clear implicits.
Arguments classification : clear implicits.
