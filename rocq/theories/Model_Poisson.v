(** Model of the Poisson regressor: src/pyuoi/linear_model/poisson.py.  A design
    matrix is its list of rows; the number of features [p] is passed along.  All
    fits of one object are assumed to use the same number of features (numpy raises
    for a warm start with another number). *)
From Coq Require Import ZArith List Bool Arith.
From Verif Require Import Prelude Num Model_Rescale Model_Refit.
Import ListNotations.

Section Arrays.
  Context {N : NumOps}.

  (** np.dot(X, v), X[:, j] and np.dot(X.T, v). *)
  Definition matvec (X : list (list N)) (v : list N) : list N := map (fun r => ndot r v) X.
  Definition column (X : list (list N)) (j : nat) : list N := map (fun r => nth j r nzero) X.
  Definition columns (p : nat) (X : list (list N)) : list (list N) := map (column X) (seq 0 p).
  Definition tmatvec (p : nat) (X : list (list N)) (v : list N) : list N :=
    map (fun j => ndot (column X j) v) (seq 0 p).

  (** np.maximum, np.max: NaN propagates.  np.max of an empty array raises; the
      model gives 0 and is only used for non-empty arrays. *)
  Definition nmax2 (a b : N) : N :=
    if nltb a b then b else if neqb b b then a else b.
  Definition nmaxl (l : list N) : N :=
    match l with [] => nzero | a :: r => fold_left nmax2 r a end.

  (** np.sign. *)
  Definition nsign (x : N) : N :=
    if nltb nzero x then none
    else if nltb x nzero then nopp none
    else if neqb x nzero then nzero else x.

  Definition ones (n : nat) : list N := repeat none n.

  (** np.linspace(start, stop, num) and np.logspace: the last value is replaced by
      stop itself. *)
  Definition linspace (start stop : N) (num : nat) : list N :=
    map (fun i => if (Nat.eqb i (num - 1) && Nat.ltb 1 num)%bool then stop
                  else nadd (nmul (nofnat i) (ndiv (nsub stop start) (nofnat (num - 1)))) start)
        (seq 0 num).
End Arrays.

Section Poisson.
  Context {N : NumOps}.

  (** poisson.py:325-344; [astype('int')] of a comparison is 0 or 1. *)
  Definition soft_threshold (x threshold : N) : N :=
    nmul (nmul (nsign x) (nsub (nabs x) threshold))
         (if nltb threshold (nabs x) then none else nzero).

  (** poisson.py:346-376. *)
  Definition adjusted_response (X : list (list N)) (y coef : list N) (intercept : N)
    : list N * list N :=
    let eta := map (nadd intercept) (matvec X coef) in
    let w := map nexp eta in
    (w, map (fun v => nsub v none) (map2 nadd eta (map2 ndiv y w))).

  (** poisson.py:701-751.  [coef] has [p] or [p + 1] entries; the last of [p + 1]
      entries is the intercept. *)
  Definition poisson_loss_and_grad (p : nat) (X : list (list N)) (y : list N) (l2 : N)
      (sw : option (list N)) (coef : list N) : N * list N :=
    let n := length X in
    let sw := match sw with Some s => s | None => ones n end in
    let has := Nat.ltb p (length coef) in
    let b := if has then last coef nzero else nzero in
    let c := firstn p coef in
    let eta := map (nadd b) (matvec X c) in
    let ll := map2 nmul sw (map2 nsub (map2 nmul y eta) (map nexp eta)) in
    let out := ndiv (nopp (nsum ll)) (nofnat n) in
    let out := nadd out (nmul (nmul (ndiv none (nofZ 2)) l2) (ndot c c)) in
    let res := map2 nmul sw (map2 nsub y (map nexp eta)) in
    let g := map2 nadd (map (fun v => ndiv (nopp v) (nofnat n)) (tmatvec p X res))
                  (map (nmul l2) c) in
    (out, if has then g ++ [nopp (nmean res)] else g).

  (** ** Coordinate descent *)

  (** The constructor's arguments (poisson.py:55-64). *)
  Record config := mkConfig {
    alpha : N; l1_ratio : N; fit_intercept : bool; standardize : bool;
    max_iter : nat; tol : N; warm_start : bool
  }.

  Definition one_off (p j : nat) : list N :=
    map (fun k => if Nat.eqb k j then nzero else none) (seq 0 p).

  (** poisson.py:288-306: one coordinate. *)
  Definition cd_update (c : config) (X : list (list N)) (w z : list N) (intercept : N)
      (coef : list N) (idx : nat) : list N :=
    let n := nofnat (length X) in
    let z_hat := map (nadd intercept) (matvec X (map2 nmul coef (one_off (length coef) idx))) in
    let x := column X idx in
    let num_update := ndiv (ndot w (map2 nmul x (map2 nsub z z_hat))) n in
    let den_update := ndiv (ndot w (map nsquare x)) n in
    lset idx (ndiv (soft_threshold num_update (nmul (l1_ratio c) (alpha c)))
                   (nadd den_update (nmul (alpha c) (nsub none (l1_ratio c))))) coef.

  (** poisson.py:252-308. *)
  Definition cd_sweep (c : config) (X : list (list N)) (w z : list N) (active : list nat)
      (coef : list N) : list N * N :=
    let intercept := if fit_intercept c
                     then ndiv (ndot w (map2 nsub z (matvec X coef))) (nsum w)
                     else nzero in
    (fold_left (cd_update c X w z intercept) active coef, intercept).

  (** np.argwhere(coef != 0).ravel() *)
  Definition nonzeros (coef : list N) : list nat :=
    filter (fun j => nnonzero (nth j coef nzero)) (seq 0 (length coef)).

  (** One iteration of the loop poisson.py:228-240. *)
  Definition cd_iteration (c : config) (X : list (list N)) (y sw : list N) (active : list nat)
      (s : list N * N) : list N * N :=
    let wz := adjusted_response X y (fst s) (snd s) in
    cd_sweep c X (map2 nmul (fst wz) sw) (snd wz) active (fst s).

  (** poisson.py:227-249: [k] remaining iterations. *)
  Fixpoint cd_loop (c : config) (X : list (list N)) (y sw : list N) (k : nat) (active : list nat)
      (s : list N * N) : list N * N :=
    match k with
    | O => s
    | S k' =>
        let s' := cd_iteration c X y sw active s in
        if nltb (nmaxl (map nabs (map2 nsub (fst s) (fst s')))) (tol c) then s'
        else cd_loop c X y sw k' (nonzeros (fst s')) s'
    end.

  (** poisson.py:180-250.  [coef0], [b0]: the start (zero, or the previous solution
      with warm_start).  With warm_start the first active set is
      [np.argwhere(coef != 0)], an array of shape (k, 1): indexing with its rows
      broadcasts n values into one coefficient, which numpy refuses unless there is
      a single sample. *)
  Definition cd (c : config) (X : list (list N)) (y sw : list N) (coef0 : list N) (b0 : N)
    : result (list N * N) :=
    let active := if warm_start c then nonzeros coef0 else seq 0 (length coef0) in
    if warm_start c && negb (Nat.eqb (length active) 0) && negb (Nat.eqb (length X) 1)
       && negb (Nat.eqb (max_iter c) 0)
    then Raise ValueError
    else Ok (cd_loop c X y sw (max_iter c) active (coef0, b0)).

  (** ** The estimator *)

  (** [None]: the attribute does not exist. *)
  Record poisson := mkPoisson { coef_ : option (list N); intercept_ : option N }.

  Inductive solver := Lbfgs | Cd | OtherSolver.

  (** np.unique(y).size == 1 *)
  Definition constant_response (y : list N) : bool :=
    match y with [] => false | a :: r => forallb (neqb a) r end.

  (** The intercept for a constant response, poisson.py:92-95. *)
  Definition log_mean (y : list N) : N :=
    if nany y then nln (nmean y) else nneginf.

  (** The start of both solvers, poisson.py:99-108 and 209-220. *)
  Definition start_coef (c : config) (p : nat) (s : scaler N) (o : poisson) : list N :=
    match coef_ o with
    | Some v => if warm_start c
                then if standardize c then map2 nmul v (scale_ s) else v
                else repeat nzero p
    | None => repeat nzero p
    end.
  Definition start_intercept (c : config) (o : poisson) : N :=
    match intercept_ o with
    | Some b => if warm_start c && fit_intercept c then b else nzero
    | None => nzero
    end.

  (** [fmin_lbfgs], see Model_Lbfgs: objective with gradient, start, orthantwise_c,
      orthantwise_end. *)
  Definition optimizer := (list N -> N * list N) -> list N -> N -> nat -> result (list N).

  (** poisson.py:66-142.  The state after a call that raises keeps the attributes. *)
  Definition poisson_fit (c : config) (sv : solver) (opt : optimizer) (p : nat)
      (X : list (list N)) (y : list N) (sw : option (list N)) (o : poisson)
    : poisson * result unit :=
    let s := fit_scaler (columns p X) in
    let X := map (centering_transform (standardize c) s) X in
    if constant_response y then (mkPoisson (Some (repeat nzero p)) (Some (log_mean y)), Ok tt)
    else
      let c0 := start_coef c p s o in
      let b0 := start_intercept c o in
      let r :=
        match sv with
        | Lbfgs =>
            let w0 := if fit_intercept c then c0 ++ [b0] else c0 in
            let* w := opt (poisson_loss_and_grad p X y (nmul (alpha c) (nsub none (l1_ratio c))) sw)
                          w0 (nmul (alpha c) (l1_ratio c)) p in
            Ok (if fit_intercept c then (firstn p w, last w nzero) else (w, nzero))
        | Cd => cd c X y (match sw with Some s => s | None => ones (length X) end) c0 b0
        | OtherSolver => Raise ValueError
        end in
      match r with
      | Raise e => (o, Raise e)
      | Ok (coef, b) =>
          let f := poisson_post (standardize c) (fit_intercept c) s coef b in
          (mkPoisson (Some (fst f))
             (if fit_intercept c then Some (snd f) else intercept_ o), Ok tt)
      end.

  (** poisson.py:144-178. *)
  Definition predict_mean (o : poisson) (X : list (list N)) : result (list N) :=
    match coef_ o, intercept_ o with
    | Some v, Some b => Ok (map (fun m => nexp (nadd b m)) (matvec X v))
    | _, _ => Raise NotFittedError
    end.
  Definition predict (floor : N -> N) (o : poisson) (X : list (list N)) : result (list N) :=
    rmap (map floor) (predict_mean o X).

  (** base.py:278-283: [coef_ *= 0.], [intercept_ *= 0.] between bootstraps. *)
  Definition reset_poisson (o : poisson) : poisson :=
    mkPoisson (option_map (map (fun v => nmul v nzero)) (coef_ o))
              (option_map (fun b => nmul b nzero) (intercept_ o)).

  (** Calls on one object: [set_params] and [fit] (base.py:447-481) or the reset above. *)
  Inductive call :=
  | CallFit (c : config) (X : list (list N)) (y : list N) (sw : option (list N))
  | CallReset.
  Definition run_call (sv : solver) (opt : optimizer) (p : nat) (k : call) (o : poisson)
    : poisson * result unit :=
    match k with
    | CallFit c X y sw => poisson_fit c sv opt p X y sw o
    | CallReset => (reset_poisson o, Ok tt)
    end.
  (** A history of calls; exceptions are caught by the caller. *)
  Definition calls (sv : solver) (opt : optimizer) (p : nat) (h : list call) (o : poisson) : poisson :=
    fold_left (fun o k => fst (run_call sv opt p k o)) h o.
  (** A new object has no fitted attributes. *)
  Definition fresh_poisson : poisson := mkPoisson None None.

  (** base.py:355-393 with poisson.py:588-590: the estimation tasks of one process in
      order.  [Some]: a non-empty support of [p] features, its training data and the
      samples that are scored; [None]: an empty support. *)
  Fixpoint estimation (c : config) (sv : solver) (opt : optimizer)
      (tasks : list (option (nat * list (list N) * list N * list (list N)))) (o : poisson) : result unit :=
    match tasks with
    | [] => Ok tt
    | None :: r => estimation c sv opt r o
    | Some (p, X, y, X') :: r =>
        let f := poisson_fit c sv opt p X y None o in
        let* _ := snd f in
        let* _ := predict_mean (fst f) X' in
        estimation c sv opt r (fst f)
    end.

  (** ** UoI_Poisson *)

  (** poisson.py:634-649. *)
  Definition uoi_poisson_intercept (fit_intercept : bool) (X : list (list N)) (y coef : list N) : N :=
    if fit_intercept then
      let mu := map nexp (matvec X coef) in
      if nany y then nln (ndiv (nmean y) (nmean mu)) else nneginf
    else nzero.

  (** poisson.py:659-698 *)
  Definition no_features_intercept (y : list N) : N := log_mean y.

  (** poisson.py:525-538, one mixing weight. *)
  Definition log10 (x : N) : N := ndiv (nln x) (nln (nofZ 10)).
  Definition pow10 (x : N) : N := nexp (nmul x (nln (nofZ 10))).
  Definition poisson_lambda_max (p : nat) (X : list (list N)) (y : list N) (mix : N) : N :=
    let ybar := nmean y in
    ndiv (nmaxl (map nabs (tmatvec p X (map (fun v => nsub v ybar) y))))
         (nmul (nofnat (length X)) mix).
  Definition logspace (start stop : N) (num : nat) : list N := map pow10 (linspace start stop num).
  Definition poisson_grid (p : nat) (X : list (list N)) (y : list N) (eps : N) (num : nat) (mix : N)
    : list N :=
    let l := poisson_lambda_max p X y mix in
    logspace (log10 l) (log10 (nmul eps l)) num.

  (** poisson.py:506-548 on a fresh object: [dict(alpha=..., l1_ratio=...)] in order. *)
  Definition poisson_reg_params (p : nat) (X : list (list N)) (y : list N) (eps : N) (num : nat)
      (alphas : list N) : list (reg_param N N) :=
    pairs alphas (map (poisson_grid p X y eps num) alphas).
End Poisson.
Arguments config : clear implicits.
Arguments poisson : clear implicits.

(** base.py:651-657 for one response: the intercept of the linear regressors. *)
Definition linear_intercept {N : NumOps} (fit_intercept : bool) (p : nat) (X : list (list N)) (y coef : list N) : N :=
  if fit_intercept
  then nsub (nmean y) (ndot (map nmean (columns p X)) coef)
  else nzero.
