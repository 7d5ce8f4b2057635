(** Specification vocabulary for the order of the features (C111). *)
From Coq Require Import ZArith List Bool Arith Sorting.Permutation.
From Verif Require Import Prelude F64 Model_Intersection Model_Mpi Model_Fit Spec_Fit.
Import ListNotations.

(** [sigma] lists the numbers of [p] columns in a new order. *)
Definition is_order (p : nat) (sigma : list nat) : Prop := Permutation sigma (seq 0 p).

(** What was at position [sigma[j]] is now at position [j]. *)
Definition reorder {A} (x : A) (sigma : list nat) (l : list A) : list A :=
  map (fun j => nth j l x) sigma.
Definition reorder_nd (sigma : list nat) (a : nd) : nd :=
  mkNd (nd_shape a) (nd_dtype a) (reorder (SFlt fzero) sigma (nd_data a)).

(** Apart from the order of the columns, the solvers [sol'], which work on the
    reordered design matrix, do what the solvers [sol] do on the original one;
    [same] relates the states of the selection solvers. *)
Record follows {S E S' E'} (d : dims) (sigma : list nat) (sol : solver S E) (sol' : solver S' E')
    (same : S -> S' -> Prop) : Prop := {
  fo_reset : forall s s', same s s' -> same (reset sol s) (reset sol' s');
  fo_sweep : forall s s' regs tr s1 rows, same s s' -> sweep sol s regs tr = Ok (s1, rows) ->
    exists s1', same s1 s1' /\ sweep sol' s' regs tr = Ok (s1', map (reorder fzero sigma) rows);
  (* the estimate of a support has one coefficient per selected column *)
  fo_est : forall mask tr e, length mask = n_feat d -> est_fit sol mask tr = Ok e ->
    exists e', est_fit sol' (reorder false sigma mask) tr = Ok e' /\
      length (est_coef sol e) = expected_length d mask /\
      length (est_coef sol' e') = expected_length d (reorder false sigma mask) /\
      (forall j, j < n_feat d ->
         placed d (reorder false sigma mask) (est_coef sol' e') j
         = placed d mask (est_coef sol e) (nth j sigma 0)) /\
      (forall sp sc, score sol e mask sp = Ok sc ->
         score sol' e' (reorder false sigma mask) sp = Ok sc);
  fo_null : forall tr e, null_fit sol tr = Ok e ->
    exists e', null_fit sol' tr = Ok e' /\
      (forall sp sc, null_score sol e sp = Ok sc -> null_score sol' e' sp = Ok sc);
  fo_int : forall c ic, length c = n_feat d -> fit_int sol c = Ok ic ->
    fit_int sol' (reorder fzero sigma c) = Ok ic
}.

(** The same for [_post_fit]. *)
Definition post_follows (d : dims) (sigma : list nat) (post post' : nd -> nd -> result (nd * nd)) : Prop :=
  forall c ic c1 ic1, length c = n_feat d ->
    post (nd_of_floats [1; n_feat d] c) ic = Ok (c1, ic1) ->
    post' (nd_of_floats [1; n_feat d] (reorder fzero sigma c)) ic = Ok (reorder_nd sigma c1, ic1).

(** In every estimation bootstrap the best score is reached by one support only,
    and no score is NaN. *)
Definition clear_winners (d : dims) (sel : selected) : Prop :=
  forall b ns, b < n_boots_est d -> nd_shape (s_scores sel) = [n_boots_est d; ns] ->
    forall i, i < ns ->
      is_nan64 (at2 (s_scores sel) b i) = false /\
      (i <> index_at (s_rp_max_idx sel) b ->
       fltb (at2 (s_scores sel) b i) (at2 (s_scores sel) b (index_at (s_rp_max_idx sel) b)) = true).

(** The support chosen in bootstrap [b]. *)
Definition chosen (sel : selected) (rows : list (list bool)) (b : nat) : list bool :=
  nth (index_at (s_rp_max_idx sel) b) rows [].

(** [a] leaves out the first feature on which [a] and [b] differ. *)
Definition omits_first (a b : list bool) : Prop :=
  exists k, nth k a false = false /\ nth k b false = true /\
    forall i, i < k -> nth i a false = nth i b false.
