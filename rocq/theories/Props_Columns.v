(** Property theorems for the order of the features (C111). *)
From Coq Require Import ZArith List Bool Arith Lia Sorting.Permutation.
From Verif Require Import Prelude F64 Model_Intersection Model_Mpi Model_Fit Spec_Fit Proofs_FitFind
  Spec_Columns Proofs_Columns.
Import ListNotations.

(** C111.  Reordering the columns of X reorders the fitted model, provided that the
    solvers do not care about the order and no two supports share the best score. *)
Theorem C111_order : forall S E S' E' Rng env d (sol : solver S E) (sol' : solver S' E')
    (draw : bool -> Rng -> result (split * Rng)) post post' sigma same rng s s' F,
  1 <= n_boots_sel d -> shapes_ok d sol -> shapes_ok d sol' ->
  out_dim d = 1 -> shared d = true -> 2 <= n_feat d -> 2 <= length (thresholds d) * n_reg d ->
  is_order (n_feat d) sigma -> follows d sigma sol sol' same -> post_follows d sigma post post' ->
  same s s' ->
  fit env d sol draw post 1 0 false rng s = Done (Ok F) ->
  exists sel rows, f_sel F = Some sel /\ s_supports sel = Arr2 (n_feat d) rows /\
    (clear_winners d sel ->
     exists F' sel' rows',
       fit env d sol' draw post' 1 0 false rng s' = Done (Ok F') /\
       f_coef F' = reorder_nd sigma (f_coef F) /\ f_intercept F' = f_intercept F /\
       f_sel F' = Some sel' /\ s_supports sel' = Arr2 (n_feat d) rows' /\
       Permutation rows' (map (reorder false sigma) rows) /\
       forall b, b < n_boots_est d ->
         chosen sel' rows' b = reorder false sigma (chosen sel rows b)).
Proof.
  intros S E S' E' Rng env d sol sol' draw post post' sigma same rng s s' F H1 H2 H3 H4 H5 H6 H7 H8 H9 H10.
  exact (columns env d sol sol' draw post post' sigma same H1 H2 H3 H4 H5 H6 H7 H8 H9 H10 rng s s' F).
Qed.
Print Assumptions C111_order.

(** Two columns, swapped; each is the support of one parameter, and the scores differ. *)
Example C111_order_ex :
  is_order (n_feat col_dims) [1; 0] /\
  follows col_dims [1; 0] (named [0; 1] total) (named [1; 0] total) (fun _ _ => True) /\
  post_follows col_dims [1; 0] ex_post ex_post /\
  exists F sel, fit ex_np col_dims (named [0; 1] total) ex_draw ex_post 1 0 false 0 tt = Done (Ok F) /\
    f_sel F = Some sel /\ clear_winners col_dims sel /\
    nd_data (f_coef F) = [SFlt fzero; SFlt ftwo].
Proof.
  split; [apply perm_swap|]. split; [apply named_follows, total_perm|].
  split; [exact id_post_follows|].
  eexists. eexists. split; [vm_compute; reflexivity|]. split; [reflexivity|]. split; [|reflexivity].
  intros b ns Hb E. injection E as <-.
  destruct b as [|[|b]]; [| |simpl in Hb; lia]; intros [|[|i]] Hi; try lia;
    (split; [reflexivity|]); intro N; try reflexivity; now destruct N.
Qed.

(** If several supports have the best score, the chosen one leaves out the first
    feature on which it differs from each of the others. *)
Theorem C111_ties : forall S E Rng env d (sol : nat -> solver S E)
    (draw : bool -> Rng -> result (split * Rng)) post n R s0 F,
  1 <= n_boots_sel d -> (forall i, shapes_ok d (sol i)) ->
  2 <= length (thresholds d) * n_reg d -> 2 <= n_coef d ->
  returned env d sol draw post n false R s0 F ->
  exists sel p rows, f_sel F = Some sel /\ s_supports sel = Arr2 p rows /\
    forall b j, b < n_boots_est d -> j < length rows ->
      (forall i, i < length rows -> is_nan64 (at2 (s_scores sel) b i) = false) ->
      fleb (at2 (s_scores sel) b (index_at (s_rp_max_idx sel) b)) (at2 (s_scores sel) b j) = true ->
      nth j rows [] = chosen sel rows b \/ omits_first (chosen sel rows b) (nth j rows []).
Proof.
  intros S E Rng env d sol draw post n R s0 F H1 H2.
  exact (ties env d sol draw post H1 H2 n R s0 F).
Qed.
Print Assumptions C111_ties.

(** Equal scores for {0} and {1}: {1} is chosen, which leaves out feature 0. *)
Example C111_ties_ex : exists F sel,
  fit ex_np col_dims (named [0; 1] (fun _ => fone)) ex_draw ex_post 1 0 false 0 tt = Done (Ok F) /\
  f_sel F = Some sel /\ s_supports sel = Arr2 2 [[false; true]; [true; false]] /\
  map (at2 (s_scores sel) 0) [0; 1] = [fone; fone] /\
  chosen sel [[false; true]; [true; false]] 0 = [false; true].
Proof. eexists. eexists. vm_compute. repeat split. Qed.

(** So with ties the model depends on the order of the columns. *)
Theorem C111_order_refuted : exists (sol sol' : solver unit (list nat)) F F',
  is_order (n_feat col_dims) [1; 0] /\
  follows col_dims [1; 0] sol sol' (fun _ _ => True) /\
  post_follows col_dims [1; 0] ex_post ex_post /\
  fit ex_np col_dims sol ex_draw ex_post 1 0 false 0 tt = Done (Ok F) /\
  fit ex_np col_dims sol' ex_draw ex_post 1 0 false 0 tt = Done (Ok F') /\
  nd_data (f_coef F) = [SFlt fzero; SFlt ftwo] /\
  nd_data (reorder_nd [1; 0] (f_coef F)) = [SFlt ftwo; SFlt fzero] /\
  nd_data (f_coef F') = [SFlt fzero; SFlt fone].
Proof.
  exists (named [0; 1] (fun _ => fone)), (named [1; 0] (fun _ => fone)). eexists. eexists.
  split; [apply perm_swap|]. split; [apply named_follows; auto|]. split; [exact id_post_follows|].
  vm_compute. repeat split.
Qed.
Print Assumptions C111_order_refuted.
