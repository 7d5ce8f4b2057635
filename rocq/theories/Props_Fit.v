(** Property theorems for [fit] (C04, C16-C25, C27, C71-C73).  Each hypothesis
    about solvers is stated in Spec_Fit.v; the examples use the solvers of
    Proofs_FitFind.v. *)
From Coq Require Import ZArith List Bool Arith Lia.
From Verif Require Import Prelude F64 Model_Intersection Spec_Intersection Model_Mpi Spec_Mpi
  Model_Fit Spec_Fit Proofs_Fit Proofs_FitProps Proofs_FitDist Proofs_FitFind.
Import ListNotations.

(** C04.  Without thresholds no call to [fit] ever returns a model, and the serial
    call raises ValueError whatever the data, as long as solver and splitting work. *)
Theorem C04_no_model : forall S E Rng env d (sol : nat -> solver S E)
    (draw : bool -> Rng -> result (split * Rng)) post n R s0 F,
  1 <= n_boots_sel d -> (forall i, shapes_ok d (sol i)) ->
  thresholds d = [] -> 1 <= n_boots_est d ->
  ~ returned env d sol draw post n false R s0 F.
Proof.
  intros S E Rng env d sol draw post n R s0 F H1 H2.
  exact (no_thresholds_no_fit env d sol draw post H1 H2 n R s0 F).
Qed.
Print Assumptions C04_no_model.

Theorem C04_serial_raises : forall S E Rng env d (sol : nat -> solver S E)
    (draw : bool -> Rng -> result (split * Rng)) post rng s,
  1 <= n_boots_sel d -> (forall i, shapes_ok d (sol i)) ->
  thresholds d = [] -> 1 <= n_boots_est d -> n_coef d <> 1 ->
  (forall sel rr, is_ok (draw sel rr) = true) ->
  (forall s regs tr, is_ok (sweep (sol 0) s regs tr) = true) ->
  fit env d (sol 0) draw post 1 0 false rng s = Done (Raise ValueError).
Proof.
  intros S E Rng env d sol draw post rng s H1 H2.
  exact (no_thresholds_serial env d sol draw post H1 H2 rng s).
Qed.
Print Assumptions C04_serial_raises.

Example C04_ex :
  fit ex_np (mkDims 2 1 2 2 2 [] true false) ex_solver ex_draw ex_post 1 0 false 0 tt
  = Done (Raise ValueError).
Proof. vm_compute. reflexivity. Qed.

(** C16 for [fit].  Either every execution ends, without deadlock, with all ranks
    returning the same model, or some rank raises. *)
Theorem C16_fit : forall S E Rng env d (sol : nat -> solver S E)
    (draw : bool -> Rng -> result (split * Rng)) post n R s0,
  1 <= n_boots_sel d -> (forall i, shapes_ok d (sol i)) -> 1 <= n ->
  (exists F, every_execution_ends n
     (fun i => fit env d (sol i) draw post n i false (R i) (s0 i)) (fun _ => Ok F)) \/
  (exists out i e, i < n /\ out i = Some (Raise e) /\
     every_execution_reaches n
       (fun i => fit env d (sol i) draw post n i false (R i) (s0 i)) out).
Proof.
  intros S E Rng env d sol draw post n R s0 H1 H2.
  exact (ends_or_raises env d sol draw post H1 H2 n R s0).
Qed.
Print Assumptions C16_fit.

(** C17.  What one rank returns, all ranks return, in every execution. *)
Theorem C17_identical : forall S E Rng env d (sol : nat -> solver S E)
    (draw : bool -> Rng -> result (split * Rng)) post n R s0 F,
  1 <= n_boots_sel d -> (forall i, shapes_ok d (sol i)) ->
  returned env d sol draw post n false R s0 F ->
  every_execution_ends n (fun i => fit env d (sol i) draw post n i false (R i) (s0 i)) (fun _ => Ok F).
Proof.
  intros S E Rng env d sol draw post n R s0 F H1 H2.
  exact (one_return_decides env d sol draw post H1 H2 n R s0 F).
Qed.
Print Assumptions C17_identical.

Example C17_ex : 1 <= n_boots_sel ex_dims /\ shapes_ok ex_dims ex_solver /\
  returned ex_np ex_dims (fun _ => ex_solver) ex_draw ex_post 1 false (fun _ => 0) (fun _ => tt) ex_fitted.
Proof.
  split; [simpl; lia|]. split; [exact ex_shapes|].
  exact (serial_returned ex_np ex_dims (fun _ => ex_solver) ex_draw ex_post (fun _ => 0) (fun _ => tt) _ ex_serial).
Qed.

(** C18.  At most as many ranks as bootstraps. *)
Theorem C18_few_ranks : forall S E Rng env d (sol : solver S E)
    (draw : bool -> Rng -> result (split * Rng)) post Inv n R s0 s F G,
  1 <= n_boots_sel d -> shapes_ok d sol -> preserved sol Inv ->
  1 <= n -> n <= n_boots_sel d -> from_reset d sol Inv G ->
  (forall i, Inv (s0 i)) -> Inv s ->
  fit env d sol draw post 1 0 false (R 0) s = Done (Ok F) ->
  every_execution_ends n (fun i => fit env d sol draw post n i false (R i) (s0 i)) (fun _ => Ok F).
Proof.
  intros S E Rng env d sol draw post Inv n R s0 s F G H1 H2 H3.
  exact (dist_few env d sol draw post H1 H2 Inv H3 n R s0 s F G).
Qed.
Print Assumptions C18_few_ranks.

(** Any number of ranks. *)
Theorem C18_any_ranks : forall S E Rng env d (sol : solver S E)
    (draw : bool -> Rng -> result (split * Rng)) post Inv n R s0 s F f,
  1 <= n_boots_sel d -> shapes_ok d sol -> preserved sol Inv ->
  1 <= n -> state_independent sol Inv f ->
  (forall i, Inv (s0 i)) -> Inv s ->
  fit env d sol draw post 1 0 false (R 0) s = Done (Ok F) ->
  every_execution_ends n (fun i => fit env d sol draw post n i false (R i) (s0 i)) (fun _ => Ok F).
Proof.
  intros S E Rng env d sol draw post Inv n R s0 s F f H1 H2 H3.
  exact (dist_any env d sol draw post H1 H2 Inv H3 n R s0 s F f).
Qed.
Print Assumptions C18_any_ranks.

(** The hypotheses hold for a solver that selects different features for different
    parameters and bootstraps; the model is not trivial. *)
Example C18_ex :
  shapes_ok ex_dims ex_solver /\ preserved ex_solver (fun _ => True) /\
  from_reset ex_dims ex_solver (fun _ => True) (fun tr => Ok (map (fun r => ex_row r tr) (seq 0 2))) /\
  state_independent ex_solver (fun _ => True) (fun r tr => Ok (ex_row r tr)) /\
  fit ex_np ex_dims ex_solver ex_draw ex_post 1 0 false 0 tt = Done (Ok ex_fitted) /\
  nd_data (f_coef ex_fitted) = [SFlt fone; SFlt fone] /\
  option_map s_supports (f_sel ex_fitted) = Some (Arr2 2 [[true; false]; [true; true]]).
Proof.
  split; [exact ex_shapes|]. split; [exact ex_preserved|]. split; [exact ex_from_reset|].
  split; [exact ex_independent|]. split; [exact ex_serial|]. split; [exact ex_coef|exact ex_supports].
Qed.

(** C19.  A warm-starting solver whose result after a reset does not depend on its
    past, one bootstrap and two ranks: other supports than in a serial run. *)
Theorem C19_warm_start_refuted : exists d (sol : solver bool (list f64)) draw post Fs Fd,
  n_boots_sel d = 1 /\ shapes_ok d sol /\ preserved sol (fun _ => True) /\
  (exists G, from_reset d sol (fun _ => True) G) /\
  fit ex_np d sol draw post 1 0 false 0 false = Done (Ok Fs) /\
  every_execution_ends 2 (fun i => fit ex_np d sol draw post 2 i false 0 false) (fun _ => Ok Fd) /\
  option_map s_supports (f_sel Fs) = Some (Arr2 2 [[true; false]; [true; true]]) /\
  option_map s_supports (f_sel Fd) = Some (Arr2 2 [[true; true]]).
Proof.
  exact (ex_intro _ warm_dims (ex_intro _ warm_solver (ex_intro _ ex_draw (ex_intro _ ex_post
    (ex_intro _ warm_serial (ex_intro _ warm_two
      (conj eq_refl (conj warm_shapes (conj warm_preserved
        (conj (ex_intro _ _ warm_from_reset) warm_start_differs)))))))))).
Qed.
Print Assumptions C19_warm_start_refuted.

(** C20.  If a rank raises in some execution, then no rank returns a model in any
    execution. *)
Theorem C20_no_model_after_raise : forall S E Rng env d (sol : nat -> solver S E)
    (draw : bool -> Rng -> result (split * Rng)) post n R s0,
  1 <= n_boots_sel d -> (forall i, shapes_ok d (sol i)) ->
  forall wait m cf i e, i < n ->
  steps n wait m (start (fun i => fit env d (sol i) draw post n i false (R i) (s0 i))) cf ->
  prog cf i = Done (Raise e) -> forall F, ~ returned env d sol draw post n false R s0 F.
Proof.
  intros S E Rng env d sol draw post n R s0 H1 H2.
  exact (raise_blocks env d sol draw post H1 H2 n R s0).
Qed.
Print Assumptions C20_no_model_after_raise.

(** If the selection solver fails on one rank, that rank raises and all others hang. *)
Theorem C20_others_hang : forall S E Rng env d (sol : nat -> solver S E)
    (draw : bool -> Rng -> result (split * Rng)) post n R s0 r e,
  1 <= n_boots_sel d -> (forall i, shapes_ok d (sol i)) ->
  1 < n -> r < n -> sel_tasks d n r <> [] -> n_coef d <> 1 ->
  (forall sel rr, is_ok (draw sel rr) = true) ->
  (forall s regs tr, sweep (sol r) s regs tr = Raise e) ->
  (forall i, i < n -> i <> r -> forall s regs tr, is_ok (sweep (sol i) s regs tr) = true) ->
  every_execution_reaches n (fun i => fit env d (sol i) draw post n i false (R i) (s0 i))
    (fun i => if i =? r then Some (Raise e) else None).
Proof.
  intros S E Rng env d sol draw post n R s0 r e H1 H2.
  exact (one_rank_raises env d sol draw post H1 H2 n R s0 r e).
Qed.
Print Assumptions C20_others_hang.

Example C20_ex :
  (forall i, shapes_ok ex_dims (if i =? 1 then bad_solver else ex_solver)) /\
  sel_tasks ex_dims 3 1 <> [] /\ n_coef ex_dims <> 1 /\
  (forall sel rr, is_ok (ex_draw sel rr) = true) /\
  (forall s regs tr, sweep bad_solver s regs tr = Raise ValueError) /\
  (forall s regs tr, is_ok (sweep ex_solver s regs tr) = true).
Proof.
  split; [intro i; destruct (i =? 1); [exact bad_shapes|exact ex_shapes]|].
  split; [vm_compute; discriminate|]. split; [vm_compute; discriminate|]. repeat split.
Qed.

(** C21.  A non-zero coefficient belongs to a chosen support, of at least half of
    the estimation bootstraps if no estimate is NaN, and was stably selected. *)
Theorem C21_stable : forall S E Rng env d (sol : nat -> solver S E)
    (draw : bool -> Rng -> result (split * Rng)) post n R s0 F k,
  1 <= n_boots_sel d -> (forall i, shapes_ok d (sol i)) ->
  keeps_zeros post -> (shared d = true \/ forall i, respects_mask d (sol i)) ->
  2 <= length (thresholds d) * n_reg d -> 2 <= n_coef d -> 1 <= n_boots_est d ->
  returned env d sol draw post n false R s0 F ->
  k < n_coef d -> nonzero64 (num (nth k (nd_data (f_coef F)) (SFlt fzero))) = true ->
  exists sel p rows sps r1 c,
    f_sel F = Some sel /\ s_supports sel = Arr2 p rows /\
    drawn draw true (R 0) sps r1 /\ length sps = n_boots_sel d /\ selection_coefs d sol n sps c /\
    (exists b, b < n_boots_est d /\
       covers d (nth (index_at (s_rp_max_idx sel) b) rows []) k = true) /\
    ((forall b, b < n_boots_est d ->
        is_nan64 (at3 (s_estimates sel) b (index_at (s_rp_max_idx sel) b) k) = false) ->
     n_boots_est d <= 2 * length (filter (fun b =>
        covers d (nth (index_at (s_rp_max_idx sel) b) rows []) k) (seq 0 (n_boots_est d)))) /\
    stably_selected d c k.
Proof.
  intros S E Rng env d sol draw post n R s0 F k H1 H2.
  exact (nonzero_stable env d sol draw post H1 H2 n R s0 F k).
Qed.
Print Assumptions C21_stable.

Example C21_ex : keeps_zeros ex_post /\ shared ex_dims = true /\
  2 <= length (thresholds ex_dims) * n_reg ex_dims /\ 2 <= n_coef ex_dims /\ 1 < n_coef ex_dims /\
  nonzero64 (num (nth 1 (nd_data (f_coef ex_fitted)) (SFlt fzero))) = true.
Proof. split; [exact ex_keeps|]. vm_compute. repeat split; lia. Qed.

(** C22. *)
Theorem C22_estimates_vanish : forall S E Rng env d (sol : nat -> solver S E)
    (draw : bool -> Rng -> result (split * Rng)) post n R s0 F,
  1 <= n_boots_sel d -> (forall i, shapes_ok d (sol i)) ->
  (shared d = true \/ forall i, respects_mask d (sol i)) ->
  returned env d sol draw post n false R s0 F ->
  exists sel ns, f_sel F = Some sel /\ nd_shape (s_estimates sel) = [n_boots_est d; ns; n_coef d] /\
    n_supports (s_supports sel) = Ok ns /\
    forall b j k, b < n_boots_est d -> j < ns -> k < n_coef d ->
      nonzero64 (at3 (s_estimates sel) b j k) = true ->
      match s_supports sel with
      | Arr2 _ rows => covers d (nth j rows []) k = true
      | _ => shared d = false
      end.
Proof.
  intros S E Rng env d sol draw post n R s0 F H1 H2.
  exact (estimates_vanish env d sol draw post H1 H2 n R s0 F).
Qed.
Print Assumptions C22_estimates_vanish.

(** A support that leaves out a feature, and its estimate. *)
Example C22_ex : exists sel, f_sel ex_fitted = Some sel /\
  s_supports sel = Arr2 2 [[true; false]; [true; true]] /\
  at3 (s_estimates sel) 0 0 0 = fone /\ at3 (s_estimates sel) 0 0 1 = fzero /\
  at3 (s_estimates sel) 0 1 1 = fone.
Proof. eexists. vm_compute. repeat split. Qed.

(** C23. *)
Theorem C23_best_support : forall S E Rng env d (sol : nat -> solver S E)
    (draw : bool -> Rng -> result (split * Rng)) post n R s0 F,
  1 <= n_boots_sel d -> (forall i, shapes_ok d (sol i)) ->
  returned env d sol draw post n false R s0 F ->
  exists sel ns coef ic,
    f_sel F = Some sel /\ nd_shape (s_scores sel) = [n_boots_est d; ns] /\
    nd_shape (s_estimates sel) = [n_boots_est d; ns; n_coef d] /\
    nd_shape (s_rp_max_idx sel) = [n_boots_est d] /\
    (forall b, b < n_boots_est d ->
       (forall j, j < ns -> is_nan64 (at2 (s_scores sel) b j) = false) ->
       first_max (map (at2 (s_scores sel) b) (seq 0 ns)) (index_at (s_rp_max_idx sel) b)) /\
    (forall k, k < n_coef d -> 1 <= n_boots_est d ->
       (forall b, b < n_boots_est d ->
          is_nan64 (at3 (s_estimates sel) b (index_at (s_rp_max_idx sel) b) k) = false) ->
       is_median (map (fun b => at3 (s_estimates sel) b (index_at (s_rp_max_idx sel) b) k)
                      (seq 0 (n_boots_est d))) (nth k coef fzero)) /\
    length coef = n_coef d /\
    fit_int (sol 0) coef = Ok ic /\
    post (nd_of_floats [out_dim d; n_feat d] coef) ic = Ok (f_coef F, f_intercept F).
Proof.
  intros S E Rng env d sol draw post n R s0 F H1 H2.
  exact (best_support env d sol draw post H1 H2 n R s0 F).
Qed.
Print Assumptions C23_best_support.

Example C23_ex : exists sel, f_sel ex_fitted = Some sel /\
  map (at2 (s_scores sel) 0) [0; 1] = [fone; ftwo] /\ index_at (s_rp_max_idx sel) 0 = 1.
Proof. eexists. vm_compute. repeat split. Qed.

(** C24.  A NaN score beats every number. *)
Theorem C24_nan_wins : forall S E Rng env d (sol : nat -> solver S E)
    (draw : bool -> Rng -> result (split * Rng)) post n R s0 F b j,
  1 <= n_boots_sel d -> (forall i, shapes_ok d (sol i)) ->
  returned env d sol draw post n false R s0 F ->
  exists sel ns, f_sel F = Some sel /\ nd_shape (s_scores sel) = [n_boots_est d; ns] /\
    (b < n_boots_est d -> j < ns -> is_nan64 (at2 (s_scores sel) b j) = true ->
     index_at (s_rp_max_idx sel) b <= j /\
     is_nan64 (at2 (s_scores sel) b (index_at (s_rp_max_idx sel) b)) = true).
Proof.
  intros S E Rng env d sol draw post n R s0 F b j H1 H2.
  exact (nan_score_wins env d sol draw post H1 H2 n R s0 F b j).
Qed.
Print Assumptions C24_nan_wins.

(** Scores NaN for the support {0} and 2 for {0, 1}: {0} is chosen. *)
Example C24_ex : exists F sel,
  fit ex_np ex_dims nan_solver ex_draw ex_post 1 0 false 0 tt = Done (Ok F) /\ f_sel F = Some sel /\
  map (at2 (s_scores sel) 0) [0; 1] = [fnan; ftwo] /\ index_at (s_rp_max_idx sel) 0 = 0.
Proof. eexists. eexists. vm_compute. repeat split. Qed.

(** C25.  A constant response: no communication (the program is already [Done]),
    no selection, no estimation, zero coefficients. *)
Theorem C25_constant : forall S E Rng env d (sol : nat -> solver S E)
    (draw : bool -> Rng -> result (split * Rng)) post n i rng s ic c' ic',
  fit_int (sol i) (repeat fzero (n_coef d)) = Ok ic ->
  post (nd_of_floats [out_dim d; n_feat d] (repeat fzero (n_coef d))) ic = Ok (c', ic') ->
  fit env d (sol i) draw post n i true rng s = Done (Ok (mkFitted None c' ic')) /\
  (keeps_zeros post -> forall k, nonzero64 (num (nth k (nd_data c') (SFlt fzero))) = false).
Proof.
  intros S E Rng env d sol draw post n i rng s ic c' ic'.
  exact (constant_response env d sol draw post n i rng s ic c' ic').
Qed.
Print Assumptions C25_constant.

Example C25_ex : fit ex_np ex_dims bad_solver ex_draw ex_post 3 1 true 0 tt
  = Done (Ok (mkFitted None (nd_of_floats [1; 2] [fzero; fzero]) (nd_of_floats [1] [fone]))).
Proof. vm_compute. reflexivity. Qed.

(** C27.  Each bootstrap's coefficients are a function of its own training rows. *)
Theorem C27_own_rows : forall S E Rng env d (sol : solver S E)
    (draw : bool -> Rng -> result (split * Rng)) post Inv n R s0 F G,
  1 <= n_boots_sel d -> shapes_ok d sol -> preserved sol Inv ->
  1 <= n -> n <= n_boots_sel d -> from_reset d sol Inv G ->
  (forall i, Inv (s0 i)) ->
  returned env d (fun _ => sol) draw post n false R s0 F ->
  exists sel sps r1 c, f_sel F = Some sel /\
    drawn draw true (R 0) sps r1 /\ length sps = n_boots_sel d /\
    intersect d c = Ok (s_supports sel) /\ length (c_data c) = n_boots_sel d /\
    c_reg c = n_reg d /\ c_feat c = n_coef d /\
    forall b, b < n_boots_sel d ->
      G (fst (nth b sps ([], []))) = Ok (nth b (c_data c) []).
Proof.
  intros S E Rng env d sol draw post Inv n R s0 F G H1 H2 H3.
  exact (boots_independent env d sol draw post H1 H2 Inv H3 n R s0 F G).
Qed.
Print Assumptions C27_own_rows.

(** The warm-starting solver of C19 meets the conditions. *)
Example C27_ex : shapes_ok warm_dims warm_solver /\ preserved warm_solver (fun _ => True) /\
  from_reset warm_dims warm_solver (fun _ => True) (fun tr => Ok [[fone; fone]; [fone; fzero]]) /\
  returned ex_np warm_dims (fun _ => warm_solver) ex_draw ex_post 1 false (fun _ => 0) (fun _ => true) warm_serial.
Proof.
  split; [exact warm_shapes|]. split; [exact warm_preserved|]. split; [exact warm_from_reset|].
  apply serial_returned. vm_compute. reflexivity.
Qed.

(** C71.  A numpy integer as random_state: all selection bootstraps are the same
    and every threshold selects the same supports. *)
Theorem C71_numpy_seed : forall S E RS env d (sol : solver S E) (seeded : Z -> RS) tts post Inv
    n (R : nat -> rng_state RS) s0 F G z entropy,
  1 <= n_boots_sel d -> shapes_ok d sol -> preserved sol Inv -> from_reset d sol Inv G ->
  (forall i, Inv (s0 i)) -> 1 <= n -> n <= n_boots_sel d ->
  R 0 = init_random seeded entropy 0 (NpInt z) ->
  returned env d (fun _ => sol) (draw_random seeded tts) post n false R s0 F ->
  exists sel c, f_sel F = Some sel /\ intersect d c = Ok (s_supports sel) /\
    length (c_data c) = n_boots_sel d /\
    (forall b b', b < n_boots_sel d -> b' < n_boots_sel d ->
       nth b (c_data c) [] = nth b' (c_data c) []) /\
    (forall t r mask, (1 <= t <= Z.of_nat (n_boots_sel d))%Z ->
       (is_support c t r mask <-> is_support c 1 r mask)).
Proof.
  intros S E RS env d sol seeded tts post Inv n R s0 F G z entropy.
  exact (np_seed env d sol seeded tts post Inv n R s0 F G z entropy).
Qed.
Print Assumptions C71_numpy_seed.

(** A Python int seeds one generator from which all bootstraps are drawn one after
    the other. *)
Theorem C71_python_int : forall RS (seeded : Z -> RS) entropy tts sel z rank sps r',
  drawn (draw_random seeded tts) sel (init_random seeded entropy rank (PyInt z)) sps r' <->
  exists r1, r' = Stateful r1 /\ drawn tts sel (seeded (z + Z.of_nat rank)%Z) sps r1.
Proof. exact @py_seed. Qed.
Print Assumptions C71_python_int.

(** With a Python int the two bootstraps differ, with a numpy integer they do not:
    the threshold 2 then also selects the second feature. *)
Example C71_ex : exists F1 F2,
  fit ex_np ex_dims ex_solver (draw_random Z.to_nat ex_draw) ex_post 1 0 false
      (init_random Z.to_nat 0 0 (PyInt 0)) tt = Done (Ok F1) /\
  fit ex_np ex_dims ex_solver (draw_random Z.to_nat ex_draw) ex_post 1 0 false
      (init_random Z.to_nat 0 0 (NpInt 0)) tt = Done (Ok F2) /\
  option_map s_supports (f_sel F1) = Some (Arr2 2 [[true; false]; [true; true]]) /\
  option_map s_supports (f_sel F2) = Some (Arr2 2 [[true; true]]).
Proof. eexists. eexists. vm_compute. repeat split. Qed.

(** C72.  One coefficient and several regularization parameters: no call to fit
    returns unless there are more ranks than selection bootstraps. *)
Theorem C72_single_coefficient : forall S E Rng env d (sol : nat -> solver S E)
    (draw : bool -> Rng -> result (split * Rng)) post n R s0 F,
  1 <= n_boots_sel d -> (forall i, shapes_ok d (sol i)) ->
  n <= n_boots_sel d -> n_coef d = 1 -> 2 <= n_reg d ->
  ~ returned env d sol draw post n false R s0 F.
Proof.
  intros S E Rng env d sol draw post n R s0 F H1 H2.
  exact (single_coefficient env d sol draw post H1 H2 n R s0 F).
Qed.
Print Assumptions C72_single_coefficient.

Example C72_ex : shapes_ok one_dims one_solver /\
  fit ex_np one_dims one_solver ex_draw ex_post 1 0 false 0 tt = Done (Raise ValueError).
Proof. split; [exact one_shapes|vm_compute; reflexivity]. Qed.

(** C73.  One threshold and one regularization parameter: the only model that fit
    can return is zero. *)
Theorem C73_single_candidate : forall S E Rng env d (sol : nat -> solver S E)
    (draw : bool -> Rng -> result (split * Rng)) post n R s0 F,
  1 <= n_boots_sel d -> (forall i, shapes_ok d (sol i)) ->
  shared d = true -> glm d = false \/ out_dim d = 1 ->
  length (thresholds d) = 1 -> n_reg d = 1 -> 2 <= n_coef d -> 1 <= n_boots_est d ->
  returned env d sol draw post n false R s0 F ->
  exists sel, f_sel F = Some sel /\ s_supports sel = Arr1 [false] /\
    (forall b k, b < n_boots_est d -> k < n_coef d ->
       nonzero64 (at3 (s_estimates sel) b 0 k) = false) /\
    (keeps_zeros post -> forall k, k < n_coef d ->
       nonzero64 (num (nth k (nd_data (f_coef F)) (SFlt fzero))) = false).
Proof.
  intros S E Rng env d sol draw post n R s0 F H1 H2.
  exact (single_candidate env d sol draw post H1 H2 n R s0 F).
Qed.
Print Assumptions C73_single_candidate.

(** A selected feature makes fit fail; a solver that selects nothing meets the
    hypotheses. *)
Example C73_ex :
  let d := mkDims 2 1 2 2 1 [1%Z] true false in
  fit ex_np d ex_solver ex_draw ex_post 1 0 false 0 tt = Done (Raise ValueError) /\
  exists F, fit ex_np d none_solver ex_draw ex_post 1 0 false 0 tt = Done (Ok F) /\
    option_map s_supports (f_sel F) = Some (Arr1 [false]).
Proof. split; [vm_compute; reflexivity|]. eexists. vm_compute. repeat split. Qed.

(** C76.  Every estimate and score comes from its own bootstrap and support; the
    estimation bootstraps are drawn after the selection bootstraps from the same
    generator, with the estimation fraction. *)
Theorem C76_estimates : forall S E Rng env d (sol : nat -> solver S E)
    (draw : bool -> Rng -> result (split * Rng)) post n R s0 F,
  1 <= n_boots_sel d -> (forall i, shapes_ok d (sol i)) ->
  2 <= length (thresholds d) * n_reg d -> 2 <= n_coef d ->
  returned env d sol draw post n false R s0 F ->
  exists sel p rows sps r1 sps2 r2,
    f_sel F = Some sel /\ s_supports sel = Arr2 p rows /\
    drawn draw true (R 0) sps r1 /\ length sps = n_boots_sel d /\ drawn draw false r1 sps2 r2 /\
    forall b j, b < n_boots_est d -> j < length rows ->
      exists i, i < n /\ estimated d (sol i) rows sps2 sel b j.
Proof.
  intros S E Rng env d sol draw post n R s0 F H1 H2.
  exact (estimates_provenance env d sol draw post H1 H2 n R s0 F).
Qed.
Print Assumptions C76_estimates.

(** The lengths are as expected for the example solver. *)
Example C76_ex : forall mask tr e, length mask = 2 -> est_fit ex_solver mask tr = Ok e ->
  length (est_coef ex_solver e) = expected_length ex_dims mask.
Proof.
  intros [|a [|b [|]]] tr e H; try discriminate. intro G. injection G as <-.
  destruct a, b; reflexivity.
Qed.
