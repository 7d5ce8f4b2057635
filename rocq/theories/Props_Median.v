(** Property theorems for the aggregation of the bootstrap estimates (C103). *)
From Coq Require Import ZArith List Bool Arith Lia Floats.SpecFloat.
From Verif Require Import Prelude F64 Model_Mpi Spec_Mpi Model_Fit Spec_Fit Proofs_FitFind
  Spec_Median Proofs_Median.
Import ListNotations.

(** C103.  Estimates in the minority, however wild (infinities included), do not
    move a coefficient out of an interval that holds more than half of them. *)
Theorem C103_majority : forall S E Rng env d (sol : nat -> solver S E)
    (draw : bool -> Rng -> result (split * Rng)) post n R s0 F,
  1 <= n_boots_sel d -> (forall i, shapes_ok d (sol i)) ->
  returned env d sol draw post n false R s0 F ->
  exists sel coef ic, f_sel F = Some sel /\ length coef = n_coef d /\
    post (nd_of_floats [out_dim d; n_feat d] coef) ic = Ok (f_coef F, f_intercept F) /\
    forall k lo hi, k < n_coef d ->
      (forall x, In x (winners d sel k) -> valid64 x = true /\ is_nan64 x = false) ->
      valid64 lo = true -> valid64 hi = true -> doubles lo -> doubles hi ->
      n_boots_est d < 2 * howmany (within lo hi) (winners d sel k) ->
      within lo hi (nth k coef fzero) = true.
Proof.
  intros S E Rng env d sol draw post n R s0 F H1 H2.
  exact (majority env d sol draw post H1 H2 n R s0 F).
Qed.
Print Assumptions C103_majority.

(** Three bootstraps with estimates 1, inf and 2 of the first coefficient. *)
Definition one_wild (r : nat) : f64 := if r =? 3 then finf else if r =? 2 then fone else ftwo.
Example C103_majority_ex : exists sel,
  f_sel (med_fit 3 one_wild) = Some sel /\
  fit ex_np (med_dims 3) (med_solver one_wild) ex_draw ex_post 1 0 false 0 tt = Done (Ok (med_fit 3 one_wild)) /\
  winners (med_dims 3) sel 0 = [fone; finf; ftwo] /\
  howmany (within fone ftwo) (winners (med_dims 3) sel 0) = 2 /\ doubles fone /\ doubles ftwo /\
  nd_data (f_coef (med_fit 3 one_wild)) = [SFlt ftwo; SFlt ftwo].
Proof. eexists. split; [vm_compute; reflexivity|]. vm_compute. repeat split. Qed.

(** Half of the estimates do not suffice: with 1, 1, inf, inf the coefficient is inf. *)
Definition two_wild (r : nat) : f64 := if r <=? 3 then fone else finf.
Example C103_half_ex : exists sel,
  f_sel (med_fit 4 two_wild) = Some sel /\
  winners (med_dims 4) sel 0 = [fone; fone; finf; finf] /\
  nd_data (f_coef (med_fit 4 two_wild)) = [SFlt finf; SFlt finf].
Proof. eexists. split; [vm_compute; reflexivity|]. vm_compute. repeat split. Qed.

(** The sign of a coefficient is the sign of at least half of the estimates. *)
Theorem C103_signs : forall S E Rng env d (sol : nat -> solver S E)
    (draw : bool -> Rng -> result (split * Rng)) post n R s0 F,
  1 <= n_boots_sel d -> (forall i, shapes_ok d (sol i)) ->
  returned env d sol draw post n false R s0 F ->
  exists sel coef ic, f_sel F = Some sel /\ length coef = n_coef d /\
    post (nd_of_floats [out_dim d; n_feat d] coef) ic = Ok (f_coef F, f_intercept F) /\
    forall k, k < n_coef d -> (forall x, In x (winners d sel k) -> valid64 x = true) ->
      (fltb fzero (nth k coef fzero) = true ->
       n_boots_est d <= 2 * howmany (fltb fzero) (winners d sel k)) /\
      (fltb (nth k coef fzero) fzero = true ->
       n_boots_est d <= 2 * howmany (fun x => fltb x fzero) (winners d sel k)).
Proof.
  intros S E Rng env d sol draw post n R s0 F H1 H2.
  exact (signs env d sol draw post H1 H2 n R s0 F).
Qed.
Print Assumptions C103_signs.

(** Estimates -1, 2, 2: the coefficient is 2 and two of the three are positive. *)
Definition one_negative (r : nat) : f64 := if r =? 2 then f64_of_Z (-1) else ftwo.
Example C103_signs_ex : exists sel,
  f_sel (med_fit 3 one_negative) = Some sel /\
  winners (med_dims 3) sel 0 = [f64_of_Z (-1); ftwo; ftwo] /\
  howmany (fltb fzero) (winners (med_dims 3) sel 0) = 2 /\
  nd_data (f_coef (med_fit 3 one_negative)) = [SFlt ftwo; SFlt ftwo].
Proof. eexists. split; [vm_compute; reflexivity|]. vm_compute. repeat split. Qed.

(** One NaN among the estimates of a coefficient makes the coefficient NaN. *)
Theorem C103_nan_estimate : forall S E Rng env d (sol : nat -> solver S E)
    (draw : bool -> Rng -> result (split * Rng)) post n R s0 F,
  1 <= n_boots_sel d -> (forall i, shapes_ok d (sol i)) ->
  returned env d sol draw post n false R s0 F ->
  exists sel coef ic, f_sel F = Some sel /\ length coef = n_coef d /\
    post (nd_of_floats [out_dim d; n_feat d] coef) ic = Ok (f_coef F, f_intercept F) /\
    forall k x, k < n_coef d -> In x (winners d sel k) -> is_nan64 x = true ->
      is_nan64 (nth k coef fzero) = true.
Proof.
  intros S E Rng env d sol draw post n R s0 F H1 H2.
  exact (nan_estimate env d sol draw post H1 H2 n R s0 F).
Qed.
Print Assumptions C103_nan_estimate.

Definition one_nan (r : nat) : f64 := if r =? 2 then fnan else ftwo.
Example C103_nan_ex : exists sel,
  f_sel (med_fit 3 one_nan) = Some sel /\
  winners (med_dims 3) sel 0 = [fnan; ftwo; ftwo] /\
  nd_data (f_coef (med_fit 3 one_nan)) = [SFlt fnan; SFlt fnan].
Proof. eexists. split; [vm_compute; reflexivity|]. vm_compute. repeat split. Qed.

(** If all bootstraps agree on [x], the coefficient is [x] for an odd number of
    bootstraps; for an even number it is infinite when [x + x] overflows. *)
Theorem C103_agreement : forall S E Rng env d (sol : nat -> solver S E)
    (draw : bool -> Rng -> result (split * Rng)) post n R s0 F,
  1 <= n_boots_sel d -> (forall i, shapes_ok d (sol i)) ->
  returned env d sol draw post n false R s0 F ->
  exists sel coef ic, f_sel F = Some sel /\ length coef = n_coef d /\
    post (nd_of_floats [out_dim d; n_feat d] coef) ic = Ok (f_coef F, f_intercept F) /\
    forall k x, k < n_coef d -> 1 <= n_boots_est d -> is_finite64 x = true ->
      (forall y, In y (winners d sel k) -> y = x) ->
      (Nat.Odd (n_boots_est d) -> nth k coef fzero = x) /\
      (Nat.Even (n_boots_est d) -> ~ doubles x ->
       is_nan64 (nth k coef fzero) = false /\ is_finite64 (nth k coef fzero) = false).
Proof.
  intros S E Rng env d sol draw post n R s0 F H1 H2.
  exact (overflow env d sol draw post H1 H2 n R s0 F).
Qed.
Print Assumptions C103_agreement.

(** 2^1023 from both bootstraps gives an infinite coefficient. *)
Definition huge (r : nat) : f64 := S754_finite false 4503599627370496 971.
Example C103_agreement_ex : exists sel,
  f_sel (med_fit 2 huge) = Some sel /\
  winners (med_dims 2) sel 0 = [huge 0; huge 0] /\ valid64 (huge 0) = true /\ ~ doubles (huge 0) /\
  nd_data (f_coef (med_fit 2 huge)) = [SFlt finf; SFlt finf].
Proof. eexists. split; [vm_compute; reflexivity|]. vm_compute. repeat split. discriminate. Qed.
