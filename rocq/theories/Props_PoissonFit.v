(** Poisson with its 'lbfgs' solver (C92) and the reset between bootstraps (C27). *)
From Coq Require Import List Bool Arith Lia Reals Lra.
From Verif Require Import Prelude F64 Num Model_Lbfgs Spec_Rescale Spec_Poisson Spec_Lbfgs Model_Poisson Model_PoissonFit
  Proofs_PoissonReset Proofs_PoissonGap Proofs_PoissonNan Proofs_LogisticFitEx Proofs_PoissonFitEx.
Import ListNotations.

(** C27: in exact arithmetic an object that was reset fits like a new one, whatever was
    fitted before and for every solver. *)
Theorem C27_reset_like_new : forall sv opt p,
  (forall (f : list R -> R * list R) (w0 : list R) l1 k w, (forall v, length v = length w0 -> length (snd (f v)) = length v) ->
     opt f w0 l1 k = Ok w -> length (w : list R) = length w0) ->
  forall h1 h2 c X y sw,
  let a := poisson_fit (N := Rnum) c sv opt p X y sw (calls sv opt p (h1 ++ CallReset :: h2) fresh_poisson) in
  let b := poisson_fit (N := Rnum) c sv opt p X y sw (calls sv opt p h2 fresh_poisson) in
  snd a = snd b /\
  (snd a = Ok tt -> coef_ (fst a) = coef_ (fst b) /\ (fit_intercept c = true -> intercept_ (fst a) = intercept_ (fst b))).
Proof. exact reset_like_new. Qed.
Print Assumptions C27_reset_like_new.

(** fmin_lbfgs meets the condition. *)
Example C27_reset_ex : forall werror tol mi fuel lsfuel (f : list R -> R * list R) (w0 : list R) l1 k w,
  (forall v, length v = length w0 -> length (snd (f v)) = length v) ->
  lbfgs_opt (N := Rnum) werror tol mi fuel lsfuel f w0 l1 k = Ok w -> length (w : list R) = length w0.
Proof. exact lbfgs_opt_sized. Qed.

(** C27: in floating point, after one bootstrap whose training counts are all zero the
    reset leaves a NaN intercept, and from then on every fit with another response
    returns zero coefficients and NaN, whatever its data. *)
Theorem C27_contaminated : forall exp64 ln64 p tol max_iter fuel lsfuel pre c0 X0 n sw0 (h : list (call (N := Fnum exp64 ln64))) o,
  exp64 fnan = fnan -> fltb tol fzero = false -> 1 <= fuel -> 20 <= lsfuel ->
  Forall (fun k : call (N := Fnum exp64 ln64) => match k with
    | CallFit c X y sw => warm_start c = true /\ fit_intercept c = true /\ standardize c = false /\
        fltb fzero (fmul (alpha c) (l1_ratio c)) = true /\
        (exists n, length X = S n /\ length y = S n /\ match sw with Some s => length s = S n | None => True end) /\
        constant_response (N := Fnum exp64 ln64) y = false
    | CallReset => True end) h ->
  let o' := calls (N := Fnum exp64 ln64) Lbfgs (lbfgs_opt (N := Fnum exp64 ln64) false tol max_iter fuel lsfuel) p
    (pre ++ CallFit (N := Fnum exp64 ln64) c0 X0 (repeat fzero (S n)) sw0 :: CallReset :: h) o in
  exists v : list f64, coef_ o' = Some v /\ length v = p /\ Forall (fun a => feqb a fzero = true) v /\ intercept_ o' = Some fnan.
Proof.
  intros exp64 ln64 p tol max_iter fuel lsfuel pre c0 X0 n sw0 h o He Ht Hf Hl Hh.
  exact (zero_counts_contaminate exp64 ln64 He p tol max_iter fuel lsfuel Ht Hf Hl pre c0 X0 n sw0 h o Hh).
Qed.
Print Assumptions C27_contaminated.

(** The second bootstrap has the same data as a fit that selects the feature. *)
Example C27_contaminated_ex :
  calls Lbfgs dirty_opt 1 [CallFit dirty_cfg [[z64 2]; [z64 1]] [fzero; fzero] None; CallReset; dirty_fit] fresh_poisson
    = mkPoisson (N := EN) (Some [fzero]) (Some fnan).
Proof. vm_cast_no_check (eq_refl (mkPoisson (N := EN) (Some [fzero]) (Some fnan))). Qed.
Example C27_clean_ex : selects (calls Lbfgs dirty_opt 1 [dirty_fit] fresh_poisson) = true.
Proof. vm_cast_no_check (eq_refl true). Qed.

(** C92: if fmin_lbfgs emits no warning, the documented objective is within
    tol * max(1, |w|) * |w - w'| of its value at any other point w'. *)
Theorem C92_lbfgs_gap : forall n p X (y : list R) sw (c : config Rnum) fuel lsfuel o o',
  matrix n p X -> (0 < n)%nat -> length y = n -> match sw with Some s => length s = n | None => True end ->
  (forall i, (i < n)%nat -> (0 <= entry (sample_weights n sw) i)%R) -> (0 <= alpha c * (1 - l1_ratio c))%R ->
  match coef_ o with Some v => length (v : list R) = p | None => True end ->
  standardize c = false -> constant_response (N := Rnum) y = false ->
  poisson_fit (N := Rnum) c Lbfgs (lbfgs_opt (N := Rnum) true (tol c) (max_iter c) fuel lsfuel) p X y sw o = (o', Ok tt) ->
  exists v : list R, coef_ o' = Some v /\ length v = p /\
    let b : R := if fit_intercept c then match intercept_ o' with Some b => b | None => 0%R end else 0%R in
    forall (c' : list R) (b' : R), length c' = p -> (fit_intercept c = false -> b' = 0%R) ->
    (objective n p X y (sample_weights n sw) (alpha c) (l1_ratio c) v b
      - objective n p X y (sample_weights n sw) (alpha c) (l1_ratio c) c' b'
     <= tol c * Rmax 1 (norm (S p) (v ++ [b])) * distance (S p) (v ++ [b]) (c' ++ [b']))%R.
Proof. exact fit_gap. Qed.
Print Assumptions C92_lbfgs_gap.

(** A nonzero coefficient, ln 2. *)
Example C92_ex : matrix 2 1 warm_X /\ constant_response (N := Rnum) warm_y = false /\
  poisson_fit (N := Rnum) warm_cfg Lbfgs (lbfgs_opt (N := Rnum) true (tol warm_cfg) (max_iter warm_cfg) 9 9) 1 warm_X warm_y None warm_obj
  = (warm_obj, Ok tt).
Proof. split; [split; [reflexivity|repeat constructor]|]. split; [exact warm_constant|exact warm_ok]. Qed.

(** A run with max_iter > 0 ends by itself, after at most 20 evaluations of the loss for
    each of at most max_iter iterations. *)
Theorem C92_max_iter : forall (N : NumOps) (f : list N -> N * list N) w0 tol mi l1 p fuel lsfuel,
  (0 < mi)%nat -> (mi <= fuel)%nat -> (20 <= lsfuel)%nat ->
  exists calls reports out,
    fmin_lbfgs (poisson_options tol mi l1 p) (count_calls (poisson_objective f)) None fuel lsfuel (tt, (0%nat, 0%nat)) w0
      = Some ((tt, (calls, reports)), out) /\
    fmin_lbfgs (poisson_options tol mi l1 p) (poisson_objective f) None fuel lsfuel tt w0 = Some (tt, out) /\
    (calls <= 1 + 20 * mi)%nat.
Proof. intros. apply poisson_calls; assumption. Qed.
Print Assumptions C92_max_iter.

(** x^4 from 3 with max_iter = 2: three evaluations, then the warning. *)
Example C92_max_iter_ex :
  let id (x : f64) := x in let N := Fnum id id in
  let f (x : list N) : N * list N := let u := nth 0 x fzero in let s := fmul u u in (fmul s s, [fmul (f64_of_Z 4) (fmul u s)]) in
  option_map (fun r => (fst r, match snd r with Returned _ w => w | _ => None end))
    (fmin_lbfgs (N := N) (poisson_options (N := N) fzero 2 fzero 1) (count_calls (poisson_objective (N := N) f)) None 2 20
      (tt, (0, 0)%nat) [f64_of_Z 3])
  = Some ((tt, (3, 0)%nat), Some LBFGSERR_MAXIMUMITERATION).
Proof. cbv zeta. vm_cast_no_check (eq_refl (Some ((tt, (3, 0)%nat), Some LBFGSERR_MAXIMUMITERATION))). Qed.
