(** Model of MaskedCoefLogisticRegression.fit and _logistic_regression_path,
    src/pyuoi/linear_model/logistic.py:344-436 and 461-741, for one value of C (fit passes
    no more).

    Labels are the codes 0, 1, ... of the LabelEncoder; [sw] are the sample weights after
    multiplication with the class weights.  Left out: standardization (Model_Rescale),
    validation of C, tol and max_iter, sparse X, the array n_iter_, C = 0 (1. / C raises
    for a Python float).  scipy's fmin_l_bfgs_b is a parameter. *)
From Coq Require Import String ZArith List Bool Arith.
From Verif Require Import Prelude Num Model_Mpi Model_Poisson Model_Logistic Model_Lbfgs.
Import ListNotations.

Section Path.
  Context {N : NumOps}.

  (** np.array_equiv(x, 0.) *)
  Definition all_zero (x : list N) : bool := forallb (fun v => neqb v nzero) x.

  (** zero_coef, lines 696-709, with its counter zeros_seen as state.  x[:-1] (binary,
      [k] = 1) or x.reshape(-1, k)[:-1]: the last [k] entries are left out, whether they
      are intercepts or not. *)
  Definition zero_coef (k : nat) : observer N nat := fun seen q =>
    let x := firstn (length (r_x q) - k) (r_x q) in
    let seen := if all_zero x then S seen else O in
    (seen, if Nat.ltb 1 seen then Code LBFGS_ALLZERO else NoReply).

  (** Lines 711-717: the keyword arguments, the others by default. *)
  Definition l1_options (C tol : N) (max_iter : Z) (size : nat) : options N :=
    let d := default_options (ndiv none C) "default" in
    mkOptions (o_c d) (o_start d) (Z.of_nat size) (o_m d) tol (o_past d) (o_delta d) max_iter
      (o_line_search d) (o_max_linesearch d) (o_min_step d) (o_max_step d) (o_ftol d) (o_wolfe d) (o_gtol d) (o_xtol d).

  (** Lines 710-719: the optimizer and the handler of AllZeroLBFGSError, w0 *= 0. *)
  Definition l1_solve (k size : nat) (C tol : N) (max_iter : Z) (f : objective N nat)
      (fuel lsfuel : nat) (w0 : list N) : option (outcome N) :=
    match fmin_lbfgs (l1_options C tol max_iter size) f (Some (zero_coef k)) fuel lsfuel O w0 with
    | None => None
    | Some (_, Raises AllZeroLBFGSError) => Some (Returned (map (fun v => nmul v nzero) w0) None)
    | Some (_, out) => Some out
    end.

  (** func of the L1 branch, binary, lines 659-662: the loss masks the optimizer's array in
      place. *)
  Definition binary_objective {St} (p : nat) (X : list (list N)) (y : list N) (mask : option (list N)) (sw : list N)
    : objective N St := fun st x g =>
    let r := logistic_loss_and_grad p X y nzero mask (Some sw) x in
    (st, (fst r, snd (snd r), Value (fst (snd r)))).

  (** a.reshape(rows, cols).T.ravel() *)
  Definition transposed (rows cols : nat) (a : list N) : list N :=
    concat (map (fun c => map (fun r => nth (r * cols + c) a nzero) (seq 0 rows)) (seq 0 cols)).

  (** func of the L1 branch, several classes, lines 632-642; [q] entries per class.
      x.reshape(-1, k).T.ravel() is a copy if q > 1.  For q = 1 (one feature, no intercept)
      numpy returns a view and the loss masks the optimizer's array in place. *)
  Definition multi_objective {St} (k p q : nat) (X Y : list (list N)) (mask : option (list (list N))) (sw : list N)
    : objective N St := fun st x g =>
    let r := multinomial_loss_grad k p X Y nzero mask sw (transposed q k x) in
    let x' := match mask with
              | Some m => if Nat.eqb q 1 then map2 nmul x (concat m) else x
              | None => x
              end in
    (st, (x', transposed k q (snd r), Value (fst r))).

  (** np.nonzero of the flat mask; a[idx] and a[idx] = v. *)
  Definition nonzero_positions (m : list N) : list nat :=
    filter (fun i => nnonzero (nth i m nzero)) (seq 0 (length m)).
  Definition gather (idx : list nat) (a : list N) : list N := map (fun i => nth i a nzero) idx.
  Definition scatter (idx : list nat) (v a : list N) : list N :=
    fold_left (fun a iv => lset (fst iv) (snd iv) a) (combine idx v) a.

  (** The L2 branch, lines 616-630, 645-657 and 670-693: [opt] is scipy's
      fmin_l_bfgs_b(func, w0), [f] the loss without mask, [full] the mask with ones for the
      intercepts. *)
  Definition l2_solve (opt : (list N -> N * list N) -> list N -> list N) (f : list N -> N * list N)
      (full : option (list N)) (w0 : list N) : list N :=
    match full with
    | None => opt f w0
    | Some m =>
      let idx := nonzero_positions m in
      let zeros := map (fun _ => nzero) w0 in
      let wp := opt (fun x => let r := f (scatter idx x zeros) in (fst r, gather idx (snd r))) (gather idx w0) in
      scatter idx wp zeros
    end.

  (** What fit leaves behind: coef_ (one row per class, one row if binary), intercept_ and
      the code of the optimizer's warning; or an exception. *)
  Inductive fitted := Fitted (coef : list (list N)) (intercept : list N) (warning : option Z)
  | FitRaises (e : exn) | FitCrash.

  (** Lines 425-432: split rows of length p or p + 1. *)
  Definition split_rows (has : bool) (p : nat) (rows : list (list N)) (w : option Z) : fitted :=
    if has then Fitted (map (firstn p) rows) (map (fun r => nth p r nzero) rows) w
    else Fitted rows (map (fun _ => nzero) rows) w.

  (** Line 667: coef_mask is None or coef_mask.sum() *)
  Definition to_optimize (mask : option (list N)) : bool :=
    match mask with Some m => nnonzero (nsum m) | None => true end.

  (** Lines 569-571, 595-602, 606-609. *)
  Definition binary_start (has : bool) (p : nat) (mask coef : option (list N)) : result (list N) :=
    let w0 := repeat nzero (p + if has then 1 else 0) in
    match coef with
    | None => Ok (apply_mask p mask w0)
    | Some c =>
      if Nat.eqb (length c) p || Nat.eqb (length c) (length w0)
      then Ok (apply_mask p mask (c ++ skipn (length c) w0)) else Raise ValueError
    end.

  (** Lines 590-593, 603-604, 606-611; the rows of w0.  Without an intercept the last feature gets
      the intercepts of the null model. *)
  Definition multi_start (has : bool) (k p : nat) (mask coef : option (list (list N))) (y : list nat)
    : list (list N) :=
    let q := p + if has then 1 else 0 in
    let b := multi_intercept k y in
    let rows := map (fun c => repeat nzero (q - 1) ++ [nth c b nzero]) (seq 0 k) in
    let rows := match coef with
                | Some m => map2 (fun c r => c ++ skipn (length c) r) m rows
                | None => rows
                end in
    match mask with
    | Some m => map2 (fun mr r => map2 nmul (firstn p r) mr ++ skipn p r) m rows
    | None => rows
    end.

  (** Lines 573-575. *)
  Definition label_signs (y : list nat) : list N := map (fun v => if Nat.eqb v 1 then none else nopp none) y.

  (** Two classes, multi_class 'auto', lines 415-434 and 461-741. *)
  Definition fit_binary (l2 has : bool) (p : nat) (C tol : N) (max_iter : Z) (X : list (list N)) (y : list nat)
      (sw : list N) (mask coef : option (list N)) (opt : (list N -> N * list N) -> list N -> list N)
      (fuel lsfuel : nat) : option fitted :=
    let s := label_signs y in
    match binary_start has p mask coef with
    | Raise e => Some (FitRaises e)
    | Ok w0 =>
      if negb (to_optimize mask) then Some (split_rows has p [w0] None)
      else if l2 then
        let full := option_map (fun m => m ++ if has then [none] else []) mask in
        let f w := snd (logistic_loss_and_grad p X s (ndiv none C) None (Some sw) w) in
        Some (split_rows has p [l2_solve opt f full w0] None)
      else match l1_solve 1 p C tol max_iter (binary_objective p X s mask sw) fuel lsfuel w0 with
           | None => None
           | Some (Returned w c) => Some (split_rows has p [w] c)
           | Some (Raises e) => Some (FitRaises e)
           | Some Crash => Some FitCrash
           end
    end.

  (** [k] classes, lines 415-434 and 461-741; the reshapes at lines 733-738. *)
  Definition fit_multi (l2 has : bool) (k p : nat) (C tol : N) (max_iter : Z) (X : list (list N)) (y : list nat)
      (sw : list N) (mask coef : option (list (list N))) (opt : (list N -> N * list N) -> list N -> list N)
      (fuel lsfuel : nat) : option fitted :=
    let q := p + if has then 1 else 0 in
    let Y := one_hot k y in
    let w0 := concat (multi_start has k p mask coef y) in
    let flat := option_map (@concat N) mask in
    if l2 then
      let w := if to_optimize flat then
                 let full := option_map (fun m => concat (map (fun r => r ++ if has then [none] else []) m)) mask in
                 l2_solve opt (multinomial_loss_grad k p X Y (ndiv none C) None sw) full w0
               else w0 in
      Some (split_rows has p (chunks q k w) None)
    else
      let w0 := transposed k q w0 in
      if to_optimize flat then
        match l1_solve k (k * p) C tol max_iter (multi_objective k p q X Y mask sw) fuel lsfuel w0 with
        | None => None
        | Some (Returned w c) => Some (split_rows has p (chunks q k (transposed q k w)) c)
        | Some (Raises e) => Some (FitRaises e)
        | Some Crash => Some FitCrash
        end
      else Some (split_rows has p (chunks q k (transposed q k w0)) None).
End Path.
Arguments fitted : clear implicits.
