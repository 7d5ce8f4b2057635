(** The 'lbfgs' solver of Poisson.fit with the modelled optimizer,
    src/pyuoi/linear_model/poisson.py:98-128. *)
From Coq Require Import String ZArith List Bool Arith.
From Verif Require Import Prelude Num Model_Poisson Model_Lbfgs.
Import ListNotations.

Section PoissonFit.
  Context {N : NumOps}.

  (** func, lines 113-117: g[:] = grad. *)
  Definition poisson_objective {St} (f : list N -> N * list N) : objective N St := fun st x g =>
    let r := f x in (st, (x, snd r, Value (fst r))).

  (** Lines 122-128: the keyword arguments, the others by default. *)
  Definition poisson_options (tol : N) (max_iter : nat) (l1 : N) (p : nat) : options N :=
    let d := default_options l1 "default" in
    mkOptions (o_c d) (o_start d) (Z.of_nat p) (o_m d) tol (o_past d) (o_delta d) (Z.of_nat max_iter)
      (o_line_search d) (o_max_linesearch d) (o_min_step d) (o_max_step d) (o_ftol d) (o_wolfe d) (o_gtol d) (o_xtol d).

  (** fmin_lbfgs as Poisson.fit calls it.  [werror]: Python's warning filter turns warnings
      (_lowlevel.pyx:410-413) into exceptions.  OtherError stands for these and for a run
      that is not over when the fuel is used up. *)
  Definition lbfgs_opt (werror : bool) (tol : N) (max_iter fuel lsfuel : nat) : optimizer := fun f w0 l1 p =>
    match fmin_lbfgs (poisson_options tol max_iter l1 p) (poisson_objective f) None fuel lsfuel tt w0 with
    | Some (_, Returned w None) => Ok w
    | Some (_, Returned w (Some _)) => if werror then Raise OtherError else Ok w
    | Some (_, Raises e) => Raise e
    | Some (_, Crash) | None => Raise OtherError
    end.
End PoissonFit.
