(** PycLasso: C68. *)
From Coq Require Import String List Bool Arith Reals Lia Lra.
From Verif Require Import Prelude F64 Num Spec_Rescale Model_Pyc Spec_Pyc Proofs_Pyc Proofs_PycReal.
Import ListNotations.

(** C68: before the first successful fit, predict raises NotFittedError; afterwards it
    uses the solution of the last successful fit, whatever was called since. *)
Theorem C68_predict : forall (N : NumOps) V (is_None is_False : V -> bool) pycasso a fi mi t
    (o : pyc N V) h X, pyc_init is_False a fi mi t = Ok o ->
  (predict X (pyc_after is_None is_False pycasso o h) = Raise NotFittedError
   <-> never_fitted is_None is_False pycasso o h).
Proof.
  intros N V is_None is_False pycasso a fi mi t o h X I.
  destruct (predict_history is_None is_False pycasso a fi mi t o h X I) as [(A & B)|(c & ic & L & E)].
  - now split.
  - split; intro H.
    + rewrite E in H. destruct (forallb _ X); discriminate.
    + exfalso. destruct L as (h1 & X' & y & h2 & Eh & Hs & _). exact (H _ _ _ _ _ Eh Hs).
Qed.
Print Assumptions C68_predict.

Theorem C68_value : forall V (is_None is_False : V -> bool) pycasso a fi mi t
    (o : pyc Rnum V) h X coef ic p,
  pyc_init is_False a fi mi t = Ok o ->
  last_fit is_None is_False pycasso o h (coef, ic) ->
  Forall (fun x : list R => length x = p) X -> Forall (fun c : list R => length c = p) coef ->
  length ic = length coef ->
  exists Y : list (list R), predict X (pyc_after is_None is_False pycasso o h) = Ok Y /\ length Y = length X /\
    forall i k, i < length X -> k < length coef ->
      entry (nth i Y []) k
      = (Sum p (fun j => entry (nth i X []) j * entry (nth k coef []) j) + entry ic k)%R.
Proof. intros V. exact (@predict_value V). Qed.
Print Assumptions C68_value.

(** When fit returns, and what it raises otherwise.  A failed fit changes nothing: an
    earlier solution stays in use. *)
Theorem C68_fit : forall (N : NumOps) V (is_None is_False : V -> bool) pycasso (o : pyc N V) X y,
  snd (pyc_fit is_None is_False pycasso X y o)
  = (if is_None (alphas o) then Raise OtherError
     else if is_False (fit_intercept o) then Raise ValueError
     else match pycasso with
          | None => Raise AttributeError
          | Some f => rmap (fun _ => tt) (f X y (fit_intercept o) (alphas o) (max_iter o) (tol o))
          end) /\
  (forall e, snd (pyc_fit is_None is_False pycasso X y o) = Raise e ->
     fst (pyc_fit is_None is_False pycasso X y o) = o).
Proof.
  intros N V is_None is_False pycasso o X y. split; [apply fit_result|apply fit_failed].
Qed.
Print Assumptions C68_fit.

(** The constructor rejects fit_intercept=False, and otherwise keeps the arguments. *)
Theorem C68_construction : forall (N : NumOps) V (is_False : V -> bool) a fi mi t,
  if is_False fi then @pyc_init N V is_False a fi mi t = Raise ValueError
  else exists o : pyc N V, pyc_init is_False a fi mi t = Ok o /\ isfitted o = false /\
    alphas o = a /\ fit_intercept o = fi /\ max_iter o = mi /\ tol o = t.
Proof.
  intros N V is_False a fi mi t. unfold pyc_init. destruct (is_False fi); [reflexivity|].
  eexists. split; [reflexivity|]. now repeat split.
Qed.
Print Assumptions C68_construction.

(** set_params assigns alphas, fit_intercept and max_iter (even fit_intercept=False,
    which the constructor rejects).  Any other name, tol included, raises ValueError,
    but the names before it have been assigned. *)
Theorem C68_set_params : forall (N : NumOps) V (o : pyc N V) kw,
  Forall (fun kv => settable (fst kv)) kw ->
  set_params kw o
  = (mkPyc (given "max_iter" kw (max_iter o)) (tol o) (given "fit_intercept" kw (fit_intercept o))
       (given "alphas" kw (alphas o)) (isfitted o) (solution o), Ok tt).
Proof. intros N V o kw. apply set_known. Qed.
Print Assumptions C68_set_params.

Theorem C68_unknown_name : forall (N : NumOps) V (o : pyc N V) kw1 k v kw2,
  Forall (fun kv => settable (fst kv)) kw1 -> ~ settable k ->
  set_params (kw1 ++ (k, v) :: kw2) o = (fst (set_params kw1 o), Raise ValueError).
Proof. intros N V o kw1 k v kw2. apply set_unknown. Qed.
Print Assumptions C68_unknown_name.

(** In UoI_Lasso(solver='pyc') the coefficients found on a bootstrap do not depend on the
    bootstraps before it, with or without the reset between them. *)
Theorem C68_sweep_forgets : forall (N : NumOps) V (is_None is_False : V -> bool) pycasso between
    fs path X y (o : pyc N V),
  between = pyc_reset \/ between = (fun o => o) ->
  snd (pyc_sweep is_None is_False pycasso path X y
    (fold_left (fun o f => between (fst (pyc_sweep is_None is_False pycasso (snd f) (fst (fst f)) (snd (fst f)) o))) fs o))
  = snd (pyc_sweep is_None is_False pycasso path X y o).
Proof.
  intros N V is_None is_False pycasso between fs path X y o H. apply sweeps_forget.
  intro a. destruct H as [-> | ->]; now repeat split.
Qed.
Print Assumptions C68_sweep_forgets.

(** The reset between bootstraps changes nothing but the coefficients: an object that
    was fitted can still predict. *)
Theorem C68_reset : forall (N : NumOps) V (o : pyc N V),
  let o' := pyc_reset o in
  isfitted o' = isfitted o /\ alphas o' = alphas o /\ fit_intercept o' = fit_intercept o /\
  max_iter o' = max_iter o /\ tol o' = tol o /\
  (solution o' = None <-> solution o = None) /\
  forall X, is_ok (predict X o') = is_ok (predict X o).
Proof. exact reset_keeps. Qed.
Print Assumptions C68_reset.

(** [option bool] for the parameters: None, Some false for False. *)
Example C68_ex :
  let isN := fun v : option bool => match v with None => true | _ => false end in
  let isF := fun v : option bool => match v with Some false => true | _ => false end in
  let lib : option (list (list f64) -> list f64 -> option bool -> option bool -> option bool ->
                    option bool -> result (list (list f64) * list f64)) :=
    Some (fun X y _ _ _ _ => Ok ([[ftwo]], [fone])) in
  let N := Fnum (fun x => x) (fun x => x) in
  exists o : pyc N (option bool), pyc_init isF None (Some true) None None = Ok o /\
  let after := pyc_after (N := N) isN isF lib o in
  predict (N := N) [[fone]] (after [PFit (N := N) [] []]) = Raise NotFittedError /\
  predict (N := N) [[fone]] (after [PSet [("alphas"%string, Some true)]; PFit (N := N) [] [];
                            PSet [("fit_intercept"%string, Some false)]; PFit (N := N) [] []])
    = Ok [[fadd ftwo fone]] /\
  set_params [("max_iter"%string, Some true); ("tol"%string, None)] o
    = (mkPyc (Some true) None (Some true) None false None, Raise ValueError).
Proof.
  cbv zeta. eexists. split; [reflexivity|]. split; [reflexivity|]. split; [vm_compute; reflexivity|].
  reflexivity.
Qed.
Example C68_fitted_ex :
  let isN := fun v : option bool => match v with None => true | _ => false end in
  let isF := fun v : option bool => match v with Some false => true | _ => false end in
  let lib : option (list (list R) -> list R -> option bool -> option bool -> option bool ->
                    option bool -> result (list (list R) * list R)) :=
    Some (fun X y _ _ _ _ => Ok ([[2%R]], [1%R])) in
  let o : pyc Rnum (option bool) := mkPyc None None (Some true) None false None in
  last_fit (N := Rnum) isN isF lib o
    [PSet [("alphas"%string, Some true)]; PFit (N := Rnum) [] []; PPredict (N := Rnum) []] ([[2%R]], [1%R]).
Proof.
  cbv zeta. exists [PSet [("alphas"%string, Some true)]], [], [], [PPredict (N := Rnum) []].
  split; [reflexivity|]. split.
  - repeat split. eexists. split; reflexivity.
  - intros g1 X y g2 H. destruct g1 as [|c [|c' g1]]; discriminate.
Qed.
