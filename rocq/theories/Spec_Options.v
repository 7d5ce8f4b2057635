(** Specification vocabulary for constructor options (C70, C97). *)
From Coq Require Import String List Bool.
From Verif Require Import Prelude Model_Options.
Import ListNotations.
Local Open Scope string_scope.

(** The object that is constructed does not depend on the argument [n]: nothing done
    with the object afterwards can. *)
Definition ignored (c : cls) (n : string) : Prop :=
  forall pycasso a a', (forall m, m <> n -> a m = a' m) ->
    construct pycasso c a = construct pycasso c a'.

(** Arguments that are accepted and ignored. *)
Definition without_effect (c : cls) : list string :=
  match c with
  | UoI_Lasso | UoI_Poisson => ["copy_X"]
  | UoI_NMF => ["db_leaf_size"; "nmf"; "cluster"; "nnreg"; "cons_meth"]
  | _ => []
  end.

(** The classes with UoI in front of a linear model. *)
Definition linear_cls (c : cls) : bool :=
  match c with UoI_Lasso | UoI_ElasticNet | UoI_L1Logistic | UoI_Poisson => true | _ => false end.
Definition nmf_cls (c : cls) : bool :=
  match c with UoI_NMF_Base | UoI_NMF => true | _ => false end.
Definition plain_cls (c : cls) : bool :=
  match c with UoI_CUR | CUR | PoissonGLM => true | _ => false end.

(** [o'] is the object [o] after further attributes, none of them named like a
    parameter of the constructor, have been assigned. *)
Definition used (c : cls) (o o' : obj) : Prop :=
  exists new, o_attrs o' = (new ++ o_attrs o)%list /\
    forall n v, In (n, v) new -> ~ In n (signature c) /\ n <> "__estimation_score".

(** The attributes of a constructed object, as far as they are named like parameters. *)
Definition attribute (c : cls) (a : args) (n : string) : option pyv :=
  let has l := existsb (String.eqb n) l in
  match c with
  | UoI_Lasso =>
      if has ["random_state"] then Some (VRng (a "comm") (a "random_state"))
      else if has ["estimation_target"; "warm_start"; "copy_X"; "logger"] then None
      else if has ["shared_support"] then Some (PBool true) else Some (a n)
  | UoI_ElasticNet =>
      if has ["random_state"] then Some (VRng (a "comm") (a "random_state"))
      else if has ["estimation_target"; "copy_X"; "logger"] then None
      else if has ["shared_support"] then Some (PBool true) else Some (a n)
  | UoI_L1Logistic =>
      if has ["random_state"] then Some (VRng (a "comm") (a "random_state"))
      else if has ["estimation_target"; "warm_start"; "logger"] then None
      else if has ["max_iter"] then Some PNone else Some (a n)
  | UoI_Poisson =>
      if has ["random_state"] then Some (VRng (a "comm") (a "random_state"))
      else if has ["estimation_target"; "copy_X"; "solver"; "logger"] then None
      else if has ["max_iter"; "tol"] then Some PNone
      else if has ["standardize"; "shared_support"] then Some (PBool true) else Some (a n)
  | _ => None
  end.
(** The same for the factorizations.  Without ranks there is no attribute ranks. *)
Definition nmf_attribute (c : cls) (a : args) (n : string) : option pyv :=
  let has l := existsb (String.eqb n) l in
  let own v default := match v with PNone => default | v => v end in
  if has ["n_boots"; "use_dissimilarity"] then Some (a n)
  else if has ["ranks"] then match a "ranks" with PNone => None | v => Some v end
  else if has ["nmf"; "cluster"; "nnreg"; "cons_meth"] then
    match c with
    | UoI_NMF_Base => Some (own (a n) (VDefault "nmf" n))
    | _ => Some (if has ["nnreg"] then VDefault "nmf" n
                 else if has ["cons_meth"] then VDefault "numpy" "mean" else VDefault "UoI_NMF" n)
    end
  else None.
Definition of_option (v : option pyv) : result pyv :=
  match v with Some v => Ok v | None => Raise AttributeError end.

(** Arguments with one value changed, and with some changed in turn. *)
Definition change (n : string) (v : pyv) (a : args) : args := fun m => if m =? n then v else a m.
Fixpoint updated (kwargs : attrs) (a : args) : args :=
  match kwargs with [] => a | (k, v) :: r => updated r (change k v a) end.
