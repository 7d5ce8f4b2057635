(** Model of an estimator object over a history of [fit] calls: the cached
    regularization path ([self.lambdas], [self.Cs]) and the fitted attributes.
    [D]: what one call is given (X, y and the current parameters); [L]: a penalty
    value.  The body of [fit] is a parameter [run]; a call that raises keeps the
    previous fitted attributes (in the code some of them may already have been
    replaced). *)
From Coq Require Import ZArith List Bool Arith.
From Verif Require Import Prelude.
Import ListNotations.

Section Refit.
  Context {D L A St : Type}.

  (** [dict(alpha=...)], [dict(alpha=..., l1_ratio=...)] or [dict(C=...)]. *)
  Inductive reg_param := RegAlpha (l : L) | RegPair (l : L) (mix : A) | RegC (l : L).

  Definition cache := option (list (list L)).

  (** lasso.py:247-255. *)
  Definition lasso_params (grid : D -> result (list L)) (c : cache) (x : D)
    : cache * result (list reg_param) :=
    (c, rmap (map RegAlpha) (grid x)).

  (** elasticnet.py:175-182, poisson.py:540-548: one entry per (mixing, penalty) pair. *)
  Definition pairs (alphas : list A) (lambdas : list (list L)) : list reg_param :=
    flat_map (fun x => map (fun l => RegPair l (fst x)) (snd x)) (combine alphas lambdas).

  (** elasticnet.py:163-173, poisson.py:525-538: the array of zeros is stored first
      and then filled row by row, so that an exception leaves zeros behind.  [zeros]
      is one row of zeros. *)
  Fixpoint fill (grid : A -> result (list L)) (zeros : list L) (alphas : list A)
    : list (list L) * option exn :=
    match alphas with
    | [] => ([], None)
    | a :: r =>
        match grid a with
        | Raise e => (map (fun _ => zeros) alphas, Some e)
        | Ok row => let x := fill grid zeros r in (row :: fst x, snd x)
        end
    end.
  Definition pair_params (alphas : list A) (zeros : list L) (grid : D -> A -> result (list L))
      (c : cache) (x : D) : cache * result (list reg_param) :=
    match c with
    | Some l => (c, Ok (pairs alphas l))
    | None =>
        let f := fill (grid x) zeros alphas in
        (Some (fst f), match snd f with
                       | Some e => Raise e
                       | None => Ok (pairs alphas (fst f))
                       end)
    end.

  (** logistic.py:153-179. *)
  Definition logistic_params (grid : D -> result (list L)) (c : cache) (x : D)
    : cache * result (list reg_param) :=
    match c with
    | Some l => (c, Ok (map RegC (concat l)))
    | None => match grid x with
              | Raise e => (None, Raise e)
              | Ok cs => (Some [cs], Ok (map RegC cs))
              end
    end.

  Context {Sel Coef : Type}.

  (** An estimator object.  [None]: the attribute does not exist. *)
  Record object := mkObject {
    o_cache : cache;                       (* self.lambdas / self.Cs *)
    o_params : option (list reg_param);    (* reg_params_ *)
    o_sel : option Sel;                    (* supports_, estimates_, scores_, rp_max_idx_ *)
    o_coef : option Coef;                  (* coef_, intercept_ *)
    o_state : St                           (* random state, selection solver *)
  }.

  (** The constructors set [self.lambdas = None] / [self.Cs = None]. *)
  Definition fresh (st : St) : object := mkObject None None None None st.

  Variable get_params : cache -> D -> cache * result (list reg_param).
  Variable constant : D -> bool.
  Variable const_fit : D -> result Coef.
  Variable run : D -> list reg_param -> St -> St * result (Sel * Coef).

  (** base.py:199-227 and 445. *)
  Definition fit_call (x : D) (o : object) : object * result unit :=
    if constant x then
      match const_fit x with
      | Ok c => (mkObject (o_cache o) (o_params o) (o_sel o) (Some c) (o_state o), Ok tt)
      | Raise e => (o, Raise e)
      end
    else
      let g := get_params (o_cache o) x in
      match snd g with
      | Raise e => (mkObject (fst g) (o_params o) (o_sel o) (o_coef o) (o_state o), Raise e)
      | Ok ps =>
          let r := run x ps (o_state o) in
          match snd r with
          | Ok v => (mkObject (fst g) (Some ps) (Some (fst v)) (Some (snd v)) (fst r), Ok tt)
          | Raise e => (mkObject (fst g) (Some ps) (o_sel o) (o_coef o) (fst r), Raise e)
          end
      end.

  (** A history of calls, each of which may return or raise. *)
  Definition history (h : list D) (o : object) : object :=
    fold_left (fun o x => fst (fit_call x o)) h o.
End Refit.
Arguments reg_param : clear implicits.
Arguments object : clear implicits.
