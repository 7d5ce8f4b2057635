(** Model of non-negative matrix factorization: dissimilarity of
    src/pyuoi/decomposition/utils.py:93-114 and the class UoI_NMF_Base of
    src/pyuoi/decomposition/NMF.py:19-328.  Matrices are lists of rows.
    The factorization, the clustering, the consensus function and the non-negative regression
    are arguments, as in the code.  Not modelled: set_params, logging, broadcasting of
    factorizations with an unexpected shape, sparse input. *)
From Coq Require Import ZArith List Bool Arith.
From Verif Require Import Prelude F64 Num.
Import ListNotations.

Section Nmf.
  Context {N : NumOps}.
  Notation matrix := (list (list N)).

  (** ** dissimilarity *)

  (** np.linalg.norm of a vector. *)
  Definition vector_norm (r : list N) : N := nsqrt (nsum (map nsquare r)).
  (** utils.py:110-111: rows divided by their norms. *)
  Definition unit_rows (H : matrix) : matrix := map (fun r => map (fun x => ndiv x (vector_norm r)) r) H.
  (** np.maximum: NaN if one of the arguments is. *)
  Definition np_maximum (a b : N) : N := if nleb b a || negb (neqb a a) then a else b.
  (** np.max of a non-empty list. *)
  Definition np_max (l : list N) : N :=
    match l with [] => nzero | x :: r => fold_left np_maximum r x end.
  (** utils.py:93-114; np.max raises for matrices without rows and np.dot for different
      numbers of features. *)
  Definition dissimilarity (H1 H2 : matrix) : result N :=
    let k := length H1 in
    let A := unit_rows H1 in
    let B := unit_rows H2 in
    if negb (Nat.eqb (length (hd [] H1)) (length (hd [] H2))) then Raise ValueError
    else if Nat.eqb (length H1) 0 || Nat.eqb (length H2) 0 then Raise ValueError
    else
      let C := map (fun a => map (ndot a) B) A in
      let over_rows := map (fun j => np_max (map (fun c => nth j c nzero) C)) (seq 0 (length B)) in
      let over_columns := map np_max C in
      Ok (nsub none (ndiv (nadd (nsum over_rows) (nsum over_columns)) (nmul (nofZ 2) (nofnat k)))).

  (** ** The estimator *)
  Variables (finite : N -> bool) (RS : Type).
  (** rand.randint(n_samples, size=(n_boots, n_samples)) *)
  Variable randint : nat -> nat -> RS -> result (list (list nat)) * RS.
  (** [nmf.set_params(n_components=k).fit(sample).components_]: it shares the generator. *)
  Variable nmf : nat -> matrix -> RS -> result matrix * RS.
  (** cluster.fit_predict, cons_meth(_, axis=0), nnreg *)
  Variables (cluster : matrix -> result (list Z)) (cons_meth : matrix -> list N)
    (nnreg : matrix -> list N -> result (list N)).
  (** Conversion of a number to an integer dtype and back. *)
  Variable trunc : N -> N.

  (** The argument [ranks]. *)
  Inductive ranks_arg := RanksNone | RanksInt (z : Z) | RanksSeq (l : list nat) | RanksOther.
  (** [ranks]: [None] if the attribute does not exist; [components_]: [None] is Python's None;
      [dissimilarity_], [reconstruction_err_]: [None] if absent or None. *)
  Record nmf_state := mkNmf {
    n_boots : nat; ranks : option (list nat); use_dissimilarity : bool;
    components_ : option matrix; bases_samples_ : option matrix; labels_ : option (list Z);
    bootstraps_ : option (list (list nat)); dissimilarity_ : option (list N); reconstruction_err_ : option N
  }.
  Definition set_dissimilarity (o : nmf_state) (d : list N) : nmf_state :=
    mkNmf (n_boots o) (ranks o) (use_dissimilarity o) (components_ o) (bases_samples_ o) (labels_ o) (bootstraps_ o)
      (Some d) (reconstruction_err_ o).
  Definition set_error (o : nmf_state) (e : N) : nmf_state :=
    mkNmf (n_boots o) (ranks o) (use_dissimilarity o) (components_ o) (bases_samples_ o) (labels_ o) (bootstraps_ o)
      (dissimilarity_ o) (Some e).

  (** NMF.py:59-76 and the part of 83-159 that concerns n_boots and ranks; a rank in an
      int range is at least 2. *)
  Definition nmf_init (boots : nat) (r : ranks_arg) (diss : bool) : result nmf_state :=
    let* rk := match r with
      | RanksNone => Ok None
      | RanksInt z => Ok (Some (seq 2 (Z.to_nat (z - 1))))
      | RanksSeq l => Ok (Some l)
      | RanksOther => Raise ValueError
      end in
    if Nat.eqb boots 1 && diss then Raise ValueError
    else Ok (mkNmf boots rk diss None None None None None None).

  (** NMF.py:187-191: all ranks on one bootstrap sample; H_samples is a dictionary, so a later
      fit with the same rank replaces an earlier one. *)
  Fixpoint rank_fits (ks : list nat) (sample : matrix) (st : RS) : result (list (nat * matrix)) * RS :=
    match ks with
    | [] => (Ok [], st)
    | k :: r =>
        let h := nmf k sample st in
        match fst h with
        | Raise e => (Raise e, snd h)
        | Ok H => let t := rank_fits r sample (snd h) in (rmap (cons (k, H)) (fst t), snd t)
        end
    end.
  (** NMF.py:182-191. *)
  Fixpoint boot_fits (ks : list nat) (X : matrix) (reps : list (list nat)) (st : RS)
    : result (list (list (nat * matrix))) * RS :=
    match reps with
    | [] => (Ok [], st)
    | rep :: r =>
        let h := rank_fits ks (map (fun i => nth i X []) rep) st in
        match fst h with
        | Raise e => (Raise e, snd h)
        | Ok b => let t := boot_fits ks X r (snd h) in (rmap (cons b) (fst t), snd t)
        end
    end.
  (** H_samples[k][boot] *)
  Definition bases_of (k : nat) (boot : list (nat * matrix)) : matrix :=
    match find (fun e => Nat.eqb (fst e) k) (rev boot) with Some e => snd e | None => [] end.

  (** itertools.combinations(range(n), 2) *)
  Definition combinations (n : nat) : list (nat * nat) :=
    flat_map (fun i => map (fun j => (i, j)) (seq (S i) (n - S i))) (seq 0 n).
  (** NMF.py:196-200 for one rank; [Hs] are the bases of all bootstraps. *)
  Definition gamma_of (n : nat) (Hs : list matrix) : result N :=
    foldM (fun g ij => let* d := dissimilarity (nth (fst ij) Hs []) (nth (snd ij) Hs []) in Ok (nadd g d))
      (combinations n) nzero.
  (** np.argmin: numpy's loop replaces the best value by a later one that is not [>=] it, and
      stops at a NaN. *)
  Fixpoint argmin_from (i : nat) (best : N) (besti : nat) (l : list N) : nat :=
    match l with
    | [] => besti
    | v :: r => if nleb best v then argmin_from (S i) best besti r
                else if neqb v v then argmin_from (S i) v i r else i
    end.
  Definition np_argmin (l : list N) : result nat :=
    match l with [] => Raise ValueError | v :: r => Ok (if neqb v v then argmin_from 1 v 0 r else 0) end.

  (** sklearn's normalize(norm='l2', axis=1): input validation, zero rows stay zero. *)
  Definition sk_normalize (H : matrix) (p : nat) : result matrix :=
    if Nat.eqb (length H) 0 || Nat.eqb p 0 || negb (forallb (forallb finite) H) then Raise ValueError
    else Ok (map (fun r => let n := vector_norm r in
                           let n := if neqb n nzero then none else n in
                           map (fun x => ndiv x n) r) H).

  (** np.unique of integers. *)
  Fixpoint insert_unique (x : Z) (l : list Z) : list Z :=
    match l with
    | [] => [x]
    | y :: r => if (x <? y)%Z then x :: y :: r else if (x =? y)%Z then y :: r else y :: insert_unique x r
    end.
  Definition unique (l : list Z) : list Z := fold_right insert_unique [] l.
  (** H[i] = v with Python's negative indices. *)
  Definition set_row (H : matrix) (i : Z) (v : list N) : result matrix :=
    let n := Z.of_nat (length H) in
    let i := if (i <? 0)%Z then (i + n)%Z else i in
    if (i <? 0)%Z || (n <=? i)%Z then Raise IndexError
    else Ok (firstn (Z.to_nat i) H ++ v :: skipn (S (Z.to_nat i)) H).
  (** H[labels == c] *)
  Definition members (H : matrix) (labels : list Z) (c : Z) : matrix :=
    map fst (filter (fun e => (snd e =? c)%Z) (combine H labels)).

  (** NMF.py:218-237: normalized bases, clustering, consensus. *)
  Definition consensus (H : matrix) (p : nat) : result (matrix * list Z * matrix) :=
    let H := filter (fun r => nnonzero (nsum r)) H in
    let* H := sk_normalize H p in
    let* labels := cluster H in
    let ids := unique (filter (fun l => negb (l =? -1)%Z) labels) in
    let* C := foldM (fun C c => set_row C c (cons_meth (members H labels c))) ids (repeat (repeat nzero p) (length ids)) in
    let* C := sk_normalize C p in
    Ok (H, labels, C).

  (** NMF.py:193-216: the bases to be clustered, and the new dissimilarity_ . *)
  Definition mean_dissimilarity (n : nat) (g : N) : N := ndiv (nmul g (nofZ 2)) (nofZ (Z.of_nat n * (Z.of_nat n - 1))).
  Definition choose_bases (o : nmf_state) (ks : list nat) (boots : list (list (nat * matrix)))
    : nmf_state * result matrix :=
    if use_dissimilarity o then
      match mapM (fun k => gamma_of (n_boots o) (map (bases_of k) boots)) ks with
      | Raise e => (o, Raise e)
      | Ok gamma =>
          (set_dissimilarity o (map (mean_dissimilarity (n_boots o)) gamma),
           let* i := np_argmin gamma in
           Ok (concat (map (bases_of (nth i ks 0)) boots)))
      end
    else (o, match ks with
             | [] => Raise TypeError           (* np.sum of no ranks is a float *)
             | _ => Ok (concat (map (fun k => concat (map (bases_of k) boots)) ks))
             end).

  (** sklearn's check_non_negative: [X.min() < 0]; a NaN hides negative numbers. *)
  Definition np_minimum (a b : N) : N := if nleb a b || negb (neqb a a) then a else b.
  Definition check_non_negative (X : matrix) : result unit :=
    match concat X with
    | [] => Raise ValueError
    | x :: r => if nltb (fold_left np_minimum r x) nzero then Raise ValueError else Ok tt
    end.

  (** NMF.py:161-245.  [p] is X.shape[1]. *)
  Definition nmf_fit (X : matrix) (p : nat) (st : RS) (o : nmf_state) : nmf_state * result unit * RS :=
    match check_non_negative X with
    | Raise e => (o, Raise e, st)
    | Ok _ =>
        match ranks o with
        | None => (o, Raise AttributeError, st)
        | Some ks =>
            let r := randint (length X) (n_boots o) st in
            match fst r with
            | Raise e => (o, Raise e, snd r)
            | Ok reps =>
                let b := boot_fits ks X reps (snd r) in
                match fst b with
                | Raise e => (o, Raise e, snd b)
                | Ok boots =>
                    let h := choose_bases o ks boots in
                    match (let* H := snd h in consensus H p) with
                    | Raise e => (fst h, Raise e, snd b)
                    | Ok (H, labels, C) =>
                        (mkNmf (n_boots o) (ranks o) (use_dissimilarity o) (Some C) (Some H) (Some labels) (Some reps)
                           (dissimilarity_ (fst h)) None, Ok tt, snd b)
                    end
                end
            end
        end
    end.

  (** NMF.py:307-328: a product of matrices; [q] is W.shape[1]. *)
  Definition product (W C : matrix) (p : nat) : matrix :=
    map (fun w => map (fun j => nsum (map2 nmul w (map (fun c => nth j c nzero) C))) (seq 0 p)) W.
  Definition inverse_transform (o : nmf_state) (W : matrix) (q : nat) : result matrix :=
    match components_ o with
    | None => Raise AttributeError               (* None.shape *)
    | Some C => if negb (Nat.eqb q (length C)) then Raise ValueError else Ok (product W C (length (hd [] C)))
    end.

  (** components_.T *)
  Definition transposed (C : matrix) : matrix :=
    map (fun j => map (fun c => nth j c nzero) C) (seq 0 (length (hd [] C))).

  (** NMF.py:247-283.  [integer]: X has an integer dtype, which W gets, too. *)
  Definition nmf_transform (o : nmf_state) (X : matrix) (p : nat) (integer reconstruction_err : bool)
    : nmf_state * result matrix :=
    match components_ o with
    | None => (o, Raise AttributeError)
    | Some C =>
        if negb (Nat.eqb p (length (hd [] C))) then (o, Raise ValueError)
        else match mapM (nnreg (transposed C)) X with
             | Raise e => (o, Raise e)
             | Ok W =>
                 let W := if integer then map (map trunc) W else W in
                 (if reconstruction_err
                  then set_error o (nsqrt (nsum (map nsquare (concat (map2 (map2 nsub) X (product W C p))))))
                  else o, Ok W)
             end
    end.
End Nmf.
Arguments nmf_state N : clear implicits.
