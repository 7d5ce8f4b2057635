(** Model of the logistic losses, the intercept-only classifiers and the
    regularization grid: src/pyuoi/utils.py and src/pyuoi/linear_model/logistic.py.
    A design matrix is its list of rows; labels are the codes 0, 1, ... produced by
    sklearn's LabelEncoder. *)
From Coq Require Import ZArith List Bool Arith.
From Verif Require Import Prelude Num Model_Mpi Model_Poisson.
Import ListNotations.

Section Logistic.
  Context {N : NumOps}.

  (** np.log1p; as log(1 + x). *)
  Definition log1p (x : N) : N := nln (nadd none x).
  (** np.logaddexp (numpy's npy_logaddexp). *)
  Definition logaddexp (a b : N) : N :=
    if neqb a b then nadd a (nln (nofZ 2))
    else
      let d := nsub a b in
      if nltb nzero d then nadd a (log1p (nexp (nopp d)))
      else if nleb d nzero then nadd b (log1p (nexp d))
      else d.

  (** utils.py:6-17, one row. *)
  Definition softmax (y : list N) : list N :=
    let m := nmaxl y in
    let e := map (fun v => nexp (nsub v m)) y in
    let t := nsum e in
    map (fun v => ndiv v t) e.

  (** utils.py:20-28. *)
  Definition sigmoid (x : N) : N := nexp (nopp (logaddexp nzero (nopp x))).

  (** scipy.special.expit and logsumexp of one row, sklearn's log_logistic. *)
  Definition expit (x : N) : N := ndiv none (nadd none (nexp (nopp x))).
  Definition logsumexp (l : list N) : N :=
    let m := nmaxl l in
    nadd (nln (nsum (map (fun v => nexp (nsub v m)) l))) m.
  Definition log_logistic (x : N) : N :=
    if nltb nzero x then nopp (nln (nadd none (nexp (nopp x))))
    else nsub x (nln (nadd none (nexp x))).

  (** ** Intercept-only models, logistic.py:248-286 *)

  (** eps = 1e-10 *)
  Definition small : N := ndiv none (nofZ 10000000000).
  Definition nmin2 (a b : N) : N :=
    if nltb b a then b else if neqb b b then a else b.

  Definition binary_rate (y : list nat) : N :=
    nmin2 (nmax2 (nmean (map nofnat y)) small) (nsub none small).
  Definition binary_intercept (y : list nat) : N :=
    let p := binary_rate y in nln (ndiv p (nsub none p)).

  (** logistic.py:265-272: class frequencies, absent classes get eps. *)
  Definition frequencies (k : nat) (y : list nat) : list N :=
    map (fun c => nmean (map (fun v => if Nat.eqb v c then none else nzero) y)) (seq 0 k).
  Definition class_rates (k : nat) (y : list nat) : list N :=
    let py := frequencies k y in
    let n_included := length (filter nnonzero py) in
    if Nat.ltb n_included k then
      let new_mass := nmul small (nofnat (k - n_included)) in
      map (fun v => if neqb v nzero then small else v) (map (fun v => nmul v (nsub none new_mass)) py)
    else py.
  Definition multi_intercept (k : nat) (y : list nat) : list N :=
    let i := map nln (class_rates k y) in
    let m := nmaxl i in
    map (fun v => nsub v m) i.

  (** np.argmax of a non-empty row: the first largest entry (a NaN would win). *)
  Fixpoint argmax_from (i : nat) (best : N) (besti : nat) (l : list N) : nat :=
    match l with
    | [] => besti
    | v :: r => if nleb v best then argmax_from (S i) best besti r
                else if neqb v v then argmax_from (S i) v i r else i
    end.
  Definition nargmax (l : list N) : nat :=
    match l with [] => 0%nat | v :: r => if neqb v v then argmax_from 1 v 0 r else 0%nat end.

  (** predict and predict_proba, logistic.py:274-286, one sample (all are equal). *)
  Definition binary_predict (b : N) : nat := if nleb nzero b then 1 else 0.
  Definition multi_predict (b : list N) : nat := nargmax b.
  Definition binary_proba (b : N) : N := sigmoid b.
  Definition multi_proba (b : list N) : list N := softmax b.

  (** ** Losses *)

  (** [w[:n_features] *= mask] *)
  Definition apply_mask (p : nat) (mask : option (list N)) (w : list N) : list N :=
    match mask with
    | Some m => map2 nmul (firstn p w) m ++ skipn p w
    | None => w
    end.

  (** logistic.py:789-839 with 892-920, labels [y] in {-1, 1}.  The first component is
      the array [w] after the call: the mask is applied in place. *)
  Definition logistic_loss_and_grad (p : nat) (X : list (list N)) (y : list N) (alpha : N)
      (mask : option (list N)) (sw : option (list N)) (w : list N) : list N * (N * list N) :=
    let n := nofnat (length X) in
    let w := apply_mask p mask w in
    let has := Nat.eqb (length w) (S p) in
    let b := if has then last w nzero else nzero in
    let c := if has then firstn p w else w in
    let yz := map2 nmul y (map (fun v => nadd v b) (matvec X c)) in
    let sw := match sw with Some s => s | None => ones (length X) end in
    let out := ndiv (nopp (nsum (map2 nmul sw (map log_logistic yz)))) n in
    let out := nadd out (nmul (nmul (ndiv none (nofZ 2)) alpha) (ndot c c)) in
    let z0 := map2 nmul (map2 nmul sw (map (fun v => nsub (expit v) none) yz)) y in
    let g := map2 nadd (map (fun v => ndiv v n) (tmatvec p X z0)) (map (nmul alpha) c) in
    let g := match mask with Some m => map2 nmul g m | None => g end in
    (w, (out, if has then g ++ [ndiv (nsum z0) n] else g)).

  (** logistic.py:744-786: [w] as its rows, one per class; [Y] one row per sample. *)
  Definition multinomial_loss (p : nat) (has : bool) (X Y : list (list N)) (alpha : N) (sw : list N)
      (w : list (list N)) : N * list (list N) * list (list N) :=
    let n := nofnat (length X) in
    let b := if has then map (fun r => last r nzero) w else map (fun _ => nzero) w in
    let c := if has then map (firstn p) w else w in
    let scores := map (fun x => map2 nadd (map (ndot x) c) b) X in
    let logp := map (fun r => let l := logsumexp r in map (fun v => nsub v l) r) scores in
    let terms := map2 (fun s yp => map (nmul s) yp) sw (map2 (map2 nmul) Y logp) in
    let loss := ndiv (nopp (nsum (map nsum terms))) n in
    let loss := nadd loss (nmul (nmul (ndiv none (nofZ 2)) alpha) (nsum (map (fun r => ndot r r) c))) in
    (loss, map (map nexp) logp, c).

  (** logistic.py:842-889 for [k] classes.  [w] has k * p or k * (p + 1) entries. *)
  Definition multinomial_loss_grad (k p : nat) (X Y : list (list N)) (alpha : N)
      (mask : option (list (list N))) (sw : list N) (w : list N) : N * list N :=
    let n := nofnat (length X) in
    let has := Nat.eqb (length w) (k * S p) in
    let q := if has then S p else p in
    let rows := chunks q k w in
    let rows := match mask with
                | Some m => map2 (fun mr r => map2 nmul (firstn p r) mr ++ skipn p r) m rows
                | None => rows
                end in
    let r := multinomial_loss p has X Y alpha sw rows in
    let loss := fst (fst r) in
    let prob := snd (fst r) in
    let c := snd r in
    let diff := map2 (fun s d => map (nmul s) d) sw (map2 (map2 nsub) prob Y) in
    let g := map (fun cl => map2 nadd (map (fun v => ndiv v n) (tmatvec p X (column diff cl)))
                                      (map (nmul alpha) (nth cl c []))) (seq 0 k) in
    let g := match mask with Some m => map2 (map2 nmul) g m | None => g end in
    let g := if has
             then map2 (fun r cl => r ++ [ndiv (nsum (column diff cl)) n]) g (seq 0 k)
             else g in
    (loss, concat g).

  (** ** The regularization grid, logistic.py:153-179 *)

  (** OneHotEncoder over range(k). *)
  Definition one_hot (k : nat) (y : list nat) : list (list N) :=
    map (fun v => map (fun c => if Nat.eqb v c then none else nzero) (seq 0 k)) y.

  (** alpha_max; [k = 1]: binary, where the labels 0/1 are passed as they are.  The
      last entry of the gradient is dropped; max of an empty array raises. *)
  Definition alpha_max (k p : nat) (fit_intercept : bool) (X : list (list N)) (y : list nat) : result N :=
    let g :=
      if Nat.eqb k 1 then
        let w := repeat nzero p ++ (if fit_intercept then [binary_intercept y] else []) in
        snd (snd (logistic_loss_and_grad p X (map nofnat y) nzero None None w))
      else
        let b := multi_intercept k y in
        let w := concat (map (fun c => repeat nzero p ++ (if fit_intercept then [nth c b nzero] else [])) (seq 0 k)) in
        snd (multinomial_loss_grad k p X (one_hot k y) nzero None (ones (length X)) w) in
    let g := removelast g in
    if Nat.eqb (length g) 0 then Raise ValueError
    else Ok (nmaxl (map nabs g)).

  Definition C_grid (amax eps : N) (n_C : nat) : list N :=
    let logC := nopp (log10 amax) in
    logspace logC (nsub logC (log10 eps)) n_C.

  (** ** Intercept refit for fixed coefficients, logistic.py:214-245: the function given
      to scipy's minimize.  [scores] are the rows of X.dot(coef_.T).  sklearn's log_loss
      clips probabilities at machine epsilon, which the model leaves out. *)
  Definition fixed_binary (scores : list N) (y : list nat) (b : N) : N * N :=
    let py := map (fun v => sigmoid (nadd v b)) scores in
    let ll := map2 (fun v q => if Nat.eqb v 1 then nln q else nln (nsub none q)) y py in
    (nopp (nmean ll), nsub (nmean py) (nmean (map nofnat y))).

  Definition fixed_multi (k : nat) (scores : list (list N)) (y : list nat) (short : list N) : N * list N :=
    let b := none :: short in
    let py := map (fun r => softmax (map2 nadd r b)) scores in
    let ll := map2 (fun v q => nln (nth v q nzero)) y py in
    let d v q := match v with
                 | O => map nopp (tl q)
                 | S v' => map2 nsub (map (fun c => if Nat.eqb c v' then none else nzero) (seq 0 (k - 1))) (tl q)
                 end in
    (nopp (nmean ll),
     fold_left (fun acc vq => map2 nsub acc (map (fun u => ndiv u (nofnat (length y))) (d (fst vq) (snd vq))))
               (combine y py) (repeat nzero (k - 1))).

  (** logistic.py:242-245: the intercepts returned for [opt.x = short]. *)
  Definition fixed_multi_result (short : list N) : list N :=
    let b := none :: short in
    let m := nmaxl b in
    map (fun v => nsub v m) b.
End Logistic.
