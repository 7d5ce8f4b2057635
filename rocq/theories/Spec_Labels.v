(** Specification vocabulary for class labels (C98-C100). *)
From Coq Require Import String ZArith List Bool Arith Reals.
From Verif Require Import Prelude Num Spec_Rescale Model_Labels.
Import ListNotations.

(** The labels 0, ..., k-1. *)
Definition numbers (k : nat) : list label := map (fun i => LInt (Z.of_nat i)) (seq 0 k).

(** [c] lists the classes of the labels [y] in the order of their codes. *)
Definition class_list (y c : list label) : Prop :=
  NoDup c /\ (forall l, In l c <-> In l y) /\
  (forall i a b, nth_error c i = Some (LInt a) -> nth_error c (S i) = Some (LInt b) -> (a < b)%Z) /\
  forall i a b, nth_error c i = Some (LStr a) -> nth_error c (S i) = Some (LStr b) -> String.compare a b = Lt.

(** The class as which log_loss counts a sample of class [c] if the classes are called
    [classes]: with two classes the second one if that is called like the number [c],
    otherwise the first; with more classes the one called like the number [c], if any. *)
Definition counted_as (classes : list label) (c : nat) (j : option nat) : Prop :=
  if Nat.eqb (length classes) 2 then
    (nth_error classes 1 = Some (LInt (Z.of_nat c)) /\ j = Some 1) \/
    (nth_error classes 1 <> Some (LInt (Z.of_nat c)) /\ j = Some 0)
  else match j with
       | Some j => nth_error classes j = Some (LInt (Z.of_nat c))
       | None => ~ In (LInt (Z.of_nat c)) classes
       end.

(** An argument that must be a number and not negative, but is not. *)
Definition bad_number {N : NumOps} (v : number N) : Prop := match v with Num v => nltb v nzero = true | NotNumber => True end.

Local Open Scope R_scope.

(** The probabilities of one sample in the form in which they are scored. *)
Definition clip_prob (eps v : R) : R := Rmin (Rmax v eps) (1 - eps).
Definition scored_prob (eps : R) (k : nat) (row : list R) (j : nat) : R :=
  clip_prob eps (entry row j) / Sum k (fun i => clip_prob eps (entry row i)).
(** Row [i] of the matrix of probabilities. *)
Definition prob_row (P : proba Rnum) (i : nat) : list R :=
  match P with
  | Proba1 p => [1 - nth i (p : list R) 0; nth i (p : list R) 0]
  | Proba2 _ rows => nth i (rows : list (list R)) []
  end.
(** [P] has [n] rows of [k] entries. *)
Definition prob_shape (n k : nat) (P : proba Rnum) : Prop :=
  match P with
  | Proba1 p => k = 2%nat /\ length (p : list R) = n
  | Proba2 c rows => c = k /\ length (rows : list (list R)) = n /\ Forall (fun r => length r = k) (rows : list (list R))
  end.

(** A decision as UoI_L1Logistic and MaskedCoefLogisticRegression make it for [k] classes:
    a number for two classes unless multi_class is 'multinomial', otherwise [k] numbers. *)
Definition decision_for (multinomial : bool) (k : nat) (d : decision Rnum) : Prop :=
  match d with
  | D1 _ => multinomial = false /\ k = 2%nat
  | D2 row => length (row : list R) = k /\ (2 <= k)%nat /\ (multinomial = false -> (3 <= k)%nat)
  end.

(** The weight of a class given by class_weight; the last value for a key counts.  Anything
    but None, 'balanced' and dictionaries counts as no class weights. *)
Definition dict_weight (d : list (label * R)) (l : label) (w : R) : Prop :=
  (exists before after, d = (before ++ (l, w) :: after)%list /\ ~ In l (map fst after)) \/
  (~ In l (map fst d) /\ w = 1).
Definition class_weight_of (cw : class_weight Rnum) (k : nat) (y : list nat) (c : nat) (w : R) : Prop :=
  match cw with
  | CWNone => w = 1
  | CWBalanced => w = INR (length y) / (INR k * INR (count (Nat.eqb c) y))
  | CWDict d => dict_weight d (LInt (Z.of_nat c)) w
  | CWOther => w = 1
  end.
(** The weight of sample [i] given by the argument sample_weight. *)
Definition sample_weight_of (sw : option (list R)) (i : nat) : R :=
  match sw with Some s => entry s i | None => 1 end.
(** Weights that are accepted for [n] samples of [k] classes. *)
Definition weights_accepted (multi : bool) (cw : class_weight Rnum) (k n : nat) (sw : option (list R)) : Prop :=
  (forall s, sw = Some s -> length s = n) /\
  match cw with
  | CWDict d => forall l, In l (map fst d) -> In l (numbers k)
  | CWOther => multi = false
  | _ => True
  end.
(** [w] are the weights of the samples with the labels [y]: sample weight times class weight. *)
Definition weighted_by (cw : class_weight Rnum) (y : list label) (sw : option (list R)) (w : list R) : Prop :=
  length w = length y /\
  forall i, (i < length y)%nat -> exists v,
    class_weight_of cw (length (uoi_classes y)) (codes y) (nth i (codes y) 0%nat) v /\ entry w i = sample_weight_of sw i * v.
