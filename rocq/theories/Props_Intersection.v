(** Property theorems C05-C09 (intersection of the selection supports). *)
From Coq Require Import ZArith List Bool Arith Lia Permutation.
From Verif Require Import Prelude F64 Model_Intersection Spec_Intersection Proofs_Intersection.
Import ListNotations.

(** C05.  With at least two (threshold, regularization) combinations and two
    coefficients, the result is a two-dimensional array whose rows are exactly
    the stability-selected masks, once each and in increasing order. *)
Theorem C05_supports_exact : forall c ts,
  2 <= length ts * c_reg c -> 2 <= c_feat c ->
  exists rows, intersection c (Some ts) = Ok (Arr2 (c_feat c) rows) /\
    (forall mask, In mask rows <->
       exists t r, In t ts /\ r < c_reg c /\ is_support c t r mask) /\
    increasing rows /\ NoDup rows.
Proof. exact intersection_exact. Qed.
Print Assumptions C05_supports_exact.

(** A 3 bootstraps x 2 parameters x 3 features array. *)
Definition ex_coefs : coefs3 :=
  mkCoefs 2 3 [ [[fone; fzero; ftwo]; [fzero; fzero; ftwo]];
                [[fopp fone; fzero; fzero]; [fone; fzero; fone]];
                [[fone; fzero; fone]; [fzero; fopp fzero; fone]] ].
Example C05_ex :
  well_shaped ex_coefs /\ 2 <= length [2%Z; 3%Z] * c_reg ex_coefs /\ 2 <= c_feat ex_coefs /\
  intersection ex_coefs (Some [2%Z; 3%Z])
  = Ok (Arr2 3 [[false; false; true]; [true; false; false]; [true; false; true]]).
Proof. repeat split; try (simpl; lia); repeat constructor. Qed.

(** C06.  Bootstrap order and non-zero values do not matter. *)
Theorem C06_bootstrap_order : forall c data' ts,
  Permutation (c_data c) data' ->
  intersection c ts = intersection (mkCoefs (c_reg c) (c_feat c) data') ts.
Proof. exact intersection_perm. Qed.
Print Assumptions C06_bootstrap_order.

Theorem C06_zero_pattern : forall c c' ts,
  c_reg c = c_reg c' -> c_feat c = c_feat c' ->
  length (c_data c) = length (c_data c') ->
  (forall b r j, b < length (c_data c) -> r < c_reg c -> j < c_feat c ->
     nonzero64 (coef_at c b r j) = nonzero64 (coef_at c' b r j)) ->
  intersection c ts = intersection c' ts.
Proof. exact intersection_pattern. Qed.
Print Assumptions C06_zero_pattern.

Example C06_ex :
  Permutation (c_data ex_coefs)
    (nth 1 (c_data ex_coefs) [] :: nth 0 (c_data ex_coefs) [] :: nth 2 (c_data ex_coefs) [] :: [])
  /\ nonzero64 ftwo = nonzero64 (fopp fone) /\ nonzero64 fzero = nonzero64 (fopp fzero).
Proof. split; [apply perm_swap|split; reflexivity]. Qed.

(** C07.  Raising the threshold shrinks supports; the extreme thresholds are
    "every bootstrap" and "some bootstrap". *)
Theorem C07_monotone : forall c t t' rows rows',
  2 <= c_reg c -> 2 <= c_feat c -> (t <= t')%Z ->
  intersection c (Some [t]) = Ok (Arr2 (c_feat c) rows) ->
  intersection c (Some [t']) = Ok (Arr2 (c_feat c) rows') ->
  forall m', In m' rows' ->
  exists m, In m rows /\
    forall j, j < c_feat c -> nth j m' false = true -> nth j m false = true.
Proof. exact intersection_monotone. Qed.
Print Assumptions C07_monotone.

Theorem C07_hard_intersection : forall c,
  2 <= c_reg c -> 2 <= c_feat c ->
  intersection c None = intersection c (Some [Z.of_nat (length (c_data c))]) /\
  exists rows, intersection c None = Ok (Arr2 (c_feat c) rows) /\
  forall mask, In mask rows <->
    length mask = c_feat c /\
    exists r, r < c_reg c /\
      forall j, j < c_feat c ->
        (nth j mask false = true <->
         forall b, b < length (c_data c) -> nonzero64 (coef_at c b r j) = true).
Proof. exact hard_intersection. Qed.
Print Assumptions C07_hard_intersection.

Theorem C07_threshold_one : forall c,
  2 <= c_reg c -> 2 <= c_feat c ->
  exists rows, intersection c (Some [1%Z]) = Ok (Arr2 (c_feat c) rows) /\
  forall mask, In mask rows <->
    length mask = c_feat c /\
    exists r, r < c_reg c /\
      forall j, j < c_feat c ->
        (nth j mask false = true <->
         exists b, b < length (c_data c) /\ nonzero64 (coef_at c b r j) = true).
Proof. exact soft_one_intersection. Qed.
Print Assumptions C07_threshold_one.

Example C07_ex :
  intersection ex_coefs (Some [1%Z]) = Ok (Arr2 3 [[true; false; true]]) /\
  intersection ex_coefs None = Ok (Arr2 3 [[false; false; true]; [true; false; false]]).
Proof. split; reflexivity. Qed.

(** C08 (finding).  Degenerate shapes: the mask is lost. *)
Theorem C08_single_combination : forall c t mask,
  c_reg c = 1 -> 2 <= c_feat c -> is_support c t 0 mask ->
  exists l, intersection c (Some [t]) = Ok (Arr1 l) /\
    (forall b, In b l <-> In b mask) /\
    (l = [false] \/ l = [true] \/ l = [false; true]).
Proof. exact degenerate_single_row. Qed.
Print Assumptions C08_single_combination.

Theorem C08_single_coefficient : forall c ts,
  c_feat c = 1 -> 2 <= length ts * c_reg c ->
  exists l, intersection c (Some ts) = Ok (Arr1 l) /\
    forall b, In b l <->
      exists t r, In t ts /\ r < c_reg c /\ is_support c t r [b].
Proof. exact degenerate_single_column. Qed.
Print Assumptions C08_single_coefficient.

Theorem C08_single_both : forall c t,
  c_feat c = 1 -> c_reg c = 1 -> intersection c (Some [t]) = Raise ValueError.
Proof. exact degenerate_both. Qed.
Print Assumptions C08_single_both.

(** Four features, the second and third selected: the caller gets an array of
    two truth values instead of one support of four. *)
Example C08_ex :
  let c := mkCoefs 1 4 [ [[fzero; fone; fone; fzero]]; [[fzero; ftwo; fone; fone]] ] in
  is_support c 2 0 [false; true; true; false] /\
  intersection c (Some [2%Z]) = Ok (Arr1 [false; true]).
Proof.
  split; [|reflexivity]. split; [reflexivity|]. intros j Hj.
  do 4 (destruct j as [|j]; [vm_compute; split; intro H; congruence|]).
  simpl in Hj; lia.
Qed.

(** C09.  Shared support: union over the classes. *)
Theorem C09_shared_union : forall c ts dim nf,
  2 <= dim -> 1 <= nf -> c_feat c = dim * nf -> 2 <= length ts * c_reg c ->
  exists rows, glm_intersect dim true c ts = Ok (Arr2 nf rows) /\
    (forall mask, In mask rows <->
       length mask = nf /\
       exists t r, In t ts /\ r < c_reg c /\
         forall j, j < nf ->
           (nth j mask false = true <->
            exists k, k < dim /\ (t <= Z.of_nat (times_selected c r (k * nf + j)))%Z)) /\
    increasing rows /\ NoDup rows.
Proof. exact glm_shared_exact. Qed.
Print Assumptions C09_shared_union.

Theorem C09_not_shared : forall c ts dim shared,
  dim <= 1 \/ shared = false -> glm_intersect dim shared c ts = intersection c (Some ts).
Proof. exact glm_unshared. Qed.
Print Assumptions C09_not_shared.

(** Two classes, two features, two regularization parameters. *)
Example C09_ex :
  let c := mkCoefs 2 4 [ [[fzero; fone; fzero; fzero]; [fzero; fzero; fone; fzero]] ] in
  glm_intersect 2 true c [1%Z] = Ok (Arr2 2 [[false; true]; [true; false]]) /\
  glm_intersect 2 false c [1%Z]
  = Ok (Arr2 4 [[false; false; true; false]; [false; true; false; false]]).
Proof. split; reflexivity. Qed.
