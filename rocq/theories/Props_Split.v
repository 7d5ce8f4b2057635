(** Property theorems C113 (how many samples a bootstrap uses). *)
From Coq Require Import ZArith Reals List Bool Lia Lra.
From Verif Require Import Prelude F64 F64Facts Model_Split Proofs_Split.
Local Open Scope R_scope.

(** C113.  A fraction of at least one half: all samples are used, no part is empty, and the number of
    training samples is the fraction of n rounded down, or one more where that fraction of n
    falls short of a whole number by no more than a rounding error. *)
Theorem C113_half : forall x n, valid64 x = true -> is_finite64 x = true -> / 2 <= rval x < 1 -> (2 <= n <= 2 ^ 53)%Z ->
  exists train test k, bootstrap_sizes n (FFloat x) = Ok (train, test) /\ (train + test = n)%Z /\ (1 <= train)%Z /\ (1 <= test)%Z /\
    IZR k <= rval x * IZR n < IZR k + 1 /\
    (train = k \/ train = (k + 1)%Z /\ IZR k + 1 - rval x * IZR n <= / IZR (2 ^ 53) * ((1 - rval x) * IZR n)).
Proof. exact sizes_half. Qed.
Print Assumptions C113_half.
Example C113_half_ex : valid64 nine_tenths = true /\ is_finite64 nine_tenths = true /\ / 2 <= rval nine_tenths < 1 /\
  bootstrap_sizes 25 (FFloat nine_tenths) = Ok (22, 3)%Z.
Proof. split; [vm_compute; reflexivity|]. split; [vm_compute; reflexivity|]. split; [rewrite nine_value; pose proof unit_53; lra|vm_compute; reflexivity]. Qed.

(** Any fraction strictly between 2^-54 and 1: never more than the fraction of n and never one
    sample less than it, up to rounding; an empty training part raises ValueError. *)
Theorem C113_any : forall x n, valid64 x = true -> is_finite64 x = true -> / IZR (2 ^ 54) < rval x < 1 -> (1 <= n <= 2 ^ 53)%Z ->
  (exists train test, bootstrap_sizes n (FFloat x) = Ok (train, test) /\ (train + test = n)%Z /\ (1 <= train)%Z /\ (1 <= test)%Z /\
     rval x * IZR n - 1 - / IZR (2 ^ 52) * IZR n < IZR train <= rval x * IZR n + / IZR (2 ^ 52) * IZR n) \/
  (bootstrap_sizes n (FFloat x) = Raise ValueError /\ rval x * IZR n < 1 + / IZR (2 ^ 52) * IZR n).
Proof. exact sizes_any. Qed.
Print Assumptions C113_any.
(** 0.1 of 30 samples and of 3 samples. *)
Example C113_any_ex : let x := fdiv (f64_of_Z 1) (f64_of_Z 10) in valid64 x = true /\ / IZR (2 ^ 54) < rval x < 1 /\
  bootstrap_sizes 30 (FFloat x) = Ok (3, 27)%Z /\ bootstrap_sizes 3 (FFloat x) = Raise ValueError.
Proof.
  cbv zeta. split; [vm_compute; reflexivity|]. split.
  - destruct (sizes_any_tenth) as [A B]. rewrite A. split; [exact (proj1 B)|exact (proj2 B)].
  - split; vm_compute; reflexivity.
Qed.

(** Everything else raises ValueError, but only in fit: NaN, infinities, 1 and more, 0 and less, and
    up to 2^-54. *)
Theorem C113_refused : forall x n, valid64 x = true -> (is_finite64 x = false \/ 1 <= rval x \/ rval x <= / IZR (2 ^ 54)) ->
  bootstrap_sizes n (FFloat x) = Raise ValueError.
Proof. exact sizes_refused. Qed.
Print Assumptions C113_refused.
Example C113_refused_ex : valid64 fnan = true /\ is_finite64 fnan = false /\ valid64 fone = true /\ 1 <= rval fone.
Proof. split; [reflexivity|]. split; [reflexivity|]. split; [reflexivity|]. rewrite (proj1 fone_value). lra. Qed.

(** The default 0.9 is exact on multiples of ten. *)
Theorem C113_default : forall m, (1 <= m)%Z -> (10 * m <= 2 ^ 53)%Z -> bootstrap_sizes (10 * m) (FFloat nine_tenths) = Ok (9 * m, m)%Z.
Proof. exact sizes_nine. Qed.
Print Assumptions C113_default.
Example C113_default_ex : bootstrap_sizes 100 (FFloat nine_tenths) = Ok (90, 10)%Z. Proof. exact (C113_default 10 ltac:(lia) ltac:(lia)). Qed.

(** 0.7 is not: one sample less is used for training, for every multiple of ten. *)
Theorem C113_seven_tenths_refuted : forall m, (1 <= m)%Z -> (10 * m <= 2 ^ 53)%Z -> bootstrap_sizes (10 * m) (FFloat seven_tenths) = Ok (7 * m - 1, 3 * m + 1)%Z.
Proof. exact sizes_seven. Qed.
Print Assumptions C113_seven_tenths_refuted.
Example C113_seven_tenths_ex : bootstrap_sizes 10 (FFloat seven_tenths) = Ok (6, 4)%Z. Proof. exact (C113_seven_tenths_refuted 1 ltac:(lia) ltac:(lia)). Qed.

(** An int is subtracted from 1 and then counts samples: 0 trains on all samples but one, -k on all but k + 1;
    1 is refused, although it means all samples for UoI_CUR. *)
Theorem C113_integer : forall k n, (0 <= k)%Z ->
  bootstrap_sizes n (FInt (- k)) = (if (n <=? k + 1)%Z then Raise ValueError else Ok (n - (k + 1), k + 1)%Z) /\
  bootstrap_sizes n (FInt (1 + k)) = Raise ValueError /\ cur_rows n (FInt 1) = Ok n /\ cur_rows n (FFloat fone) = Ok n.
Proof.
  intros k n Hk. unfold bootstrap_sizes, one_minus, shuffle_split. replace (1 - - k)%Z with (k + 1)%Z by lia. split; [|split; [|split; reflexivity]].
  - destruct (Z.leb_spec n (k + 1)); [reflexivity|]. destruct (Z.leb_spec (k + 1) 0); [lia|]. cbn. destruct (Z.eqb_spec (n - (k + 1)) 0); [lia|reflexivity].
  - replace (1 - (1 + k) <=? 0)%Z with true by (symmetry; apply Z.leb_le; lia). rewrite orb_true_r. reflexivity.
Qed.
Print Assumptions C113_integer.
Example C113_integer_ex : bootstrap_sizes 100 (FInt 0) = Ok (99, 1)%Z /\ bootstrap_sizes 100 (FInt 1) = Raise ValueError. Proof. split; reflexivity. Qed.

(** UoI_CUR: the rows of every bootstrap are those of the training part. *)
Theorem C113_cur : forall x n, valid64 x = true -> is_finite64 x = true -> / 2 <= rval x < 1 -> (2 <= n <= 2 ^ 53)%Z ->
  exists rows, cur_rows n (FFloat x) = Ok rows /\ (1 <= rows < n)%Z /\ rval x * IZR n - 1 < IZR rows /\ IZR rows <= rval x * IZR n + / IZR (2 ^ 53) * IZR n.
Proof. exact cur_half. Qed.
Print Assumptions C113_cur.
Example C113_cur_ex : cur_rows 10 (FFloat nine_tenths) = Ok 9%Z. Proof. vm_compute. reflexivity. Qed.
