(** Example data for the theorems about UoI_NMF. *)
From Coq Require Import ZArith List Bool Arith Reals Lia Lra.
From Verif Require Import Prelude F64 Num Spec_Rescale Spec_Poisson Model_Nmf Spec_Nmf Proofs_Nmf Proofs_NmfFit Proofs_NmfMain Proofs_NmfNan Proofs_NmfTrans.
Import ListNotations.
Local Open Scope R_scope.

(** Two bases with the same directions. *)
Definition ex_H1 : list (list R) := [[1; 0]; [0; 2]].
Definition ex_H2 : list (list R) := [[0; 5]; [3; 0]].
Definition ex_H3 : list (list R) := [[1; 1]; [3; 0]].
Ltac two i := destruct i as [|[|i]]; [| |try lia].
Lemma ex_basis1 : basis 2 2 ex_H1.
Proof. split; [split; [reflexivity|repeat constructor]|]. intros i Hi. two i; [exists 0%nat|exists 1%nat]; (split; [lia|cbn; lra]). Qed.
Lemma ex_basis2 : basis 2 2 ex_H2.
Proof. split; [split; [reflexivity|repeat constructor]|]. intros i Hi. two i; [exists 1%nat|exists 0%nat]; (split; [lia|cbn; lra]). Qed.
Lemma ex_basis3 : basis 2 2 ex_H3.
Proof. split; [split; [reflexivity|repeat constructor]|]. intros i Hi. two i; exists 0%nat; (split; [lia|cbn; lra]). Qed.
Lemma nonneg_of (H : list (list R)) : Forall (Forall (fun x => 0 <= x)) H -> nonnegative H.
Proof.
  intros F i j. unfold mat, entry. destruct (le_lt_dec (length H) i) as [C|C]; [rewrite (nth_overflow H) by exact C; destruct j; cbn; lra|].
  destruct (le_lt_dec (length (nth i H [])) j) as [D|D]; [rewrite nth_overflow by exact D; lra|].
  rewrite Forall_forall in F. specialize (F _ (nth_In H [] C)). rewrite Forall_forall in F. exact (F _ (nth_In _ 0 D)).
Qed.
Lemma ex_nonneg1 : nonnegative ex_H1. Proof. apply nonneg_of. repeat constructor; lra. Qed.
Lemma ex_nonneg2 : nonnegative ex_H2. Proof. apply nonneg_of. repeat constructor; lra. Qed.
Lemma ex_parallel : (forall i, (i < 2)%nat -> exists j, (j < 2)%nat /\ parallel 2 (row ex_H1 i) (row ex_H2 j)) /\
  (forall j, (j < 2)%nat -> exists i, (i < 2)%nat /\ parallel 2 (row ex_H2 j) (row ex_H1 i)).
Proof.
  split; intros i Hi; two i.
  - exists 1%nat. split; [lia|]. exists (1/3). split; [lra|]. intros j Hj. two j; cbn; lra.
  - exists 0%nat. split; [lia|]. exists (2/5). split; [lra|]. intros j Hj. two j; cbn; lra.
  - exists 1%nat. split; [lia|]. exists (5/2). split; [lra|]. intros j Hj. two j; cbn; lra.
  - exists 0%nat. split; [lia|]. exists 3. split; [lra|]. intros j Hj. two j; cbn; lra.
Qed.
(** The second vector of [ex_H1] has no parallel vector in [ex_H3]. *)
Lemma ex_not_parallel : ~ ((forall i, (i < 2)%nat -> exists j, (j < 2)%nat /\ parallel 2 (row ex_H1 i) (row ex_H3 j)) /\
  (forall j, (j < 2)%nat -> exists i, (i < 2)%nat /\ parallel 2 (row ex_H3 j) (row ex_H1 i))).
Proof.
  intros [A _]. destruct (A 1%nat ltac:(lia)) as (j & Hj & s & Hs & E). pose proof (E 0%nat ltac:(lia)) as E0. two j; cbn in E0; lra.
Qed.

(** A run: the generator is a counter, the factorization of rank [k] consists of the vectors
    (1, i * counter); the clustering puts the first vector into a cluster and calls the others noise. *)
Definition ex_finite (_ : R) : bool := true.
Definition ex_randint (n b : nat) (st : nat) : result (list (list nat)) * nat := (Ok (repeat (repeat 0%nat n) b), S st).
Definition ex_nmf (k : nat) (_ : list (list R)) (st : nat) : result (list (list R)) * nat := (Ok (map (fun i => [1; INR (i * st)]) (seq 0 k)), S st).
Definition ex_cluster (H : list (list R)) : result (list Z) := Ok (0%Z :: repeat (-1)%Z (length H - 1)).
Definition ex_all_noise (H : list (list R)) : result (list Z) := Ok (repeat (-1)%Z (length H)).
Definition ex_bad_labels (H : list (list R)) : result (list Z) := Ok [7%Z].
Definition ex_X : list (list R) := [[1; 2]; [3; 0]].
Definition ex_o (diss : bool) : nmf_state Rnum := mkNmf (N := Rnum) 2 (Some [2%nat; 1%nat]) diss None None None None None None.
Definition ex_boots : list (list (nat * list (list R))) :=
  [[(2%nat, [[1; INR 0]; [1; INR 1]]); (1%nat, [[1; INR 0]])]; [(2%nat, [[1; INR 0]; [1; INR 3]]); (1%nat, [[1; INR 0]])]].
Lemma ex_contract : forall k s st H st', (0 < k)%nat -> ex_nmf k s st = (Ok H, st') -> basis k 2 H /\ nonnegative H.
Proof.
  intros k s st H st' Hk E. injection E as <- <-. pose (g := fun i => [1; INR (i * st)]). change (basis k 2 (map g (seq 0 k)) /\ nonnegative (map g (seq 0 k))). split.
  - split.
    + split; [now rewrite map_length, seq_length|]. apply Forall_forall. intros r Hr. apply in_map_iff in Hr. destruct Hr as (i & <- & _). reflexivity.
    + intros i Hi. exists 0%nat. split; [lia|]. unfold mat. rewrite (nth_indep _ [] (g 0%nat)) by (now rewrite map_length, seq_length). rewrite (map_nth g). cbn. lra.
  - apply nonneg_of. apply Forall_forall. intros r Hr. apply in_map_iff in Hr. destruct Hr as (i & <- & _). constructor; [lra|constructor; [apply pos_INR|constructor]].
Qed.
Lemma ex_sizes : forall n b st reps st', ex_randint n b st = (Ok reps, st') -> length reps = b.
Proof. intros n b st reps st' E. injection E as <- <-. apply repeat_length. Qed.
Lemma ex_runs : all_factorized _ nat ex_nmf [2%nat; 1%nat] (map (fun rep => map (fun i => nth i ex_X []) rep) (repeat (repeat 0%nat 2) 2)) 1%nat ex_boots 5%nat.
Proof. repeat (econstructor; try reflexivity). Qed.
Lemma ex_labelling H : H <> [] -> exists labels, ex_cluster H = Ok labels /\ labelling 1 labels.
Proof.
  intro Ne. eexists. split; [reflexivity|]. split.
  - intros l [<-|I]; [right; lia|]. left. now apply repeat_spec in I.
  - intros c Hc. left. lia.
Qed.
Lemma ex_fit diss cons_meth : exists o', nmf_fit (N := Rnum) ex_finite nat ex_randint ex_nmf ex_cluster cons_meth ex_X 2 0%nat (ex_o diss) = (o', Ok tt, 5%nat).
Proof.
  apply (fit_returns ex_finite nat ex_randint ex_nmf ex_cluster cons_meth 2 ex_contract ex_sizes (fun _ => eq_refl) ex_X 0%nat (ex_o diss) [2%nat; 1%nat] (repeat (repeat 0%nat 2) 2) 1%nat ex_boots 5%nat 1%nat);
    [discriminate|apply nonneg_of; repeat constructor; lra|reflexivity|discriminate|repeat constructor|cbn; lia|reflexivity|exact ex_runs|lia|exact ex_labelling].
Qed.

(** A fitted object and a regression. *)
Definition ex_fitted : nmf_state Rnum := mkNmf (N := Rnum) 2 (Some [2%nat]) false (Some ex_H1) None None None None None.
(** Exact non-negative regression on the columns of [ex_H1]. *)
Definition ex_nnreg (A : list (list R)) (b : list R) : result (list R) := Ok [entry b 0; entry b 1 / 2].

Definition ex_half (A : list (list R)) (b : list R) : result (list R) := Ok [1/2; 1/2].
Definition ex_trunc (x : R) : R := if Rlt_dec x 1 then 0 else x.
Lemma ex_half_weights : forall A b w, ex_half A b = Ok w -> length w = 2%nat /\ forall c, 0 <= entry w c < 1.
Proof. intros A b w E. injection E as <-. split; [reflexivity|]. intros [|[|[|c]]]; cbn; lra. Qed.
(** Non-negative least squares with one feature and one component. *)
Definition ex_nnls1 (A : list (list R)) (b : list R) : result (list R) := Ok [if Req_EM_T (mat A 0 0) 0 then 0 else Rmax 0 (entry b 0 / mat A 0 0)].
Definition ex_fitted1 : nmf_state Rnum := mkNmf (N := Rnum) 2 (Some [2%nat]) false (Some [[2]]) None None None None None.
Lemma ex_nnls1_best : forall A b w, ex_nnls1 A b = Ok w -> length w = 1%nat /\ (forall c, 0 <= entry w c) /\
  forall v, length v = 1%nat -> (forall c, 0 <= entry v c) ->
    Sum 1 (fun j => (entry b j - Sum 1 (fun c => mat A j c * entry w c)) * (entry b j - Sum 1 (fun c => mat A j c * entry w c))) <=
    Sum 1 (fun j => (entry b j - Sum 1 (fun c => mat A j c * entry v c)) * (entry b j - Sum 1 (fun c => mat A j c * entry v c))).
Proof.
  intros A b w E. injection E as <-. set (a := mat A 0 0). set (t := entry b 0).
  assert (P : 0 <= (if Req_EM_T a 0 then 0 else Rmax 0 (t / a))) by (destruct (Req_EM_T a 0); [lra|apply Rmax_l]).
  split; [reflexivity|]. split; [intros [|[|c]]; cbn; [exact P|lra|lra]|]. intros v _ Pv. specialize (Pv 0%nat).
  assert (S1 : forall f, Sum 1 f = f 0%nat) by (intro f; rewrite Proofs_Rescale.Sum_S; unfold Sum; cbn; lra). rewrite !S1. fold a t. set (x := entry v 0) in *.
  change (entry [if Req_EM_T a 0 then 0 else Rmax 0 (t / a)] 0) with (if Req_EM_T a 0 then 0 else Rmax 0 (t / a)).
  destruct (Req_EM_T a 0) as [Z|Z]; [rewrite Z, !Rmult_0_l; lra|]. assert (Et : t = a * (t / a)) by (field; exact Z). set (u := t / a) in *. rewrite Et.
  assert (Q : (u - Rmax 0 u) * (u - Rmax 0 u) <= (u - x) * (u - x)).
  { unfold Rmax. destruct (Rle_dec 0 u) as [G|G].
    - replace (u - u) with 0 by ring. rewrite Rmult_0_l. apply Rle_0_sqr.
    - apply Rnot_le_lt in G. assert (0 <= x * (x - 2 * u)) by (apply Rmult_le_pos; lra). lra. }
  replace ((a * u - a * Rmax 0 u) * (a * u - a * Rmax 0 u)) with (a * a * ((u - Rmax 0 u) * (u - Rmax 0 u))) by ring.
  replace ((a * u - a * x) * (a * u - a * x)) with (a * a * ((u - x) * (u - x))) by ring.
  apply Rmult_le_compat_l; [apply Rle_0_sqr|exact Q].
Qed.

(** Binary64: rank 2 has a zero vector. *)
Local Open Scope Z_scope.
Definition fx_nmf (k : nat) (_ : list (list f64)) (st : nat) : result (list (list f64)) * nat :=
  (Ok (if Nat.eqb k 1 then [[fone; fone]] else map (fun i => [f64_of_Z (if Nat.eqb i 0 then 1 else 0); fzero]) (seq 0 k)), S st).
Definition fx_o : nmf_state (Fnum (fun x => x) (fun x => x)) := mkNmf (N := Fnum (fun x => x) (fun x => x)) 2 (Some [1%nat; 2%nat]) true None None None None None None.
Definition fx_cluster (H : list (list f64)) : result (list Z) := Ok (repeat 0 (length H)).
Definition fx_cons (H : list (list f64)) : list f64 := hd [] H.
Lemma fx_contract : forall k s st H st', fx_nmf k s st = (Ok H, st') -> shape k 2 H.
Proof.
  intros k s st H st' E. injection E as <- <-. destruct (Nat.eqb_spec k 1) as [->|Ne]; [split; [reflexivity|repeat constructor]|].
  split; [now rewrite map_length, seq_length|]. apply Forall_forall. intros r Hr. apply in_map_iff in Hr. destruct Hr as (i & <- & _). reflexivity.
Qed.
