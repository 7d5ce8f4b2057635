(** Concrete matrices for the examples about column subset selection. *)
From Coq Require Import ZArith List Bool Arith Reals Permutation Sorted Lia Lra.
From Verif Require Import Prelude F64 Num Spec_Rescale Spec_Poisson Model_Thresholds Model_Cur Spec_Cur
  Proofs_Rescale Proofs_Poisson Proofs_Cur Proofs_CurFit Proofs_CurReal Proofs_CurMain.
Import ListNotations.

(** Two columns with leverage scores 9/25 and 16/25, whatever the bootstrap. *)
Definition ex_V : list (list R) := [[(3/5)%R]; [(4/5)%R]].
Definition ex_X : list (list R) := [[1%R; 2%R]; [3%R; 4%R]; [5%R; 6%R]].
(** A generator that counts, a split into one training row. *)
Definition ex_tts (st : nat) : result (list nat) * nat := (Ok [Nat.modulo st 3], S st).
Definition ex_svd (X : list (list R)) (st : nat) : result (list (list R)) * nat := (Ok ex_V, S st).
Definition ex_of (x : f64) : R := 1%R.
Definition ex_g (a : random_arg) : cur_config := mkCurConfig 2 1 false (PyFloat fone) a.
Definition ex_l : list (list nat * list (list R)) := [([0], ex_V); ([2], ex_V)].
Definition ex_one : option pyval := Some (PyNdInt [1%Z]).

Lemma ex_matrix : matrix 2 1 ex_V.
Proof. split; [reflexivity|]. repeat constructor. Qed.
Lemma ex_shape a X st V st' : ex_svd X st = (Ok V, st') -> matrix 2 (Z.to_nat (max_k (ex_g a))) V.
Proof. intro H. injection H as <- _. exact ex_matrix. Qed.
Lemma ex_ks : valid_ks 1 None [1%Z].
Proof. constructor; [reflexivity|]. intros [|i] Hi; [reflexivity|]. cbn in Hi. lia. Qed.
Lemma ex_cs : valid_cs [1%Z] ex_one (CountsInt [1%Z]).
Proof. split; [constructor|]. split; [repeat constructor|reflexivity]. Qed.
Lemma ex_t a : cur_stability_selection_to_threshold (stability_selection (ex_g a)) (n_boots (ex_g a)) = Ok 2%Z.
Proof. reflexivity. Qed.
Lemma ex_boots : boots (list (list R)) nat (source_of (fun z => Z.to_nat z) (random_state (ex_g Generator)))
  (split_of (boots_frac_is_1 (ex_g Generator)) (length ex_X) ex_tts) ex_svd (rows_of ex_X) 0 ex_l 4.
Proof. econstructor; [reflexivity|reflexivity|]. econstructor; [reflexivity|reflexivity|]. constructor. Qed.
Lemma ex_boots_seed : boots (list (list R)) nat (source_of (fun z => Z.to_nat z) (random_state (ex_g (Seed 5))))
  (split_of (boots_frac_is_1 (ex_g (Seed 5))) (length ex_X) ex_tts) ex_svd (rows_of ex_X) 0 [([2], ex_V); ([2], ex_V)] 0.
Proof. econstructor; [split; reflexivity|split; reflexivity|]. econstructor; [split; reflexivity|split; reflexivity|]. constructor. Qed.
Lemma ex_leverage0 : leverage 1 ex_V 0 = (9/25)%R.
Proof. unfold leverage, Sum, mat, entry, ex_V. simpl. field. Qed.
Lemma ex_leverage1 : leverage 1 ex_V 1 = (16/25)%R.
Proof. unfold leverage, Sum, mat, entry, ex_V. simpl. field. Qed.
Lemma ex_probability j : j < 2 -> (0 < probability 1 ex_V 1 j < 1)%R.
Proof.
  intro H. destruct j as [|[|j]]; [| |lia]; unfold probability; rewrite ?ex_leverage0, ?ex_leverage1; rewrite Rmin_right; lra.
Qed.
Lemma ex_unit : unit_columns 2 1 ex_V.
Proof. intros [|i] Hi; [|lia]. unfold Sum, mat, entry, ex_V. simpl. field. Qed.

(** Insertion sort of indices: an argsort. *)
Fixpoint ex_insert (l : list R) (i : nat) (s : list nat) : list nat :=
  match s with
  | [] => [i]
  | k :: r => if Rleb (nth i l 0%R) (nth k l 0%R) then i :: k :: r else k :: ex_insert l i r
  end.
Definition ex_argsort (l : list R) : list nat := fold_right (ex_insert l) [] (seq 0 (length l)).
Lemma ex_insert_perm l i s : Permutation (ex_insert l i s) (i :: s).
Proof.
  induction s as [|k s IH]; cbn; [easy|]. destruct (Rleb _ _); [easy|].
  etransitivity; [apply perm_skip, IH|]. apply perm_swap.
Qed.
Lemma ex_insert_sorted l i s : StronglySorted Rle (map (fun i => nth i l 0%R) s) -> StronglySorted Rle (map (fun i => nth i l 0%R) (ex_insert l i s)).
Proof.
  induction s as [|k s IH]; intro H; cbn; [repeat constructor|].
  cbn [map] in H. apply StronglySorted_inv in H. destruct H as [H1 H2].
  unfold Rleb. destruct (Rle_dec (nth i l 0%R) (nth k l 0%R)) as [L|L]; cbn [map].
  - constructor; [now constructor|]. constructor; [exact L|]. eapply Forall_impl; [|exact H2]. cbn. intros; lra.
  - constructor; [now apply IH|]. rewrite Forall_forall in *. intros x Hx.
    assert (In x (map (fun i => nth i l 0%R) (i :: s))).
    { eapply Permutation_in; [apply Permutation_map, ex_insert_perm|exact Hx]. }
    destruct H as [<-|H]; [lra|auto].
Qed.
Lemma ex_sorts : sorts ex_argsort.
Proof.
  intro l. unfold ex_argsort. generalize (seq 0 (length l)). intro s. split.
  - induction s as [|i s IH]; cbn; [easy|]. etransitivity; [apply ex_insert_perm|]. now apply perm_skip.
  - induction s as [|i s IH]; cbn; [constructor|]. now apply ex_insert_sorted.
Qed.
