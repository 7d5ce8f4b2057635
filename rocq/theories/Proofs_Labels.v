(** Lemmas about class labels and codes (C98-C100). *)
From Coq Require Import String ZArith List Bool Arith Lia Sorting.Sorted FinFun.
From Verif Require Import Prelude Num Model_Labels Spec_Rescale Spec_Labels.
Import ListNotations.
Local Open Scope list_scope.

Lemma label_eqb_eq a b : label_eqb a b = true <-> a = b.
Proof.
  destruct a as [x|x], b as [y|y]; cbn; split; intro H; try discriminate.
  - apply Z.eqb_eq in H. now subst.
  - injection H as ->. apply Z.eqb_refl.
  - apply String.eqb_eq in H. now subst.
  - injection H as ->. apply String.eqb_refl.
Qed.
Lemma label_eqb_refl a : label_eqb a a = true.
Proof. now apply label_eqb_eq. Qed.
Lemma label_eqb_neq a b : label_eqb a b = false <-> a <> b.
Proof.
  destruct (label_eqb a b) eqn:E; split; intro H; try discriminate.
  - apply label_eqb_eq in E. contradiction.
  - intros ->. now rewrite label_eqb_refl in E.
  - reflexivity.
Qed.
Lemma label_eqb_sym a b : label_eqb a b = label_eqb b a.
Proof.
  destruct (label_eqb a b) eqn:E.
  - apply label_eqb_eq in E as ->. now rewrite label_eqb_refl.
  - symmetry. apply label_eqb_neq. apply label_eqb_neq in E. now intros ->.
Qed.
Lemma existsb_label l c : existsb (label_eqb l) c = true <-> In l c.
Proof.
  rewrite existsb_exists. split.
  - intros (x & Hx & E). apply label_eqb_eq in E. now subst.
  - intro H. exists l. split; [exact H|apply label_eqb_refl].
Qed.

(** ** np.unique *)
Lemma insert_In l c x : In x (insert_label l c) <-> x = l \/ In x c.
Proof.
  induction c as [|h r IH]; cbn; [intuition congruence|].
  destruct (label_leb l h); cbn; [|rewrite IH]; intuition congruence.
Qed.
Lemma unique_In y l : In l (unique_labels y) <-> In l y.
Proof.
  induction y as [|h r IH]; [reflexivity|]. cbn [unique_labels fold_right]. fold (unique_labels r).
  destruct (existsb (label_eqb h) (unique_labels r)) eqn:E.
  - apply existsb_label in E. cbn. rewrite IH. split; [tauto|]. intros [<-|H]; [now apply IH|exact H].
  - rewrite insert_In, IH. cbn. intuition congruence.
Qed.
Lemma insert_NoDup l c : ~ In l c -> NoDup c -> NoDup (insert_label l c).
Proof.
  induction c as [|h r IH]; intros Hl Hc; [repeat constructor; auto|]. cbn.
  destruct (label_leb l h); [now constructor|].
  inversion Hc; subst. constructor; [|apply IH; [cbn in Hl; tauto|assumption]].
  rewrite insert_In. cbn in Hl. intros [->|H']; [tauto|contradiction].
Qed.
Lemma unique_NoDup y : NoDup (unique_labels y).
Proof.
  induction y as [|h r IH]; [constructor|]. cbn [unique_labels fold_right]. fold (unique_labels r).
  destruct (existsb (label_eqb h) (unique_labels r)) eqn:E; [exact IH|].
  apply insert_NoDup; [|exact IH]. intro H. apply existsb_label in H. congruence.
Qed.
Definition label_le (a b : label) : Prop := label_leb a b = true.
Lemma label_leb_total a b : label_leb a b = false -> label_leb b a = true.
Proof.
  destruct a, b; cbn; try discriminate; try reflexivity.
  - intro H. apply Z.leb_gt in H. apply Z.leb_le. lia.
  - intro H. destruct (String.leb_total s s0) as [E|E]; congruence.
Qed.
Lemma insert_Sorted l c : Sorted label_le c -> Sorted label_le (insert_label l c).
Proof.
  induction c as [|h r IH]; intro H; [repeat constructor|]. cbn.
  destruct (label_leb l h) eqn:E.
  - constructor; [exact H|]. constructor. exact E.
  - apply label_leb_total in E. inversion H as [|x y Hr Hh]; subst. constructor; [now apply IH|].
    destruct r as [|g r]; cbn; [constructor; exact E|].
    destruct (label_leb l g); constructor; [exact E|]. now inversion Hh.
Qed.
Lemma unique_Sorted y : Sorted label_le (unique_labels y).
Proof.
  induction y as [|h r IH]; [constructor|]. cbn [unique_labels fold_right]. fold (unique_labels r).
  destruct (existsb (label_eqb h) (unique_labels r)); [exact IH|now apply insert_Sorted].
Qed.
Lemma Sorted_nth c : Sorted label_le c -> forall i a b, nth_error c i = Some a -> nth_error c (S i) = Some b -> label_le a b.
Proof.
  induction 1 as [|h r Hr IH Hh]; intros i a b Ha Hb; [destruct i; discriminate|].
  destruct i as [|i].
  - injection Ha as <-. destruct Hh as [|g r Hg]; [discriminate|]. now injection Hb as <-.
  - exact (IH i a b Ha Hb).
Qed.
Lemma unique_classes y : class_list y (unique_labels y).
Proof.
  split; [apply unique_NoDup|]. split; [apply unique_In|].
  assert (D : forall i l, nth_error (unique_labels y) i = Some l -> nth_error (unique_labels y) (S i) <> Some l).
  { intros i l Ha Hb. assert (i = S i); [|lia].
    apply (proj1 (NoDup_nth_error (unique_labels y)) (unique_NoDup y)); [|congruence].
    apply nth_error_Some. congruence. }
  split; intros i a b Ha Hb; pose proof (Sorted_nth _ (unique_Sorted y) i _ _ Ha Hb) as H; cbn in H.
  - apply Z.leb_le in H. assert (a <> b); [|lia]. intros ->. exact (D _ _ Ha Hb).
  - change (String.leb a b = true) in H. unfold String.leb in H. destruct (String.compare a b) eqn:E; [|reflexivity|discriminate H].
    apply String.compare_eq_iff in E. subst b. destruct (D _ _ Ha Hb).
Qed.

(** ** Positions *)
Lemma index_Some l c i : label_index l c = Some i -> nth_error c i = Some l.
Proof.
  revert i. induction c as [|h r IH]; intros i H; [discriminate|]. cbn in H.
  destruct (label_eqb l h) eqn:E.
  - injection H as <-. apply label_eqb_eq in E. now subst.
  - destruct (label_index l r) as [j|]; [|discriminate]. injection H as <-. now apply IH.
Qed.
Lemma index_In l c : In l c -> exists i, label_index l c = Some i.
Proof.
  induction c as [|h r IH]; [intros []|]. cbn. destruct (label_eqb l h) eqn:E; [eauto|].
  intros [->|H]; [now rewrite label_eqb_refl in E|]. destruct (IH H) as [i ->]. eexists; reflexivity.
Qed.
Lemma index_None l c : label_index l c = None <-> ~ In l c.
Proof.
  split.
  - intros H Hl. apply index_In in Hl as [i E]. congruence.
  - intro H. destruct (label_index l c) as [i|] eqn:E; [|reflexivity]. apply index_Some, nth_error_In in E. contradiction.
Qed.
Lemma index_nth c i l : NoDup c -> nth_error c i = Some l -> label_index l c = Some i.
Proof.
  intros Hc H. destruct (index_In l c) as [j E]; [now apply nth_error_In in H|]. rewrite E. f_equal.
  apply (proj1 (NoDup_nth_error c) Hc).
  - apply index_Some in E. apply nth_error_Some. congruence.
  - rewrite (index_Some _ _ _ E). now rewrite H.
Qed.
Lemma encode_In c l : In l c -> nth_error c (encode c l) = Some l.
Proof. intro H. unfold encode. destruct (index_In l c H) as [i E]. rewrite E. now apply index_Some. Qed.
Lemma encode_lt c l : In l c -> encode c l < length c.
Proof. intro H. apply encode_In in H. apply nth_error_Some. congruence. Qed.
Lemma encode_nth c i l : NoDup c -> nth_error c i = Some l -> encode c l = i.
Proof. intros Hc H. unfold encode. now rewrite (index_nth c i l Hc H). Qed.

(** ** Codes *)
Lemma length_codes y : length (codes y) = length y.
Proof. apply map_length. Qed.
Lemma codes_label y i : i < length y -> nth_error (unique_labels y) (nth i (codes y) 0) = nth_error y i.
Proof.
  intro Hi. unfold codes. destruct (nth_error y i) as [l|] eqn:E.
  - rewrite (nth_indep _ 0 (encode (unique_labels y) l)) by now rewrite map_length.
    rewrite map_nth. rewrite (nth_error_nth y i l E). apply encode_In, unique_In. now apply nth_error_In in E.
  - apply nth_error_None in E. lia.
Qed.
Lemma codes_lt y c : In c (codes y) -> c < length (unique_labels y).
Proof. intro H. apply in_map_iff in H as (l & <- & Hl). apply encode_lt. now apply unique_In. Qed.
Lemma codes_all y c : c < length (unique_labels y) -> In c (codes y).
Proof.
  intro H. destruct (nth_error (unique_labels y) c) as [l|] eqn:E; [|apply nth_error_None in E; lia].
  unfold codes. apply in_map_iff. exists l. split; [exact (encode_nth _ _ _ (unique_NoDup y) E)|].
  apply unique_In. now apply nth_error_In in E.
Qed.

Lemma nth_error_eq {A} (a b : list A) : (forall i, nth_error a i = nth_error b i) -> a = b.
Proof.
  revert b. induction a as [|x a IH]; intros [|y b] H; [reflexivity|discriminate (H 0)|discriminate (H 0)|].
  f_equal; [now injection (H 0)|]. apply IH. intro i. exact (H (S i)).
Qed.
(** Sorted lists of numbers with the same elements are equal. *)
Lemma numbers_length k : length (numbers k) = k.
Proof. unfold numbers. now rewrite map_length, seq_length. Qed.
Lemma numbers_nth k i : i < k -> nth_error (numbers k) i = Some (LInt (Z.of_nat i)).
Proof.
  intro H. unfold numbers. rewrite nth_error_map. rewrite (nth_error_nth' (seq 0 k) 0) by now rewrite seq_length.
  now rewrite seq_nth.
Qed.
Lemma numbers_In k l : In l (numbers k) <-> exists i, i < k /\ l = LInt (Z.of_nat i).
Proof.
  unfold numbers. rewrite in_map_iff. split.
  - intros (i & <- & H). apply in_seq in H. exists i. split; [lia|reflexivity].
  - intros (i & H & ->). exists i. split; [reflexivity|apply in_seq; lia].
Qed.
Lemma numbers_classes y c k : class_list y c -> (forall l, In l y <-> In l (numbers k)) -> c = numbers k.
Proof.
  intros (D & I & S & _) H.
  assert (I' : forall l, In l c <-> In l (numbers k)) by (intro l; now rewrite I, H).
  assert (DN : NoDup (numbers k)).
  { unfold numbers. apply FinFun.Injective_map_NoDup; [|apply seq_NoDup]. intros a b E. injection E as E. lia. }
  assert (L : length c = k).
  { rewrite <- (numbers_length k). apply Nat.le_antisymm; apply NoDup_incl_length; try assumption; intros l; apply I'. }
  assert (Int : forall i, i < k -> exists a, nth_error c i = Some (LInt (Z.of_nat a)) /\ a < k).
  { intros i Hi. destruct (nth_error c i) as [l|] eqn:E; [|apply nth_error_None in E; lia].
    apply nth_error_In, I', numbers_In in E as (a & Ha & ->). eauto. }
  assert (Low : forall i a, i < k -> nth_error c i = Some (LInt (Z.of_nat a)) -> i <= a).
  { induction i as [|i IH]; intros a Hi E; [lia|]. destruct (Int i ltac:(lia)) as (b & Eb & _).
    specialize (S i _ _ Eb E). specialize (IH b ltac:(lia) Eb). lia. }
  assert (High : forall m i a, i + m = k -> i < k -> nth_error c i = Some (LInt (Z.of_nat a)) -> a + m <= k).
  { induction m as [|m IH]; intros i a Hm Hi E; [lia|]. destruct m as [|m].
    - destruct (Int i Hi) as (b & Eb & Hb). rewrite E in Eb. injection Eb as Eb. lia.
    - destruct (Int (Datatypes.S i) ltac:(lia)) as (b & Eb & _).
      specialize (S i _ _ E Eb). specialize (IH (Datatypes.S i) b ltac:(lia) ltac:(lia) Eb). lia. }
  apply nth_error_eq. intro i. destruct (Nat.lt_ge_cases i k) as [Hi|Hi].
  - rewrite (numbers_nth k i Hi). destruct (Int i Hi) as (a & Ea & _). rewrite Ea.
    pose proof (Low i a Hi Ea). pose proof (High (k - i) i a ltac:(lia) Hi Ea). do 3 f_equal. lia.
  - rewrite (proj2 (nth_error_None c i)) by lia. symmetry. apply nth_error_None. rewrite numbers_length. lia.
Qed.
Lemma masked_numbers y : masked_classes y = numbers (length (unique_labels y)).
Proof.
  apply (numbers_classes (map of_code (codes y))); [apply unique_classes|]. intro l. rewrite in_map_iff, numbers_In. split.
  - intros (c & <- & H). exists c. split; [now apply codes_lt|reflexivity].
  - intros (i & H & ->). exists i. split; [reflexivity|now apply codes_all].
Qed.
Lemma recode y : codes (map of_code (codes y)) = codes y.
Proof.
  unfold codes at 1. fold (masked_classes y). rewrite masked_numbers, map_map.
  rewrite <- (map_id (codes y)) at 2. apply map_ext_in. intros c H. apply codes_lt in H.
  apply encode_nth; [|now apply numbers_nth]. rewrite <- masked_numbers. apply unique_NoDup.
Qed.
Lemma recode_classes y : masked_classes (map of_code (codes y)) = masked_classes y.
Proof. unfold masked_classes at 1. now rewrite recode. Qed.

(** ** The class as which a sample is counted *)
Lemma counted_unique classes c j j' : NoDup classes -> counted_as classes c j -> counted_as classes c j' -> j = j'.
Proof.
  intro D. unfold counted_as. destruct (Nat.eqb (length classes) 2).
  - intros [[A ->]|[A ->]] [[B ->]|[B ->]]; congruence.
  - destruct j as [j|], j' as [j'|]; intros A B; try reflexivity.
    + f_equal. apply (proj1 (NoDup_nth_error classes) D); [apply nth_error_Some; congruence|congruence].
    + apply nth_error_In in A. contradiction.
    + apply nth_error_In in B. contradiction.
Qed.
Lemma counted_numbers k c : 2 <= k -> c < k -> counted_as (numbers k) c (Some c).
Proof.
  intros Hk Hc. unfold counted_as. rewrite numbers_length. destruct (Nat.eqb_spec k 2) as [->|Hk2].
  - destruct c as [|[|c]]; [right|left|lia]; (split; [|reflexivity]); cbn; congruence.
  - now apply numbers_nth.
Qed.
(** The classes are counted as what they are exactly if they are called 0, ..., k-1 or, if
    there are two of them, if the second one is called 1. *)
Lemma counted_right classes : 2 <= length classes ->
  (forall c, c < length classes -> counted_as classes c (Some c)) <->
  (if Nat.eqb (length classes) 2 then nth_error classes 1 = Some (LInt 1) else classes = numbers (length classes)).
Proof.
  intro Hk. unfold counted_as. destruct (Nat.eqb_spec (length classes) 2) as [E|E].
  - split.
    + intro H. destruct (H 1 ltac:(lia)) as [[A _]|[_ A]]; [exact A|discriminate].
    + intros H c Hc. rewrite E in Hc. destruct c as [|[|c]]; [right|left|lia]; (split; [|reflexivity]); rewrite H; cbn; congruence.
  - split.
    + intro H. apply nth_error_eq. intro i. destruct (Nat.lt_ge_cases i (length classes)) as [Hi|Hi].
      * rewrite (H i Hi). now rewrite numbers_nth.
      * rewrite (proj2 (nth_error_None classes i) Hi). symmetry. apply nth_error_None. now rewrite numbers_length.
    + intros H c Hc. rewrite H. now apply numbers_nth.
Qed.
