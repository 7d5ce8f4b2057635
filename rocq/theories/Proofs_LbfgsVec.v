(** The optimizer's vector operations over the reals. *)
From Coq Require Import ZArith List Bool Arith Reals Lra Lia.
From Verif Require Import Prelude Num Spec_Rescale Proofs_Rescale Model_Lbfgs Proofs_Poisson Spec_Lbfgs.
Import ListNotations.
Local Open Scope R_scope.

(** ** Comparisons *)
Lemma Rleb_t a b : Rleb a b = true <-> a <= b.
Proof. unfold Rleb. destruct (Rle_dec a b); split; intros; auto; discriminate. Qed.
Lemma Rleb_f a b : Rleb a b = false <-> b < a.
Proof. unfold Rleb. destruct (Rle_dec a b); split; intros; auto; try discriminate; lra. Qed.
Lemma Rltb_t a b : Rltb a b = true <-> a < b.
Proof. unfold Rltb. destruct (Rlt_dec a b); split; intros; auto; discriminate. Qed.
Lemma Rltb_f a b : Rltb a b = false <-> b <= a.
Proof. unfold Rltb. destruct (Rlt_dec a b); split; intros; auto; try discriminate; lra. Qed.
Lemma Reqb_t a b : Reqb a b = true <-> a = b.
Proof. unfold Reqb. destruct (Req_EM_T a b); split; intros; auto; discriminate. Qed.
Lemma Reqb_f a b : Reqb a b = false <-> a <> b.
Proof. unfold Reqb. destruct (Req_EM_T a b); split; intros; auto; try discriminate; tauto. Qed.

(** ** Vectors *)
Lemma fold_dot l : forall a : R,
  fold_left (fun s p => s + fst p * snd p) l a = a + Sum (length l) (fun i => fst (nth i l (0, 0)) * snd (nth i l (0, 0))).
Proof.
  induction l as [|q l IH]; intros a; cbn [fold_left length].
  - rewrite Sum_0. lra.
  - rewrite IH, Sum_shift. cbn [nth]. lra.
Qed.
Lemma vecdot_dot n (a b : list R) : length a = n -> length b = n -> vecdot (N := Rnum) a b = dot n a b.
Proof.
  intros Ha Hb. unfold vecdot. transitivity (fold_left (fun s p => s + fst p * snd p) (combine a b) 0); [reflexivity|].
  rewrite fold_dot, Rplus_0_l, combine_length, Ha, Hb, Nat.min_id. unfold dot. apply Sum_ext. intros i Hi.
  rewrite combine_nth by congruence. reflexivity.
Qed.

Lemma length_vecadd n (y x : list R) c : length y = n -> length x = n -> length (vecadd (N := Rnum) y x c) = n.
Proof. intros. unfold vecadd. rr. now apply length_map2n. Qed.
Lemma entry_vecadd n (y x : list R) (c : R) i : length y = n -> length x = n -> (i < n)%nat ->
  entry (vecadd (N := Rnum) y x c) i = entry y i + c * entry x i.
Proof. intros. exact (entry_map2n (fun a b => a + c * b) n y x i ltac:(assumption) ltac:(assumption) ltac:(assumption)). Qed.
Lemma length_vecdiff n (y x : list R) : length y = n -> length x = n -> length (vecdiff (N := Rnum) y x) = n.
Proof. intros. unfold vecdiff. rr. now apply length_map2n. Qed.
Lemma entry_vecdiff n (y x : list R) i : length y = n -> length x = n -> (i < n)%nat ->
  entry (vecdiff (N := Rnum) y x) i = entry y i - entry x i.
Proof. intros. exact (entry_map2n Rminus n y x i ltac:(assumption) ltac:(assumption) ltac:(assumption)). Qed.
Lemma length_vecscale n (y : list R) c : length y = n -> length (vecscale (N := Rnum) y c) = n.
Proof. intros. unfold vecscale. rr. now rewrite map_length. Qed.
Lemma entry_vecscale n (y : list R) (c : R) i : length y = n -> (i < n)%nat ->
  entry (vecscale (N := Rnum) y c) i = entry y i * c.
Proof. intros. exact (entry_mapn (fun a => a * c) n y i ltac:(assumption) ltac:(assumption)). Qed.
Lemma length_vecncpy n (y : list R) : length y = n -> length (vecncpy (N := Rnum) y) = n.
Proof. intros. unfold vecncpy. rr. now rewrite map_length. Qed.
Lemma entry_vecncpy n (y : list R) i : length y = n -> (i < n)%nat -> entry (vecncpy (N := Rnum) y) i = - entry y i.
Proof. intros. exact (entry_mapn Ropp n y i ltac:(assumption) ltac:(assumption)). Qed.

Lemma mapi_from_length {A B} (h : nat -> A -> B) l : forall k, length (mapi_from k h l) = length l.
Proof. induction l; intros; cbn; auto. Qed.
Lemma mapi_from_nth {A B} (h : nat -> A -> B) d d' l : forall k i, (i < length l)%nat ->
  nth i (mapi_from k h l) d' = h (k + i)%nat (nth i l d).
Proof.
  induction l as [|a l IH]; intros k i Hi; cbn in *; [lia|]. destruct i; cbn; [now rewrite Nat.add_0_r|].
  rewrite IH by lia. now rewrite Nat.add_succ_r.
Qed.
Lemma mapi_combine_length {A} (h : nat -> R * R -> A) n (a b : list R) : length a = n -> length b = n ->
  length (mapi h (combine a b)) = n.
Proof. intros Ha Hb. unfold mapi. rewrite mapi_from_length, combine_length, Ha, Hb. apply Nat.min_id. Qed.
Lemma mapi_combine_entry (h : nat -> R * R -> R) n (a b : list R) i : length a = n -> length b = n -> (i < n)%nat ->
  entry (mapi h (combine a b)) i = h i (entry a i, entry b i).
Proof.
  intros Ha Hb Hi. unfold mapi, entry. rewrite (mapi_from_nth h (0, 0)) by (rewrite combine_length, Ha, Hb; lia).
  rewrite combine_nth by congruence. reflexivity.
Qed.

Lemma entry_beyond (x : list R) i : (length x <= i)%nat -> entry x i = 0.
Proof. apply nth_overflow. Qed.

(** ** The pseudo-gradient *)
Definition rpseudo (c x g : R) : R :=
  if Rltb x 0 then g - c else if Rltb 0 x then g + c else if Rltb g (- c) then g + c else if Rltb c g then g - c else 0.
Lemma rpseudo_cases c x g : 0 <= c ->
  (x < 0 /\ rpseudo c x g = g - c) \/ (0 < x /\ rpseudo c x g = g + c) \/
  (x = 0 /\ g < - c /\ rpseudo c x g = g + c) \/ (x = 0 /\ c < g /\ rpseudo c x g = g - c) \/
  (x = 0 /\ - c <= g <= c /\ rpseudo c x g = 0).
Proof.
  intros Hc. unfold rpseudo. destruct (Rltb x 0) eqn:E1; [apply Rltb_t in E1; auto|apply Rltb_f in E1].
  destruct (Rltb 0 x) eqn:E2; [apply Rltb_t in E2; auto|apply Rltb_f in E2]. assert (x = 0) by lra.
  destruct (Rltb g (- c)) eqn:E3; [apply Rltb_t in E3; auto 12|apply Rltb_f in E3].
  destruct (Rltb c g) eqn:E4; [apply Rltb_t in E4|apply Rltb_f in E4]; auto 12.
Qed.
Lemma entry_pseudo n (x g : list R) (c : R) b e i : length x = n -> length g = n -> (i < n)%nat ->
  entry (owlqn_pseudo_gradient (N := Rnum) x g c b e) i =
  if in_range b e i then rpseudo c (entry x i) (entry g i) else entry g i.
Proof.
  intros Hx Hg Hi. unfold owlqn_pseudo_gradient. rr. rewrite (mapi_combine_entry _ n) by assumption. reflexivity.
Qed.
Lemma length_pseudo n (x g : list R) (c : R) b e : length x = n -> length g = n ->
  length (owlqn_pseudo_gradient (N := Rnum) x g c b e) = n.
Proof. intros. now apply mapi_combine_length. Qed.
Lemma entry_project n (d w : list R) b e i : length d = n -> length w = n -> (i < n)%nat ->
  entry (owlqn_project (N := Rnum) d w b e) i =
  if (in_range b e i && Rleb (entry d i * entry w i) 0)%bool then 0 else entry d i.
Proof. intros. unfold owlqn_project. rr. rewrite (mapi_combine_entry _ n) by assumption. reflexivity. Qed.
Lemma length_project n (d w : list R) b e : length d = n -> length w = n -> length (owlqn_project (N := Rnum) d w b e) = n.
Proof. intros. now apply mapi_combine_length. Qed.
Lemma entry_constrain n (d w : list R) b e i : length d = n -> length w = n -> (i < n)%nat ->
  entry (constrain (N := Rnum) b e d w) i =
  if (in_range b e i && Rleb 0 (entry d i * entry w i))%bool then 0 else entry d i.
Proof. intros. unfold constrain. rr. rewrite (mapi_combine_entry _ n) by assumption. reflexivity. Qed.
Lemma length_constrain n (d w : list R) b e : length d = n -> length w = n -> length (constrain (N := Rnum) b e d w) = n.
Proof. intros. now apply mapi_combine_length. Qed.

Lemma fold_l1 (x : list R) b k : forall a,
  fold_left (fun s i => s + Rabs (nth i x 0)) (seq b k) a = a + Sum k (fun i => Rabs (entry x (b + i))).
Proof.
  revert b. induction k as [|k IH]; intros b a; cbn [seq fold_left].
  - rewrite Sum_0. lra.
  - rewrite IH, Sum_shift, Nat.add_0_r. unfold entry.
    rewrite (Sum_ext k (fun i => Rabs (nth (S b + i) x 0)) (fun j => Rabs (nth (b + S j) x 0))); [lra|].
    intros j _. now rewrite Nat.add_succ_r.
Qed.
Lemma x1norm_l1 (x : list R) b e : owlqn_x1norm (N := Rnum) x b e = l1 b e x.
Proof.
  unfold owlqn_x1norm, l1. transitivity (fold_left (fun s i => s + Rabs (nth i x 0)) (seq b (e - b)) 0); [reflexivity|].
  rewrite fold_l1. lra.
Qed.

(** ** Vectors with vanishing coordinates *)
Definition fine (n : nat) (z : nat -> bool) (x : list R) : Prop := length x = n /\ vanishes z x.

Section Fine.
  Variable n : nat.
  Variable z : nat -> bool.
  Lemma fine_of x : length x = n -> (forall i, (i < n)%nat -> z i = true -> entry x i = 0) -> fine n z x.
  Proof.
    intros Hl H. split; [exact Hl|]. intros i Hi. destruct (Nat.lt_ge_cases i n) as [|Hn]; [auto|].
    apply entry_beyond. lia.
  Qed.
  Lemma fine_vecadd y x (c : R) : fine n z y -> fine n z x -> fine n z (vecadd (N := Rnum) y x c).
  Proof.
    intros [Hy Vy] [Hx Vx]. apply fine_of; [now apply length_vecadd|]. intros i Hi Hz.
    rewrite (entry_vecadd n) by assumption. rewrite Vy, Vx by assumption. lra.
  Qed.
  Lemma fine_vecdiff y x : fine n z y -> fine n z x -> fine n z (vecdiff (N := Rnum) y x).
  Proof.
    intros [Hy Vy] [Hx Vx]. apply fine_of; [now apply length_vecdiff|]. intros i Hi Hz.
    rewrite (entry_vecdiff n) by assumption. rewrite Vy, Vx by assumption. lra.
  Qed.
  Lemma fine_vecscale y (c : R) : fine n z y -> fine n z (vecscale (N := Rnum) y c).
  Proof.
    intros [Hy Vy]. apply fine_of; [now apply length_vecscale|]. intros i Hi Hz.
    rewrite (entry_vecscale n) by assumption. rewrite Vy by assumption. lra.
  Qed.
  Lemma fine_vecncpy y : fine n z y -> fine n z (vecncpy (N := Rnum) y).
  Proof.
    intros [Hy Vy]. apply fine_of; [now apply length_vecncpy|]. intros i Hi Hz.
    rewrite (entry_vecncpy n) by assumption. rewrite Vy by assumption. lra.
  Qed.
  Lemma fine_zeros : fine n z (repeat 0 n).
  Proof. split; [apply repeat_length|]. intros i _. apply entry_zeros. Qed.
  Lemma fine_project d sg b e : fine n z d -> length sg = n -> fine n z (owlqn_project (N := Rnum) d sg b e).
  Proof.
    intros [Hd Vd] Hs. apply fine_of; [now apply length_project|]. intros i Hi Hz.
    rewrite (entry_project n) by assumption. destruct (_ && _)%bool; [reflexivity|now apply Vd].
  Qed.
  Lemma fine_constrain d pg b e : fine n z d -> length pg = n -> fine n z (constrain (N := Rnum) b e d pg).
  Proof.
    intros [Hd Vd] Hs. apply fine_of; [now apply length_constrain|]. intros i Hi Hz.
    rewrite (entry_constrain n) by assumption. destruct (_ && _)%bool; [reflexivity|now apply Vd].
  Qed.
  Lemma fine_pseudo x g (c : R) b e : 0 < c -> fine n z x -> fine n z g -> fine n z (owlqn_pseudo_gradient (N := Rnum) x g c b e).
  Proof.
    intros Hc [Hx Vx] [Hg Vg]. apply fine_of; [now apply length_pseudo|]. intros i Hi Hz.
    rewrite (entry_pseudo n) by assumption. destruct (in_range b e i); [|now apply Vg].
    rewrite (Vx i Hz), (Vg i Hz). destruct (rpseudo_cases c 0 0) as [[]|[[]|[(?&?&?)|[(?&?&?)|(?&?&?)]]]]; lra.
  Qed.

  (** The two loops of the direction. *)
  Definition fine_corr (it : correction Rnum) : Prop := fine n z (c_s it) /\ fine n z (c_y it).
  Lemma Forall_lset {A} (Q : A -> Prop) l k v : Forall Q l -> Q v -> Forall Q (lset k v l).
  Proof.
    intros H Hv. revert k. induction H as [|a l Ha H IH]; intros [|k]; cbn; auto.
  Qed.
  Lemma nth_Forall {A} (Q : A -> Prop) l k d : Forall Q l -> (k < length l)%nat -> Q (nth k l d).
  Proof. intros H Hk. rewrite Forall_forall in H. apply H, nth_In, Hk. Qed.

  Lemma first_loop_fine m : (0 < m)%nat -> forall bound j (lm : list (correction Rnum)) d,
    length lm = m -> Forall fine_corr lm -> fine n z d ->
    let q := first_loop m bound j lm d in
    length (snd (fst q)) = m /\ Forall fine_corr (snd (fst q)) /\ fine n z (snd q) /\ ((j < m)%nat -> (fst (fst q) < m)%nat).
  Proof.
    intros Hm. induction bound as [|bound IH]; intros j lm d Hl Hf Hd; cbn [first_loop].
    - cbv zeta. auto.
    - cbv zeta. set (j' := Nat.modulo (j + m - 1) m).
      assert (Hj : (j' < m)%nat) by (apply Nat.mod_upper_bound; lia).
      assert (Hit : fine_corr (nth j' lm (blank 0))) by (apply nth_Forall; [exact Hf|lia]).
      destruct Hit as [Hs Hy].
      match goal with |- context [first_loop m bound j' ?l ?v] => specialize (IH j' l v) end. cbv zeta in IH.
      destruct IH as (I1 & I2 & I3 & I4).
      + now rewrite length_lset.
      + apply Forall_lset; [exact Hf|]. split; assumption.
      + apply fine_vecadd; assumption.
      + auto.
  Qed.
  Lemma second_loop_fine m : (0 < m)%nat -> forall bound j (lm : list (correction Rnum)) d,
    length lm = m -> (j < m)%nat -> Forall fine_corr lm -> fine n z d -> fine n z (second_loop m bound j lm d).
  Proof.
    intros Hm. induction bound as [|bound IH]; intros j lm d Hl Hj Hf Hd; cbn [second_loop]; [exact Hd|].
    cbv zeta. assert (Hit : fine_corr (nth j lm (blank 0))) by (apply nth_Forall; [exact Hf|lia]).
    apply IH; auto; [apply Nat.mod_upper_bound; lia|]. apply fine_vecadd; [exact Hd|apply Hit].
  Qed.
End Fine.
