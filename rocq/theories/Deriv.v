(** Derivatives of finite sums and of compositions (standard library derivatives). *)
From Coq Require Import List Reals Lra Lia Arith.
From Verif Require Import Spec_Rescale Proofs_Rescale.
Local Open Scope R_scope.

Lemma der_ext f g x l : (forall t, f t = g t) -> derivable_pt_lim f x l -> derivable_pt_lim g x l.
Proof.
  intros E H eps He. destruct (H eps He) as [d Hd]. exists d. intros h Hh Hl. rewrite <- !E. now apply Hd.
Qed.
Lemma der_val f x l l' : l = l' -> derivable_pt_lim f x l -> derivable_pt_lim f x l'.
Proof. now intros <-. Qed.
Lemma der_const k x : derivable_pt_lim (fun _ => k) x 0.
Proof. apply derivable_pt_lim_const. Qed.
Lemma der_id x : derivable_pt_lim (fun t => t) x 1.
Proof. apply derivable_pt_lim_id. Qed.
Lemma der_plus f g x a b : derivable_pt_lim f x a -> derivable_pt_lim g x b ->
  derivable_pt_lim (fun t => f t + g t) x (a + b).
Proof. exact (derivable_pt_lim_plus f g x a b). Qed.
Lemma der_minus f g x a b : derivable_pt_lim f x a -> derivable_pt_lim g x b ->
  derivable_pt_lim (fun t => f t - g t) x (a - b).
Proof. exact (derivable_pt_lim_minus f g x a b). Qed.
Lemma der_opp f x a : derivable_pt_lim f x a -> derivable_pt_lim (fun t => - f t) x (- a).
Proof. exact (derivable_pt_lim_opp f x a). Qed.
Lemma der_mult f g x a b : derivable_pt_lim f x a -> derivable_pt_lim g x b ->
  derivable_pt_lim (fun t => f t * g t) x (a * g x + f x * b).
Proof. exact (derivable_pt_lim_mult f g x a b). Qed.
Lemma der_scal k f x a : derivable_pt_lim f x a -> derivable_pt_lim (fun t => k * f t) x (k * a).
Proof. exact (derivable_pt_lim_scal f k x a). Qed.
Lemma der_exp f x a : derivable_pt_lim f x a -> derivable_pt_lim (fun t => exp (f t)) x (exp (f x) * a).
Proof. intro H. exact (derivable_pt_lim_comp f exp x a (exp (f x)) H (derivable_pt_lim_exp (f x))). Qed.
Lemma der_ln f x a : 0 < f x -> derivable_pt_lim f x a ->
  derivable_pt_lim (fun t => ln (f t)) x (/ f x * a).
Proof. intros H0 H. exact (derivable_pt_lim_comp f ln x a (/ f x) H (derivable_pt_lim_ln (f x) H0)). Qed.

Lemma der_Sum n (f : nat -> R -> R) (f' : nat -> R) x :
  (forall i, (i < n)%nat -> derivable_pt_lim (f i) x (f' i)) ->
  derivable_pt_lim (fun t => Sum n (fun i => f i t)) x (Sum n f').
Proof.
  induction n; intro H.
  - exact (der_const 0 x).
  - apply (der_ext (fun t => Sum n (fun i => f i t) + f n t)).
    + intro t. symmetry. apply (Sum_S n (fun i => f i t)).
    + rewrite Sum_S. apply der_plus; [apply IHn; intros; apply H; lia|apply H; lia].
Qed.

(** One coordinate of a linear form: the coefficient of that coordinate. *)
Lemma der_at n (k : nat) (a : nat -> R) (g : nat -> R) x : (k < n)%nat ->
  derivable_pt_lim (fun t => Sum n (fun j => a j * (if Nat.eqb j k then t else g j))) x (a k).
Proof.
  intro Hk. apply (der_val _ _ (Sum n (fun j => a j * (if Nat.eqb j k then 1 else 0)))).
  - rewrite (Sum_ext n _ (fun j => if Nat.eqb j k then a k else 0)).
    + revert k Hk. induction n; intros k Hk; [lia|]. rewrite Sum_S. destruct (Nat.eq_dec k n) as [->|Hne].
      * rewrite Nat.eqb_refl. rewrite (Sum_ext n _ (fun _ => 0 * 0)).
        { rewrite Sum_scal. lra. }
        { intros j Hj. destruct (Nat.eqb_spec j n); [lia|lra]. }
      * rewrite IHn by lia. destruct (Nat.eqb_spec n k); [lia|lra].
    + intros j Hj. destruct (Nat.eqb_spec j k); [subst; lra|lra].
  - apply der_Sum. intros j Hj. apply der_scal. destruct (Nat.eqb j k); [apply der_id|apply der_const].
Qed.
(** One coordinate of the squared norm. *)
Lemma der_square n (k : nat) (g : nat -> R) x : (k < n)%nat ->
  derivable_pt_lim (fun t => Sum n (fun j => (if Nat.eqb j k then t else g j) * (if Nat.eqb j k then t else g j))) x (2 * x).
Proof.
  intro Hk. apply (der_val _ _ (Sum n (fun j => if Nat.eqb j k then 2 * x else 0))).
  - revert k Hk. induction n; intros k Hk; [lia|]. rewrite Sum_S. destruct (Nat.eq_dec k n) as [->|Hne].
    + rewrite Nat.eqb_refl. rewrite (Sum_ext n _ (fun _ => 0 * 0)).
      { rewrite Sum_scal. lra. }
      { intros j Hj. destruct (Nat.eqb_spec j n); [lia|lra]. }
    + rewrite IHn by lia. destruct (Nat.eqb_spec n k); [lia|lra].
  - apply der_Sum. intros j Hj. destruct (Nat.eqb j k).
    + apply (der_val _ _ (1 * x + x * 1)); [lra|]. apply (der_mult (fun t => t) (fun t => t)); apply der_id.
    + apply der_const.
Qed.
