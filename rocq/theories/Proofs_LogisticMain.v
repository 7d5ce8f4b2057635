(** Final forms of the logistic results. *)
From Coq Require Import ZArith List Bool Arith Reals Lra Lia.
From Verif Require Import Prelude Num Model_Mpi Model_Rescale Spec_Rescale Model_Poisson Spec_Poisson Deriv
  Model_Logistic Spec_Logistic Proofs_Intersection Proofs_Rescale Proofs_Poisson Proofs_PoissonOpt Proofs_PoissonMore
  Proofs_Logistic Proofs_LogisticGrad Proofs_LogisticGrid Proofs_Multinomial Proofs_MultiGrid.
Import ListNotations.
Local Open Scope R_scope.

Definition masked (mask : option (list R)) (c : list R) : list R :=
  match mask with Some m => map2 Rmult c m | None => c end.

Lemma logistic_loss_parts n p X (y : list R) (l2 : R) (mask sw : option (list R)) (c : list R) (b : R) :
  matrix n p X -> (0 < n)%nat -> length y = n -> match mask with Some m => length m = p | None => True end ->
  match sw with Some s => length s = n | None => True end -> length c = p ->
  fst (snd (logistic_loss_and_grad (N := Rnum) p X y l2 mask sw c))
    = logistic_loss n p X y (sample_weights n sw) l2 (match mask with Some m => map2 Rmult c m | None => c end) 0 /\
  fst (snd (logistic_loss_and_grad (N := Rnum) p X y l2 mask sw (c ++ [b])))
    = logistic_loss n p X y (sample_weights n sw) l2 (match mask with Some m => map2 Rmult c m | None => c end) b.
Proof.
  intros HX Hn Hy Hm Hsw Hc. fold (masked mask c).
  assert (G : forall w bb, (length w = p \/ length w = S p) -> (forall j, (j < p)%nat -> entry w j = entry c j) ->
      (if Nat.eqb (length w) (S p) then entry w p else 0) = bb ->
      fst (snd (llg p X y l2 mask sw w)) = logistic_loss n p X y (sample_weights n sw) l2 (masked mask c) bb).
  { intros w bb Hw Ew Eb. rewrite (bloss_value n p X y l2 mask sw HX Hn Hy Hm Hsw w Hw).
    rewrite (bi_value n p y mask Hn Hy Hm w Hw), Eb. unfold blossf, logistic_loss, eta.
    assert (Em : forall j, (j < p)%nat -> mkf p mask j * entry w j = entry (masked mask c) j).
    { intros j Hj. rewrite Ew by exact Hj. unfold mkf, masked. destruct mask as [m|]; [|ring].
      rewrite (entry_map2n Rmult p) by assumption. destruct (Nat.ltb_spec j p); [ring|lia]. }
    change (weights n sw) with (sample_weights n sw).
    f_equal; f_equal; apply Sum_ext.
    - intros i Hi. f_equal. f_equal. f_equal. f_equal. f_equal. f_equal. f_equal. apply Sum_ext. intros j Hj. now rewrite Em.
    - intros j Hj. now rewrite Em. }
  split.
  - apply (G c 0); [now left|reflexivity|]. destruct (Nat.eqb_spec (length c) (S p)); [lia|reflexivity].
  - apply (G (c ++ [b]) b).
    + right. rewrite app_length. cbn. lia.
    + intros j Hj. unfold entry. now rewrite app_nth1 by lia.
    + rewrite app_length. cbn [length]. destruct (Nat.eqb_spec (length c + 1) (S p)); [|lia]. unfold entry. rewrite app_nth2, Hc, Nat.sub_diag by lia. reflexivity.
Qed.

Lemma logistic_masked n p X (y : list R) (l2 : R) (m : list R) (sw : option (list R)) (w : list R) :
  matrix n p X -> (0 < n)%nat -> length y = n -> length m = p -> match sw with Some s => length s = n | None => True end ->
  length w = p \/ length w = S p ->
  let r := logistic_loss_and_grad (N := Rnum) p X y l2 (Some m) sw w in
  length (fst r) = length w /\ length (snd (snd r)) = length w /\
  (forall j, (j < p)%nat -> entry (fst r) j = entry m j * entry w j) /\ (entry (fst r) p = entry w p) /\
  (forall j, (j < p)%nat -> entry m j = 0 -> entry (snd (snd r)) j = 0).
Proof.
  intros HX Hn Hy Hm Hsw Hw r.
  assert (E1 : fst r = rmask p (Some m) w) by (exact (f_equal fst (llg_R n p X y l2 (Some m) sw HX Hn Hy Hsw w))).
  destruct (bgrad_shape n p X y l2 (Some m) sw HX Hn Hy Hm Hsw w Hw) as (g & Lg & Es & Hg).
  change (snd (snd (llg p X y l2 (Some m) sw w))) with (snd (snd r)) in Es.
  assert (RL := rmask_length p (Some m) w Hm ltac:(lia)). assert (RE := fun j => rmask_entry p (Some m) w j Hm ltac:(lia)).
  rewrite E1. split; [exact RL|]. split; [|split; [|split]].
  - rewrite Es. rr. destruct (Nat.eqb_spec (length w) (S p)); [rewrite app_length; cbn|]; lia.
  - intros j Hj. rewrite RE. unfold mkf. destruct (Nat.ltb_spec j p); [reflexivity|lia].
  - rewrite RE. unfold mkf. destruct (Nat.ltb_spec p p); [lia|ring].
  - intros j Hj E. rewrite Es. assert (Eg : entry g j = 0).
    { rewrite Hg by exact Hj. unfold mkf at 1. destruct (Nat.ltb_spec j p); [|lia]. rewrite E. ring. }
    destruct (Nat.eqb (length w) (S p)); [|exact Eg]. unfold entry. rewrite app_nth1 by lia. exact Eg.
Qed.

Lemma multi_loss_value n p q k X Y (sw : list R) (l2 : R) (mask : option (list (list R))) (w : list R) :
  matrix n p X -> matrix n k Y -> (0 < n)%nat -> (0 < k)%nat -> length sw = n ->
  match mask with Some m => matrix k p m | None => True end -> q = p \/ q = S p -> length w = (k * q)%nat ->
  forall v, match mask with Some m => masks p q k m w v | None => v = w end ->
  fst (multinomial_loss_grad (N := Rnum) k p X Y l2 mask sw w) = multi_loss n p q k X Y sw l2 v.
Proof.
  intros HX HY Hn Hk Hsw Hm Hq Lw v Hv.
  assert (Hw : length w = (k * p)%nat \/ length w = (k * S p)%nat) by (destruct Hq; subst q; auto).
  assert (Eq : mq p k w = q /\ mhas p k w = Nat.ltb p q).
  { unfold mq, mhas. destruct (Nat.eqb_spec (length w) (k * S p)) as [E|E]; destruct Hq as [->| ->]; destruct (Nat.ltb_spec p p); destruct (Nat.ltb_spec p (S p)); try lia; split; auto; nia. }
  destruct Eq as [Eq Eh].
  change (fst (mlg p k X Y l2 mask sw w) = multi_loss n p q k X Y sw l2 v).
  rewrite (mloss_value n p k X Y l2 mask sw HX HY Hn Hk Hm Hsw w Hw). unfold mlossf, multi_loss.
  assert (EW : forall c j, (c < k)%nat -> (j < p)%nat -> Wf p k mask w c j = coefs q v c j).
  { intros c j Hc Hj. unfold Wf. rewrite Eq. unfold mkm. destruct mask as [m|].
    - destruct Hv as [_ Hv]. rewrite Hv by (try lia; destruct Hq; subst; lia). destruct (Nat.ltb_spec j p); [reflexivity|lia].
    - subst v. unfold coefs. ring. }
  assert (EB : forall c, (c < k)%nat -> Bf p k w c = if Nat.ltb p q then coefs q v c p else 0).
  { intros c Hc. unfold Bf. rewrite Eh, Eq. destruct (Nat.ltb_spec p q) as [H|H]; [|reflexivity].
    destruct mask as [m|]; [|now subst v]. destruct Hv as [_ Hv]. rewrite Hv by lia. destruct (Nat.ltb_spec p p); [lia|reflexivity]. }
  assert (ES : forall i c, (c < k)%nat -> escore p X (Wf p k mask w) (Bf p k w) i c = class_eta p q X v i c).
  { intros i c Hc. unfold escore, class_eta. rewrite EB by exact Hc. f_equal. apply Sum_ext. intros j Hj. now rewrite EW. }
  f_equal; f_equal; apply Sum_ext.
  - intros i Hi. f_equal. apply Sum_ext. intros c Hc. rewrite ES by exact Hc. f_equal. f_equal. f_equal. apply Sum_ext. intros d Hd. now rewrite ES.
  - intros c Hc. apply Sum_ext. intros j Hj. now rewrite EW.
Qed.

Lemma multi_masked n p q k X Y (sw : list R) (l2 : R) (m : list (list R)) (w : list R) :
  matrix n p X -> matrix n k Y -> (0 < n)%nat -> (0 < k)%nat -> length sw = n ->
  matrix k p m -> q = p \/ q = S p -> length w = (k * q)%nat ->
  length (snd (multinomial_loss_grad (N := Rnum) k p X Y l2 (Some m) sw w)) = length w /\
  forall c j, (c < k)%nat -> (j < p)%nat -> mat m c j = 0 ->
  coefs q (snd (multinomial_loss_grad (N := Rnum) k p X Y l2 (Some m) sw w)) c j = 0.
Proof.
  intros HX HY Hn Hk Hsw Hm Hq Lw.
  assert (Hw : length w = (k * p)%nat \/ length w = (k * S p)%nat) by (destruct Hq; subst q; auto).
  assert (Eq : mq p k w = q).
  { unfold mq, mhas. destruct (Nat.eqb_spec (length w) (k * S p)) as [E|E]; destruct Hq as [->| ->]; try lia; nia. }
  split; [exact (mgrad_length n p k X Y l2 (Some m) sw HX HY Hn Hk Hm Hsw w Hw)|].
  intros c j Hc Hj E. pose proof (mgrad_value n p k X Y l2 (Some m) sw HX HY Hn Hk Hm Hsw w Hw c j Hc) as G. rewrite Eq in G.
  unfold coefs. change (entry (snd (mlg p k X Y l2 (Some m) sw w)) (c * q + j) = 0). rewrite G by (destruct Hq; subst; lia).
  unfold mkm. destruct (Nat.ltb_spec j p); [|lia]. rewrite E. ring.
Qed.
