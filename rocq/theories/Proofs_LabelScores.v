(** Scores of UoI_L1Logistic and the names of the classes (C98). *)
From Coq Require Import String ZArith List Bool Arith Lia Reals Lra.
From Verif Require Import Prelude Num Model_Fit Model_Scores Model_Poisson Model_Logistic Model_Labels
  Spec_Rescale Spec_Labels Proofs_Rescale Proofs_Poisson Proofs_PoissonOpt Proofs_Logistic Proofs_Labels.
Import ListNotations.
Local Open Scope R_scope.

Lemma Sum_single p f i : (i < p)%nat -> (forall j, (j < p)%nat -> j <> i -> f j = 0) -> Sum p f = f i.
Proof.
  induction p as [|p IH]; intros Hi H; [lia|]. rewrite Sum_S. destruct (Nat.eq_dec i p) as [->|N].
  - rewrite (Sum_zero p f); [lra|]. intros j Hj. apply H; lia.
  - rewrite IH by (try lia; intros; apply H; lia). rewrite (H p) by lia. lra.
Qed.

Section Loss.
  Variables (eps : R) (classes : list label) (P : proba Rnum) (y : list nat) (n k : nat).
  Hypothesis (He : 0 < eps < 1 / 2) (Hn : (0 < n)%nat) (Ly : length y = n) (Lc : length classes = k) (Hk : (2 <= k)%nat)
    (HP : prob_shape n k P) (D : NoDup classes).

  Lemma clip_R v : clip (N := Rnum) eps v = clip_prob eps v.
  Proof. unfold clip. rewrite nmin2_R, nmax2_R. reflexivity. Qed.
  Lemma clip_compl v : 1 - clip_prob eps v = clip_prob eps (1 - v).
  Proof. unfold clip_prob, Rmin, Rmax. repeat destruct (Rle_dec _ _); lra. Qed.
  Lemma clipped_length : length (clipped (N := Rnum) eps P) = n.
  Proof. destruct P as [p|c rows]; cbn; rewrite map_length; apply HP. Qed.
  Lemma clipped_row i : (i < n)%nat ->
    nth i (clipped (N := Rnum) eps P) [] = map (clip_prob eps) (prob_row P i) /\ length (prob_row P i) = k.
  Proof.
    intro Hi. destruct P as [p|c rows]; cbn [clipped prob_row prob_shape] in *.
    - destruct HP as (-> & Lp). split; [|reflexivity].
      rewrite (nth_indep _ [] (let c := clip (N := Rnum) eps 0 in [1 - c; c])) by (rewrite map_length; exact (eq_ind_r (fun m => (i < m)%nat) Hi Lp)).
      refine (eq_trans (map_nth (fun v : R => let c := clip (N := Rnum) eps v in [1 - c; c]) p 0 i) _).
      cbn zeta. rewrite clip_R. cbn [map]. now rewrite clip_compl.
    - destruct HP as (-> & Lr & F). split.
      + refine (eq_trans (map_nth (map (clip (N := Rnum) eps)) (rows : list (list R)) [] i) _).
        apply map_ext. exact clip_R.
      + apply (proj1 (Forall_forall _ _) F). apply nth_In. now rewrite Lr.
  Qed.
  Lemma checks : samples P = n /\ columns P = k.
  Proof. destruct P as [p|c rows]; cbn [samples columns prob_shape] in *; [destruct HP as (-> & L)|destruct HP as (-> & L & _)]; split; auto. Qed.

  Lemma binarized_length c : length (binarized (N := Rnum) classes c) = k.
  Proof.
    unfold binarized. destruct (Nat.eqb_spec (length classes) 2) as [E|E]; [cbn; congruence|].
    rewrite map_length. exact Lc.
  Qed.
  (** One sample. *)
  Lemma row_loss c j (q : list R) : counted_as classes c j -> length q = k ->
    nsum (N := Rnum) (map2 (fun a b : R => a * ln b) (binarized (N := Rnum) classes c) q)
      = match j with Some j => ln (entry q j) | None => 0 end.
  Proof.
    intros Hj Lq. unfold counted_as in Hj. pose proof (binarized_length c) as Lb. revert Lb. unfold binarized.
    destruct (Nat.eqb_spec (length classes) 2) as [E|E]; intro Lb.
    - assert (k = 2%nat) as K by lia. destruct q as [|q0 [|q1 [|]]]; cbn [length] in Lq; try lia.
      destruct classes as [|l0 [|l1 [|]]]; cbn [length] in E; try lia. cbn [nth_error nth] in Hj |- *.
      destruct Hj as [(Hl & ->)|(Hl & ->)].
      + injection Hl as ->. unfold of_code. rewrite label_eqb_refl. cbn. lra.
      + assert (X : label_eqb l1 (of_code c) = false) by (apply label_eqb_neq; unfold of_code; congruence).
        rewrite X. cbn. lra.
    - set (t := map (fun l => if label_eqb l (of_code c) then none else nzero) classes : list R) in *.
      change (length t = k) in Lb.
      rewrite (sum_n k) by (rewrite map2_length, Lb, Lq; apply Nat.min_id).
      assert (T : forall i, (i < k)%nat -> entry (map2 (fun a b : R => a * ln b) t q) i
                = (if label_eqb (nth i classes (LInt 0)) (of_code c) then 1 else 0) * ln (entry q i)).
      { intros i Hi. rewrite (entry_map2n (fun a b => a * ln b) k) by assumption. f_equal.
        unfold t, entry. rewrite (nth_indep _ 0 (if label_eqb (LInt 0) (of_code c) then 1 else 0)) by (rewrite map_length; lia).
        exact (map_nth (fun l => if label_eqb l (of_code c) then 1 else 0) classes (LInt 0) i). }
      refine (eq_trans (Sum_ext k _ _ T) _). destruct j as [j|].
      + assert (j < k)%nat by (rewrite <- Lc; apply nth_error_Some; congruence).
        assert (Z0 : forall i, (i < k)%nat -> i <> j ->
            (if label_eqb (nth i classes (LInt 0)) (of_code c) then 1 else 0) * ln (entry q i) = 0).
        { intros i Hi Hij. assert (X : label_eqb (nth i classes (LInt 0)) (of_code c) = false); [|rewrite X; lra].
          apply label_eqb_neq. intro A. apply Hij. apply (proj1 (NoDup_nth_error classes) D); [lia|].
          rewrite Hj, (nth_error_nth' classes (LInt 0)) by lia. now f_equal. }
        rewrite (Sum_single k _ j H Z0).
        rewrite (nth_error_nth classes j _ Hj). unfold of_code. rewrite label_eqb_refl. lra.
      + apply Sum_zero. intros i Hi.
        assert (X : label_eqb (nth i classes (LInt 0)) (of_code c) = false); [|rewrite X; lra].
        apply label_eqb_neq. intro A. apply Hj. unfold of_code in A. rewrite <- A. apply nth_In. lia.
  Qed.

  Lemma loss_value (s : nat -> option nat) : (forall i, (i < n)%nat -> counted_as classes (nth i y 0%nat) (s i)) ->
    log_loss (N := Rnum) eps classes P y
    = Ok (- (Sum n (fun i => match s i with Some j => ln (scored_prob eps k (prob_row P i) j) | None => 0 end) / INR n)).
  Proof.
    intro Hs. unfold log_loss. destruct checks as (-> & ->). rewrite Ly, Lc, !Nat.eqb_refl. cbn [negb].
    rewrite (proj2 (Nat.eqb_neq k 1)) by lia. f_equal.
    set (A := map (binarized (N := Rnum) classes) y : list (list R)).
    set (B := map (fun r : list R => map (fun p : R => p / nsum (N := Rnum) r) r) (clipped (N := Rnum) eps P) : list (list R)).
    set (h := fun t p : list R => - nsum (N := Rnum) (map2 (fun a b : R => a * ln b) t p)).
    change (nmean (N := Rnum) (map2 h A B)
      = - (Sum n (fun i => match s i with Some j => ln (scored_prob eps k (prob_row P i) j) | None => 0 end) / INR n)).
    assert (LA : length A = n) by (unfold A; rewrite map_length; exact Ly).
    assert (LB : length B = n) by (unfold B; rewrite map_length; exact clipped_length).
    assert (L : length (map2 h A B) = n) by (rewrite map2_length, LA, LB; apply Nat.min_id).
    assert (E : forall i, (i < n)%nat -> entry (map2 h A B) i
              = - (match s i with Some j => ln (scored_prob eps k (prob_row P i) j) | None => 0 end)).
    { intros i Hi. unfold entry. rewrite (map2_nth h A B i [] [] 0) by lia. unfold h. f_equal.
      destruct (clipped_row i Hi) as (Er & Lr).
      assert (EB : nth i B [] = map (fun p => p / Sum k (fun u => clip_prob eps (entry (prob_row P i) u))) (map (clip_prob eps) (prob_row P i))).
      { unfold B. refine (eq_trans (map_nth (fun r : list R => map (fun p : R => p / nsum (N := Rnum) r) r) (clipped (N := Rnum) eps P) [] i) _).
        refine (eq_trans (f_equal (fun r : list R => map (fun p : R => p / nsum (N := Rnum) r) r) Er) _).
        apply map_ext. intro v. f_equal.
        rewrite (sum_n k) by (rewrite map_length; exact Lr). apply Sum_ext. intros u Hu.
        apply entry_map. lia. }
      rewrite EB. unfold A. rewrite (nth_indep _ [] (binarized (N := Rnum) classes 0)) by (rewrite map_length; lia).
      rewrite (map_nth (binarized (N := Rnum) classes)).
      rewrite (row_loss (nth i y 0%nat) (s i)) by (first [now apply Hs|now rewrite !map_length]).
      destruct (s i) as [j|] eqn:Es; [|reflexivity]. f_equal.
      assert (Hj : (j < k)%nat).
      { specialize (Hs i Hi). rewrite Es in Hs. unfold counted_as in Hs. revert Hs.
        destruct (Nat.eqb_spec (length classes) 2) as [E2|E2].
        - intros [[_ X]|[_ X]]; injection X as ->; lia.
        - intro X. rewrite <- Lc. apply nth_error_Some. congruence. }
      rewrite entry_map by (rewrite map_length; lia). rewrite entry_map by lia. reflexivity. }
    rewrite (mean_n n _ L).
    refine (eq_trans (f_equal (fun v => v / INR n) (Sum_ext n _ _ E)) _).
    rewrite (Sum_ext n _ (fun i => (-1) * match s i with Some j => ln (scored_prob eps k (prob_row P i) j) | None => 0 end))
      by (intros; lra).
    rewrite Sum_scal. field. apply not_0_INR. lia.
  Qed.
End Loss.

(** ** Names that make the labels irrelevant, for any arithmetic *)
Lemma binarized_swap {N : NumOps} classes c c' :
  (forall l, In l classes -> label_eqb l (of_code c) = label_eqb l (of_code c')) -> (2 <= length classes)%nat ->
  binarized (N := N) classes c = binarized classes c'.
Proof.
  intros H Hk. unfold binarized. destruct (Nat.eqb_spec (length classes) 2) as [E|E].
  - rewrite H; [reflexivity|]. apply nth_In. lia.
  - apply map_ext_in. intros l Hl. now rewrite H.
Qed.
Lemma loss_ignores {N : NumOps} (eps : N) classes P y y' : length y = length y' ->
  (forall i, (i < length y)%nat -> binarized (N := N) classes (nth i y 0%nat) = binarized classes (nth i y' 0%nat)) ->
  log_loss eps classes P y = log_loss eps classes P y'.
Proof.
  intros L H. unfold log_loss. rewrite L. destruct (negb _); [reflexivity|]. destruct (Nat.eqb _ 1); [reflexivity|].
  destruct (negb _); [reflexivity|]. do 2 f_equal.
  assert (E : map (binarized (N := N) classes) y = map (binarized classes) y'); [|now rewrite E].
  apply (nth_ext _ _ (binarized classes 0) (binarized classes 0)); [now rewrite !map_length|].
  intros i Hi. rewrite map_length in Hi. rewrite !map_nth. now apply H.
Qed.
(** Two classes, the second of which is not called 0 or 1. *)
Lemma two_ignores {N : NumOps} (eps : N) a b P y y' : b <> LInt 0 -> b <> LInt 1 ->
  length y = length y' -> (forall c, In c y -> (c < 2)%nat) -> (forall c, In c y' -> (c < 2)%nat) ->
  log_loss eps [a; b] P y = log_loss eps [a; b] P y'.
Proof.
  intros H0 H1 L Hy Hy'. apply loss_ignores; [exact L|].
  assert (F : forall c, (c < 2)%nat -> label_eqb b (of_code c) = false).
  { intros [|[|c]] Hc; [now apply label_eqb_neq|now apply label_eqb_neq|lia]. }
  intros i Hi. unfold binarized. cbn [length Nat.eqb nth].
  rewrite !F; [reflexivity|apply Hy', nth_In; lia|apply Hy, nth_In; lia].
Qed.
(** At least three classes, none of which is called like a code. *)
Lemma many_ignores {N : NumOps} (eps : N) classes P y y' : (3 <= length classes)%nat ->
  (forall c, (c < length classes)%nat -> ~ In (LInt (Z.of_nat c)) classes) -> length y = length y' ->
  (forall c, In c y -> (c < length classes)%nat) -> (forall c, In c y' -> (c < length classes)%nat) ->
  log_loss eps classes P y = log_loss eps classes P y'.
Proof.
  intros Hk H L Hy Hy'. apply loss_ignores; [exact L|].
  assert (F : forall c l, (c < length classes)%nat -> In l classes -> label_eqb l (of_code c) = false).
  { intros c l Hc Hl. apply label_eqb_neq. intros ->. exact (H c Hc Hl). }
  intros i Hi. apply binarized_swap; [|lia]. intros l Hl.
  rewrite !F; [reflexivity|apply Hy', nth_In; lia|exact Hl|apply Hy, nth_In; lia|exact Hl].
Qed.

(** ** Scores *)
Section Scores.
  Context {N : NumOps}.
  Lemma score_log (eps : N) y pred prob target support sp :
    logistic_score eps y pred prob "log" target support sp
    = rmap nopp (log_loss eps (uoi_classes y) (prob (target_rows target sp)) (map (fun i => nth i (codes y) 0%nat) (target_rows target sp))).
  Proof. unfold logistic_score, glm_score. cbn [String.eqb]. destruct (log_loss _ _ _ _); reflexivity. Qed.
  Lemma score_acc (eps : N) y pred prob target support sp :
    logistic_score eps y pred prob "acc" target support sp
    = Ok (accuracy (map (fun i => nth i (codes y) 0%nat) (target_rows target sp)) (pred (target_rows target sp))).
  Proof. reflexivity. Qed.
  Lemma score_same (eps : N) y y' pred pred' prob metric target support sp : metric <> "acc"%string -> uoi_classes y = uoi_classes y' ->
    (let rows := target_rows target sp in
     log_loss eps (uoi_classes y) (prob rows) (map (fun i => nth i (codes y) 0%nat) rows)
     = log_loss eps (uoi_classes y) (prob rows) (map (fun i => nth i (codes y') 0%nat) rows)) ->
    logistic_score eps y pred prob metric target support sp = logistic_score eps y' pred' prob metric target support sp.
  Proof.
    intros Hm Hc H. unfold logistic_score, glm_score. rewrite (proj2 (String.eqb_neq _ _) Hm). cbv zeta in H. rewrite <- Hc, H. reflexivity.
  Qed.
  Lemma rows_lt y rows : (forall i, In i rows -> (i < length y)%nat) ->
    forall c, In c (map (fun i => nth i (codes y) 0%nat) rows) -> (c < length (uoi_classes y))%nat.
  Proof. intros H c Hc. apply in_map_iff in Hc as (i & <- & Hi). apply codes_lt, nth_In. rewrite length_codes. auto. Qed.
  Lemma score_two (eps : N) y y' a b pred pred' prob metric target support sp : metric <> "acc"%string ->
    uoi_classes y = [a; b] -> uoi_classes y' = [a; b] -> b <> LInt 0 -> b <> LInt 1 ->
    (forall i, In i (target_rows target sp) -> (i < length y)%nat /\ (i < length y')%nat) ->
    logistic_score eps y pred prob metric target support sp = logistic_score eps y' pred' prob metric target support sp.
  Proof.
    intros Hm E E' H0 H1 Hr. apply score_same; [exact Hm|congruence|]. cbv zeta. rewrite E.
    apply two_ignores; [exact H0|exact H1|now rewrite !map_length| |].
    - intros c Hc. apply rows_lt in Hc; [now rewrite E in Hc|]. intros i Hi. now apply Hr.
    - intros c Hc. apply rows_lt in Hc; [now rewrite E' in Hc|]. intros i Hi. now apply Hr.
  Qed.
  Lemma score_many (eps : N) y y' pred pred' prob metric target support sp : metric <> "acc"%string ->
    uoi_classes y = uoi_classes y' -> (3 <= length (uoi_classes y))%nat ->
    (forall c, (c < length (uoi_classes y))%nat -> ~ In (LInt (Z.of_nat c)) (uoi_classes y)) ->
    (forall i, In i (target_rows target sp) -> (i < length y)%nat /\ (i < length y')%nat) ->
    logistic_score eps y pred prob metric target support sp = logistic_score eps y' pred' prob metric target support sp.
  Proof.
    intros Hm E K Hn Hr. apply score_same; [exact Hm|exact E|]. cbv zeta.
    apply many_ignores; [exact K|exact Hn|now rewrite !map_length| |].
    - intros c Hc. apply rows_lt in Hc; [exact Hc|]. intros i Hi. now apply Hr.
    - intros c Hc. rewrite E. apply rows_lt in Hc; [exact Hc|]. intros i Hi. now apply Hr.
  Qed.
End Scores.

Lemma codes_class y i g : (i < length y)%nat -> nth_error (uoi_classes y) g = nth_error y i -> nth i (codes y) 0%nat = g.
Proof.
  intros Hi H. pose proof (codes_label y i Hi) as E. unfold uoi_classes in H. rewrite <- H in E.
  apply (proj1 (NoDup_nth_error (unique_labels y)) (unique_NoDup y)); [|exact E].
  apply codes_lt, nth_In. now rewrite length_codes.
Qed.
Lemma score_log_value eps y pred prob target support sp (g : nat -> nat) (s : nat -> option nat) :
  let classes := uoi_classes y in let k := length classes in let rows := target_rows target sp in let n := length rows in
  0 < eps < 1 / 2 -> (2 <= k)%nat -> (0 < n)%nat -> (forall i, In i rows -> (i < length y)%nat) -> prob_shape n k (prob rows) ->
  (forall i, (i < n)%nat -> nth_error classes (g i) = nth_error y (nth i rows 0%nat) /\ counted_as classes (g i) (s i)) ->
  logistic_score (N := Rnum) eps y pred prob "log" target support sp
  = Ok (Sum n (fun i => match s i with Some j => ln (scored_prob eps k (prob_row (prob rows) i) j) | None => 0 end) / INR n).
Proof.
  intros classes k rows n He Hk Hn Hr HP Hs. rewrite score_log. fold rows. fold classes.
  pose proof (loss_value eps classes (prob rows) (map (fun i => nth i (codes y) 0%nat) rows) n k He Hn (map_length _ _) eq_refl Hk HP
    (unique_NoDup y) s) as L.
  refine (eq_trans (f_equal (rmap (nopp (n := Rnum))) (L _)) _).
  - intros i Hi. destruct (Hs i Hi) as (A & B).
    rewrite (nth_indep _ 0%nat (nth 0%nat (codes y) 0%nat)) by (rewrite map_length; exact Hi).
    rewrite (map_nth (fun i => nth i (codes y) 0%nat) rows 0%nat i).
    rewrite (codes_class y _ (g i)); [exact B| |exact A]. apply Hr, nth_In. exact Hi.
  - cbn [rmap]. f_equal. change (nopp (n := Rnum)) with Ropp. apply Ropp_involutive.
Qed.
Lemma counted_swap a c : (c < 2)%nat -> counted_as [a; LInt 0] c (Some (1 - c)%nat).
Proof.
  intro H. unfold counted_as. cbn [length Nat.eqb nth_error]. destruct c as [|[|c]]; [left|right|lia]; (split; [|reflexivity]); cbn; congruence.
Qed.
