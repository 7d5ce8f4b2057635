(** Gradient of the multinomial loss. *)
From Coq Require Import ZArith List Bool Arith Reals Lra Lia.
From Verif Require Import Prelude Num Model_Mpi Model_Rescale Spec_Rescale Model_Poisson Spec_Poisson Deriv
  Model_Logistic Spec_Logistic Proofs_Intersection Proofs_Rescale Proofs_Poisson Proofs_PoissonOpt Proofs_PoissonMore
  Proofs_Logistic Proofs_LogisticGrad.
Import ListNotations.
Local Open Scope R_scope.

(** ** The loss along a curve *)
Definition escore (p : nat) (X : list (list R)) (W : nat -> nat -> R) (B : nat -> R) (i c : nat) : R :=
  Sum p (fun j => mat X i j * W c j) + B c.
Definition mlossf (n p k : nat) (X Y : list (list R)) (sw : list R) (l2 : R) (W : nat -> nat -> R) (B : nat -> R) : R :=
  / INR n * Sum n (fun i => entry sw i *
      Sum k (fun c => mat Y i c * (ln (Sum k (fun d => exp (escore p X W B i d))) - escore p X W B i c)))
  + l2 / 2 * Sum k (fun c => Sum p (fun j => W c j * W c j)).
Definition prob (p k : nat) (X : list (list R)) (W : nat -> nat -> R) (B : nat -> R) (i c : nat) : R :=
  exp (escore p X W B i c) / Sum k (fun d => exp (escore p X W B i d)).

Lemma der_mloss n p k X Y sw l2 (W : R -> nat -> nat -> R) (B : R -> nat -> R) x (dW : nat -> nat -> R) (dB : nat -> R) :
  (0 < k)%nat -> (forall i, (i < n)%nat -> Sum k (mat Y i) = 1) ->
  (forall c j, (c < k)%nat -> (j < p)%nat -> derivable_pt_lim (fun t => W t c j) x (dW c j)) ->
  (forall c, (c < k)%nat -> derivable_pt_lim (fun t => B t c) x (dB c)) ->
  derivable_pt_lim (fun t => mlossf n p k X Y sw l2 (W t) (B t)) x
    (/ INR n * Sum n (fun i => entry sw i * Sum k (fun c => (prob p k X (W x) (B x) i c - mat Y i c) * escore p X dW dB i c))
     + l2 * Sum k (fun c => Sum p (fun j => W x c j * dW c j))).
Proof.
  intros Hk HY HW HB. unfold mlossf.
  assert (De : forall i c, (c < k)%nat -> derivable_pt_lim (fun t => escore p X (W t) (B t) i c) x (escore p X dW dB i c)).
  { intros i c Hc. unfold escore. apply der_plus; [|now apply HB].
    apply (der_Sum p (fun j t => mat X i j * W t c j)). intros j Hj. now apply der_scal, HW. }
  apply der_plus.
  - apply der_scal. apply der_Sum. intros i Hi. apply der_scal.
    set (T := Sum k (fun d => exp (escore p X (W x) (B x) i d))).
    assert (HT : 0 < T) by (now apply exp_sum_pos).
    set (dT := Sum k (fun d => exp (escore p X (W x) (B x) i d) * escore p X dW dB i d)).
    apply (der_val _ _ (Sum k (fun c => mat Y i c * (/ T * dT - escore p X dW dB i c)))).
    { rewrite (Sum_ext k _ (fun c => mat Y i c * (/ T * dT) - mat Y i c * escore p X dW dB i c)) by (intros; ring).
      rewrite Sum_minus, Sum_scal_r, (HY i Hi), Rmult_1_l. unfold dT. rewrite <- Sum_scal.
      rewrite <- Sum_minus. apply Sum_ext. intros c Hc. unfold prob. fold T. field. lra. }
    apply (der_Sum k (fun c t => mat Y i c * (ln (Sum k (fun d => exp (escore p X (W t) (B t) i d))) - escore p X (W t) (B t) i c))).
    intros c Hc. apply der_scal. apply der_minus; [|now apply De].
    apply (der_ln (fun t => Sum k (fun d => exp (escore p X (W t) (B t) i d)))); [exact HT|].
    apply (der_Sum k (fun d t => exp (escore p X (W t) (B t) i d))). intros d Hd.
    apply (der_exp (fun t => escore p X (W t) (B t) i d)). now apply De.
  - apply (der_val _ _ (l2 / 2 * Sum k (fun c => Sum p (fun j => dW c j * W x c j + W x c j * dW c j)))).
    { rewrite (Sum_ext k _ (fun c => 2 * Sum p (fun j => W x c j * dW c j))).
      - rewrite Sum_scal. field.
      - intros c Hc. rewrite <- Sum_scal. apply Sum_ext. intros j Hj. ring. }
    apply der_scal. apply (der_Sum k (fun c t => Sum p (fun j => W t c j * W t c j))). intros c Hc.
    apply (der_Sum p (fun j t => W t c j * W t c j)). intros j Hj.
    apply (der_mult (fun t => W t c j) (fun t => W t c j)); now apply HW.
Qed.

(** ** Lists of rows *)
Lemma nth_mapd {A B} (f : A -> B) l i d d' : (i < length l)%nat -> nth i (map f l) d' = f (nth i l d).
Proof. revert i. induction l; intros [|i] H; cbn in *; try lia; auto. apply IHl. lia. Qed.
Lemma nth_concat {A} q (l : list (list A)) c j d : Forall (fun r => length r = q) l -> (c < length l)%nat -> (j < q)%nat ->
  nth (c * q + j) (concat l) d = nth j (nth c l []) d.
Proof.
  intro F. revert c. induction F as [|r l Hr F IH]; intros c Hc Hj; [cbn in Hc; lia|]. destruct c as [|c]; cbn [concat nth].
  - rewrite app_nth1 by (cbn; lia). reflexivity.
  - rewrite app_nth2 by (cbn; lia). rewrite Hr. replace (S c * q + j - q)%nat with (c * q + j)%nat by (cbn; lia).
    apply IH; [cbn in Hc; lia|exact Hj].
Qed.
Lemma length_concat_eq {A} q (l : list (list A)) : Forall (fun r => length r = q) l -> length (concat l) = (length l * q)%nat.
Proof. induction 1 as [|r l Hr F IH]; cbn; [reflexivity|]. rewrite app_length, IH, Hr. reflexivity. Qed.
Lemma nth_len {A} q (l : list (list A)) i : Forall (fun r => length r = q) l -> (i < length l)%nat -> length (nth i l []) = q.
Proof. intros F Hi. rewrite Forall_forall in F. apply F. now apply nth_In. Qed.

(** ** The code's loss and gradient *)
Definition rlse : list R -> R := logsumexp (N := Rnum).
Section MLoss.
  Variables (n p k : nat) (X Y : list (list R)) (l2 : R) (mask : option (list (list R))) (sw : list R).
  Hypothesis HX : matrix n p X.
  Hypothesis HY : matrix n k Y.
  Hypothesis Hn : (0 < n)%nat.
  Hypothesis Hk : (0 < k)%nat.
  Hypothesis Hm : match mask with Some m => matrix k p m | None => True end.
  Hypothesis Hsw : length sw = n.

  Definition mlg (w : list R) : R * list R := multinomial_loss_grad (N := Rnum) k p X Y l2 mask sw w.
  Definition mhas (w : list R) : bool := Nat.eqb (length w) (k * S p).
  Definition mq (w : list R) : nat := if mhas w then S p else p.
  Definition mrows (w : list R) : list (list R) :=
    match mask with
    | Some m => map2 (fun mr r => map2 Rmult (firstn p r) mr ++ skipn p r) m (chunks (mq w) k w)
    | None => chunks (mq w) k w
    end.
  Definition mb (w : list R) : list R := if mhas w then map (fun r => last r 0) (mrows w) else map (fun _ => 0) (mrows w).
  Definition mc (w : list R) : list (list R) := if mhas w then map (firstn p) (mrows w) else mrows w.
  Definition mscores (w : list R) : list (list R) := map (fun x => map2 Rplus (map (rdot x) (mc w)) (mb w)) X.
  Definition mlogp (w : list R) : list (list R) := map (fun r => map (fun v => v - rlse r) r) (mscores w).
  Definition mdiff (w : list R) : list (list R) :=
    map2 (fun s d => map (Rmult s) d) sw (map2 (map2 Rminus) (map (map exp) (mlogp w)) Y).
  Definition mg (w : list R) : list (list R) :=
    map (fun cl => map2 Rplus (map (fun v => v / IZR (Z.of_nat (length X))) (rtmat p X (rcol (mdiff w) cl)))
                              (map (Rmult l2) (nth cl (mc w) []))) (seq 0 k).
  Definition mgm (w : list R) : list (list R) := match mask with Some m => map2 (map2 Rmult) (mg w) m | None => mg w end.

  Lemma mlg_R w : mlg w =
    (- rsum (map rsum (map2 (fun s yp => map (Rmult s) yp) sw (map2 (map2 Rmult) Y (mlogp w)))) / IZR (Z.of_nat (length X))
       + 1 / 2 * l2 * rsum (map (fun r => rdot r r) (mc w)),
     concat (if mhas w then map2 (fun r cl => r ++ [rsum (rcol (mdiff w) cl) / IZR (Z.of_nat (length X))]) (mgm w) (seq 0 k) else mgm w)).
  Proof. reflexivity. Qed.

  Section W.
    Variable w : list R.
    Hypothesis Hw : length w = (k * p)%nat \/ length w = (k * S p)%nat.
    Notation q := (mq w).
    Definition mkm (c j : nat) : R := match mask with Some m => if Nat.ltb j p then mat m c j else 1 | None => 1 end.

    Lemma q_cases : (length w = (k * q)%nat) /\ (q = p /\ mhas w = false \/ q = S p /\ mhas w = true).
    Proof.
      unfold mq, mhas. destruct (Nat.eqb_spec (length w) (k * S p)) as [E|E]; [auto|]. split; [lia|auto].
    Qed.
    Lemma rows_len : length (mrows w) = k.
    Proof.
      unfold mrows. assert (Lc : length (chunks q k w) = k) by (apply chunks_spec; apply q_cases).
      destruct mask as [m|]; [|exact Lc]. apply length_map2n; [apply Hm|exact Lc].
    Qed.
    Lemma row_c c : (c < k)%nat -> length (nth c (mrows w) []) = q /\
      forall j, (j < q)%nat -> entry (nth c (mrows w) []) j = mkm c j * entry w (c * q + j).
    Proof.
      intro Hc. destruct q_cases as [Lw Hq].
      destruct (chunks_spec q k w Lw) as (Lc & Fc).
      assert (Lr : length (nth c (chunks q k w) []) = q) by (apply nth_len; [exact Fc|lia]).
      assert (Er : forall j, (j < q)%nat -> entry (nth c (chunks q k w) []) j = entry w (c * q + j)).
      { intros j Hj. unfold entry. now rewrite chunks_nth. }
      unfold mrows, mkm. destruct mask as [m|].
      - assert (Lm : length m = k) by apply Hm.
        assert (Lmr : length (nth c m []) = p) by (apply nth_len; [apply Hm|lia]).
        rewrite (map2_nth _ _ _ c [] [] []) by lia.
        pose proof (rmask_length p (Some (nth c m [])) (nth c (chunks q k w) []) Lmr ltac:(lia)) as RL.
        pose proof (fun j => rmask_entry p (Some (nth c m [])) (nth c (chunks q k w) []) j Lmr ltac:(lia)) as RE.
        cbn [rmask] in RL, RE. split; [now rewrite RL|]. intros j Hj. rewrite RE, Er by exact Hj. reflexivity.
      - split; [exact Lr|]. intros j Hj. rewrite Er by exact Hj. ring.
    Qed.
    Definition Wf (c j : nat) : R := mkm c j * entry w (c * q + j).
    Definition Bf (c : nat) : R := if mhas w then entry w (c * q + p) else 0.

    Lemma mc_c c : (c < k)%nat -> length (nth c (mc w) []) = p /\ forall j, (j < p)%nat -> entry (nth c (mc w) []) j = Wf c j.
    Proof.
      intro Hc. destruct (row_c c Hc) as [L E]. destruct q_cases as [Lw [[Eq Eh]|[Eq Eh]]]; unfold mc; rewrite Eh.
      - rewrite L, Eq. split; [reflexivity|]. intros j Hj. apply E. lia.
      - rewrite (nth_mapd (firstn p) _ c []) by (rewrite rows_len; lia). split; [rewrite firstn_length; lia|].
        intros j Hj. rewrite entry_firstn by exact Hj. apply E. lia.
    Qed.
    Lemma mc_len : length (mc w) = k.
    Proof. unfold mc. destruct (mhas w); rewrite ?map_length; apply rows_len. Qed.
    Lemma mb_len : length (mb w) = k.
    Proof. unfold mb. destruct (mhas w); rewrite map_length; apply rows_len. Qed.
    Lemma mb_c c : (c < k)%nat -> entry (mb w) c = Bf c.
    Proof.
      intro Hc. destruct (row_c c Hc) as [L E]. unfold mb, Bf, entry at 1. destruct q_cases as [Lw [[Eq Eh]|[Eq Eh]]]; rewrite Eh.
      - now rewrite (nth_mapd (fun _ => 0) _ c []) by (rewrite rows_len; lia).
      - rewrite (nth_mapd (fun r => last r 0) _ c []) by (rewrite rows_len; lia).
        assert (EL : forall l : list R, length l = S p -> last l 0 = entry l p).
        { intros l Hl. destruct (exists_last (l := l)) as (l' & a & ->); [intros ->; discriminate|].
          rewrite app_length in Hl. cbn in Hl. rewrite last_last. unfold entry. rewrite app_nth2 by lia.
          replace (p - length l')%nat with 0%nat by lia. reflexivity. }
        rewrite EL by lia. rewrite E by lia. unfold mkm. destruct mask; [|ring]. destruct (Nat.ltb_spec p p); [lia|ring].
    Qed.
    Notation es := (escore p X Wf Bf).
    Lemma scores_len : length (mscores w) = n.
    Proof. unfold mscores. rewrite map_length. apply HX. Qed.
    Lemma scores_row i : (i < n)%nat -> length (nth i (mscores w) []) = k /\ forall c, (c < k)%nat -> entry (nth i (mscores w) []) c = es i c.
    Proof.
      intro Hi. unfold mscores. destruct HX as [LX FX].
      rewrite (nth_mapd _ X i []) by lia. pose proof mc_len as Lmc. pose proof mb_len as Lmb.
      split; [apply length_map2n; rewrite ?map_length; assumption|]. intros c Hc.
      rewrite (entry_map2n Rplus k) by (rewrite ?map_length; assumption). unfold escore. rewrite mb_c by exact Hc. f_equal.
      unfold entry at 1. rewrite (nth_mapd (rdot (nth i X [])) (mc w) c []) by lia.
      destruct (mc_c c Hc) as [Lr Er]. rewrite (rdot_Sum p); [|apply nth_len; [exact FX|lia]|exact Lr].
      apply Sum_ext. intros j Hj. now rewrite Er.
    Qed.
    Lemma lse_row i : (i < n)%nat -> rlse (nth i (mscores w) []) = ln (Sum k (fun d => exp (es i d))).
    Proof.
      intro Hi. destruct (scores_row i Hi) as [L E]. unfold rlse. rewrite (logsumexp_R k _ L Hk). f_equal. apply Sum_ext. intros d Hd. now rewrite E.
    Qed.
    Lemma logp_row i : (i < n)%nat -> length (nth i (mlogp w) []) = k /\
      forall c, (c < k)%nat -> entry (nth i (mlogp w) []) c = es i c - ln (Sum k (fun d => exp (es i d))).
    Proof.
      intro Hi. unfold mlogp. rewrite (nth_mapd _ _ i []) by (rewrite scores_len; lia). destruct (scores_row i Hi) as [L E].
      split; [now rewrite map_length|]. intros c Hc. rewrite (entry_mapn _ k) by assumption. now rewrite E, lse_row.
    Qed.
    Lemma logp_len : length (mlogp w) = n.
    Proof. unfold mlogp. rewrite map_length. apply scores_len. Qed.
    Lemma diff_len : length (mdiff w) = n.
    Proof. unfold mdiff. apply length_map2n; [exact Hsw|]. apply length_map2n; [rewrite map_length; apply logp_len|apply HY]. Qed.
    Lemma diff_entry i c : (i < n)%nat -> (c < k)%nat -> mat (mdiff w) i c = entry sw i * (prob p k X Wf Bf i c - mat Y i c).
    Proof.
      intros Hi Hc. unfold mat at 1, mdiff. destruct HY as [LY FY]. pose proof logp_len as Ll.
      assert (L2 : length (map2 (map2 Rminus) (map (map exp) (mlogp w)) Y) = n) by (apply length_map2n; [now rewrite map_length|exact LY]).
      rewrite (map2_nth _ _ _ i 0 [] []) by lia. fold (entry sw i).
      rewrite (map2_nth (map2 Rminus) _ _ i [] [] []) by (rewrite ?map_length; lia).
      rewrite (nth_mapd (map exp) _ i []) by lia. destruct (logp_row i Hi) as [L E].
      assert (LYi : length (nth i Y []) = k) by (apply nth_len; [exact FY|lia]).
      rewrite (entry_mapn (Rmult (entry sw i)) k); [|apply length_map2n; [now rewrite map_length|exact LYi]|exact Hc].
      rewrite (entry_map2n Rminus k) by (rewrite ?map_length; assumption). rewrite (entry_mapn exp k) by assumption. rewrite E by exact Hc.
      f_equal. unfold mat. f_equal. unfold prob, Rminus. rewrite exp_plus, exp_Ropp, exp_ln; [reflexivity|now apply exp_sum_pos].
    Qed.
    Lemma mloss_value : fst (mlg w) = mlossf n p k X Y sw l2 Wf Bf.
    Proof.
      rewrite mlg_R. cbn [fst]. unfold mlossf. destruct HX as [LX _]. rewrite LX, <- INR_IZR_INZ. destruct HY as [LY FY]. pose proof logp_len as Ll.
      assert (L1 : length (map2 (map2 Rmult) Y (mlogp w)) = n) by (now apply length_map2n).
      assert (L2 : length (map2 (fun s yp => map (Rmult s) yp) sw (map2 (map2 Rmult) Y (mlogp w))) = n) by (now apply length_map2n).
      rewrite (rsum_Sum n) by (now rewrite map_length).
      rewrite (rsum_Sum k) by (rewrite map_length; apply mc_len).
      rewrite (Sum_ext n (fun i => entry (map rsum _) i) (fun i => (-1) * (entry sw i *
        Sum k (fun c => mat Y i c * (ln (Sum k (fun d => exp (es i d))) - es i c))))).
      - rewrite Sum_scal. rewrite (Sum_ext k (fun i => entry (map (fun r => rdot r r) (mc w)) i) (fun c => Sum p (fun j => Wf c j * Wf c j))).
        + unfold Rdiv. ring.
        + intros c Hc. unfold entry. rewrite (nth_mapd (fun r => rdot r r) _ c []) by (rewrite mc_len; lia).
          destruct (mc_c c Hc) as [L E]. rewrite (rdot_Sum p) by assumption. apply Sum_ext. intros j Hj. now rewrite E.
      - intros i Hi. unfold entry at 1. rewrite (nth_mapd rsum _ i []) by lia. rewrite (map2_nth _ _ _ i 0 [] []) by lia. fold (entry sw i).
        rewrite (map2_nth (map2 Rmult) _ _ i [] [] []) by lia. destruct (logp_row i Hi) as [L E].
        assert (LYi : length (nth i Y []) = k) by (apply nth_len; [exact FY|lia]).
        assert (L3 : length (map2 Rmult (nth i Y []) (nth i (mlogp w) [])) = k) by (now apply length_map2n).
        rewrite (rsum_Sum k) by (now rewrite map_length).
        rewrite <- !Sum_scal. apply Sum_ext. intros c Hc. rewrite (entry_mapn _ k), (entry_map2n Rmult k), E by assumption. unfold mat. ring.
    Qed.

    Lemma rcol_len cl : length (rcol (mdiff w) cl) = n.
    Proof. unfold rcol. rewrite map_length. apply diff_len. Qed.
    Lemma rcol_entry cl i : (i < n)%nat -> entry (rcol (mdiff w) cl) i = mat (mdiff w) i cl.
    Proof. intro Hi. unfold rcol, mat, entry. now rewrite (nth_mapd _ _ i []) by (rewrite diff_len; lia). Qed.
    Lemma mg_len : length (mg w) = k.
    Proof. unfold mg. now rewrite map_length, seq_length. Qed.
    Lemma mg_c c : (c < k)%nat -> length (nth c (mg w) []) = p /\ forall j, (j < p)%nat ->
      entry (nth c (mg w) []) j = / INR n * Sum n (fun i => entry sw i * (prob p k X Wf Bf i c - mat Y i c) * mat X i j) + l2 * Wf c j.
    Proof.
      intro Hc. unfold mg. rewrite nth_map_seq by exact Hc. destruct (mc_c c Hc) as [L E].
      assert (Lr : length (rtmat p X (rcol (mdiff w) c)) = p) by (unfold rtmat; now rewrite map_length, seq_length).
      split; [apply length_map2n; rewrite map_length; assumption|]. intros j Hj.
      rewrite (entry_map2n Rplus p) by (rewrite ?map_length; assumption).
      rewrite (entry_mapn (fun v => v / IZR (Z.of_nat (length X))) p), (entry_mapn (Rmult l2) p), E by assumption.
      f_equal. assert (LX : length X = n) by apply HX. rewrite LX, <- INR_IZR_INZ.
      assert (Et : entry (rtmat p X (rcol (mdiff w) c)) j = Sum n (fun i => mat X i j * entry (rcol (mdiff w) c) i)) by exact (entry_tmatvec n p X HX _ j (rcol_len c) Hj).
      rewrite Et. unfold Rdiv. rewrite Rmult_comm. f_equal. apply Sum_ext. intros i Hi. rewrite rcol_entry, diff_entry by assumption. ring.
    Qed.
    Lemma mgm_len : length (mgm w) = k.
    Proof. unfold mgm. destruct mask as [m|]; [|apply mg_len]. apply length_map2n; [apply mg_len|apply Hm]. Qed.
    Lemma mgm_c c : (c < k)%nat -> length (nth c (mgm w) []) = p /\ forall j, (j < p)%nat ->
      entry (nth c (mgm w) []) j = mkm c j * (/ INR n * Sum n (fun i => entry sw i * (prob p k X Wf Bf i c - mat Y i c) * mat X i j) + l2 * Wf c j).
    Proof.
      intro Hc. destruct (mg_c c Hc) as [L E]. unfold mgm, mkm. destruct mask as [m|] eqn:Em.
      - assert (Lm : length m = k) by apply Hm. assert (Lmr : length (nth c m []) = p) by (apply nth_len; [apply Hm|lia]).
        pose proof mg_len as Lg.
        rewrite (map2_nth (map2 Rmult) _ _ c [] [] []) by lia. split; [now apply length_map2n|]. intros j Hj.
        rewrite (entry_map2n Rmult p), E by assumption. destruct (Nat.ltb_spec j p); [unfold mat; ring|lia].
      - split; [exact L|]. intros j Hj. rewrite E by exact Hj. ring.
    Qed.

    Definition mG : list (list R) :=
      if mhas w then map2 (fun r cl => r ++ [rsum (rcol (mdiff w) cl) / IZR (Z.of_nat (length X))]) (mgm w) (seq 0 k) else mgm w.
    Lemma mG_rows : length mG = k /\ Forall (fun r => length r = q) mG /\ forall d, (d < k)%nat ->
      nth d mG [] = if mhas w then nth d (mgm w) [] ++ [rsum (rcol (mdiff w) d) / IZR (Z.of_nat (length X))] else nth d (mgm w) [].
    Proof.
      pose proof mgm_len as Lm. unfold mG. destruct q_cases as [Lw [[Eq Eh]|[Eq Eh]]]; rewrite Eh, Eq.
      - split; [exact Lm|]. split; [|reflexivity]. apply Forall_forall. intros r Hr. apply (In_nth _ _ []) in Hr. destruct Hr as (d & Hd & <-).
        apply mgm_c. lia.
      - assert (Nd : forall d, (d < k)%nat -> nth d (map2 (fun r cl => r ++ [rsum (rcol (mdiff w) cl) / IZR (Z.of_nat (length X))]) (mgm w) (seq 0 k)) []
            = nth d (mgm w) [] ++ [rsum (rcol (mdiff w) d) / IZR (Z.of_nat (length X))]).
        { intros d Hd. rewrite (map2_nth _ _ _ d [] 0%nat []) by (rewrite ?seq_length; lia). rewrite seq_nth by exact Hd. reflexivity. }
        assert (Ll : length (map2 (fun r cl => r ++ [rsum (rcol (mdiff w) cl) / IZR (Z.of_nat (length X))]) (mgm w) (seq 0 k)) = k)
          by (apply length_map2n; [exact Lm|apply seq_length]).
        split; [exact Ll|]. split; [|exact Nd]. apply Forall_forall. intros r Hr. apply (In_nth _ _ []) in Hr. destruct Hr as (d & Hd & <-).
        rewrite Ll in Hd. rewrite Nd by exact Hd. rewrite app_length. rewrite (proj1 (mgm_c d Hd)). cbn. lia.
    Qed.
    Lemma mgrad_length : length (snd (mlg w)) = length w.
    Proof.
      rewrite mlg_R. cbn [snd]. fold mG. destruct mG_rows as (LG & FG & _). rewrite (length_concat_eq q) by exact FG. rewrite LG. symmetry. apply q_cases.
    Qed.
    Lemma mgrad_value c j : (c < k)%nat -> (j < q)%nat -> entry (snd (mlg w)) (c * q + j) =
      if Nat.ltb j p
      then mkm c j * (/ INR n * Sum n (fun i => entry sw i * (prob p k X Wf Bf i c - mat Y i c) * mat X i j) + l2 * Wf c j)
      else / INR n * Sum n (fun i => entry sw i * (prob p k X Wf Bf i c - mat Y i c)).
    Proof.
      intros Hc Hj. rewrite mlg_R. cbn [snd]. fold mG. destruct mG_rows as (LG & FG & NG).
      unfold entry at 1. rewrite nth_concat by (auto; lia). rewrite NG by exact Hc. destruct (mgm_c c Hc) as [Lr Er].
      destruct (Nat.ltb_spec j p) as [Hp|Hp].
      - destruct (mhas w); [rewrite app_nth1 by lia|]; now apply Er.
      - destruct q_cases as [Lw [[Eq Eh]|[Eq Eh]]]; [lia|]. rewrite Eh. rewrite app_nth2 by lia.
        replace (j - length (nth c (mgm w) []))%nat with 0%nat by lia. cbn [nth].
        assert (LX : length X = n) by apply HX. rewrite LX, <- INR_IZR_INZ, (rsum_Sum n) by apply rcol_len.
        unfold Rdiv. rewrite Rmult_comm. f_equal. apply Sum_ext. intros i Hi. now rewrite rcol_entry, diff_entry.
    Qed.
  End W.

  Hypothesis HY1 : forall i, (i < n)%nat -> Sum k (mat Y i) = 1.

  Lemma div_split q c j d i : (0 < q)%nat -> (j < q)%nat -> (i < q)%nat -> (c * q + j = d * q + i)%nat -> c = d /\ j = i.
  Proof. intros Hq Hj Hi E. assert (c = d) by nia. subst. split; [reflexivity|lia]. Qed.

  Lemma multi_gradient_at w c j : length w = (k * p)%nat \/ length w = (k * S p)%nat -> (c < k)%nat -> (j < mq w)%nat ->
    derivable_pt_lim (fun t => fst (mlg (upd w (c * mq w + j) t))) (entry w (c * mq w + j)) (entry (snd (mlg w)) (c * mq w + j)).
  Proof.
    intros Hw Hc Hj. destruct (q_cases w Hw) as [Lw Hq].
    assert (Hidx : (c * mq w + j < length w)%nat) by (rewrite Lw; nia).
    set (ix := (c * mq w + j)%nat) in *.
    assert (Lu : forall t, length (upd w ix t) = length w) by (intro; now apply length_upd).
    assert (Hu : forall t, length (upd w ix t) = (k * p)%nat \/ length (upd w ix t) = (k * S p)%nat) by (intro; now rewrite Lu).
    assert (Mu : forall t, mhas (upd w ix t) = mhas w) by (intro; unfold mhas; now rewrite Lu).
    assert (Qu : forall t, mq (upd w ix t) = mq w) by (intro; unfold mq; now rewrite Mu).
    assert (EW : forall t d i, (i < mq w)%nat -> entry (upd w ix t) (d * mq w + i) = if (Nat.eqb d c && Nat.eqb i j)%bool then t else entry w (d * mq w + i)).
    { intros t d i Hi. rewrite entry_upd by exact Hidx. unfold ix.
      destruct (Nat.eqb_spec (d * mq w + i) (c * mq w + j)) as [E|E].
      - apply div_split in E; try lia. destruct E as [-> ->]. now rewrite !Nat.eqb_refl.
      - destruct (Nat.eqb_spec d c) as [->|]; [|reflexivity]. destruct (Nat.eqb_spec i j) as [->|]; [now destruct E|reflexivity]. }
    set (Wt := fun t d i => mkm d i * if (Nat.eqb d c && Nat.eqb i j)%bool then t else entry w (d * mq w + i)).
    set (Bt := fun t d => if mhas w then (if (Nat.eqb d c && Nat.eqb p j)%bool then t else entry w (d * mq w + p)) else 0).
    assert (Es : forall t i d, escore p X (Wf (upd w ix t)) (Bf (upd w ix t)) i d = escore p X (Wt t) (Bt t) i d).
    { intros t i d. unfold escore. f_equal.
      - apply Sum_ext. intros l Hl. unfold Wf, Wt. rewrite Qu, EW by lia. reflexivity.
      - unfold Bf, Bt. rewrite Mu, Qu. destruct Hq as [[Eq Eh]|[Eq Eh]]; rewrite Eh; [reflexivity|]. now rewrite EW by lia. }
    apply (der_ext (fun t => mlossf n p k X Y sw l2 (Wt t) (Bt t))).
    { intro t. rewrite mloss_value by apply Hu. unfold mlossf. f_equal; f_equal; apply Sum_ext.
      - intros i Hi. f_equal. apply Sum_ext. intros d Hd. rewrite Es. f_equal. f_equal. f_equal. apply Sum_ext. intros e He. now rewrite Es.
      - intros d Hd. apply Sum_ext. intros l Hl. unfold Wf, Wt. rewrite Qu, EW by lia. reflexivity. }
    assert (E0 : forall d l, Wt (entry w ix) d l = Wf w d l).
    { intros d l. unfold Wt, Wf. destruct (Nat.eqb_spec d c) as [->|]; [|reflexivity]. destruct (Nat.eqb_spec l j) as [->|]; reflexivity. }
    assert (B0 : forall d, Bt (entry w ix) d = Bf w d).
    { intro d. unfold Bt, Bf. destruct (mhas w); [|reflexivity]. destruct (Nat.eqb_spec d c) as [->|]; [|reflexivity]. destruct (Nat.eqb_spec p j) as [->|]; reflexivity. }
    assert (S0 : forall i d, escore p X (Wt (entry w ix)) (Bt (entry w ix)) i d = escore p X (Wf w) (Bf w) i d).
    { intros i d. unfold escore. rewrite B0. f_equal. apply Sum_ext. intros l Hl. now rewrite E0. }
    assert (P0 : forall i d, prob p k X (Wt (entry w ix)) (Bt (entry w ix)) i d = prob p k X (Wf w) (Bf w) i d).
    { intros i d. unfold prob. rewrite S0. f_equal. apply Sum_ext. intros e He. now rewrite S0. }
    rewrite (mgrad_value w Hw c j Hc Hj : entry (snd (mlg w)) ix = _).
    eapply der_val; [|apply (der_mloss n p k X Y sw l2 Wt Bt (entry w ix)
        (fun d l => if (Nat.eqb d c && Nat.eqb l j)%bool then mkm c j else 0)
        (fun d => if (mhas w && (Nat.eqb d c && Nat.eqb p j))%bool then 1 else 0)); [exact Hk|exact HY1| |]].
    - assert (D0 : forall f : nat -> R, Sum k (fun d => f d * 0) = 0) by (intro f; apply Sum_zero; intros; ring).
      assert (D1 : forall (f : nat -> R) a, Sum k (fun d => if Nat.eqb d c then a else 0) = a).
      { intros f a. rewrite (Sum_at k c (fun _ => 0) a Hc), Sum_const. ring. }
      destruct (Nat.ltb_spec j p) as [Hp|Hp].
      + assert (DE : forall i d, escore p X (fun d l => if (Nat.eqb d c && Nat.eqb l j)%bool then mkm c j else 0)
                   (fun d => if (mhas w && (Nat.eqb d c && Nat.eqb p j))%bool then 1 else 0) i d = if Nat.eqb d c then mkm c j * mat X i j else 0).
        { intros i d. unfold escore. destruct (Nat.eqb_spec p j); [lia|]. rewrite !andb_false_r. destruct (Nat.eqb d c); cbn [andb].
          - rewrite (Sum_ext p _ (fun l => if Nat.eqb l j then mkm c j * mat X i j else (fun _ => 0) l)).
            + rewrite Sum_at by exact Hp. rewrite Sum_const. ring.
            + intros l Hl. destruct (Nat.eqb_spec l j); [subst; ring|ring].
          - rewrite Sum_zero by (intros; ring). ring. }
        rewrite (Sum_ext n _ (fun i => mkm c j * (entry sw i * (prob p k X (Wf w) (Bf w) i c - mat Y i c) * mat X i j))).
        * rewrite Sum_scal. rewrite (Sum_ext k (fun d => Sum p _) (fun d => if Nat.eqb d c then mkm c j * Wf w c j else 0)).
          -- rewrite (D1 (fun _ => 0)). ring.
          -- intros d Hd. destruct (Nat.eqb_spec d c) as [->|]; cbn [andb].
             ++ rewrite (Sum_ext p _ (fun l => if Nat.eqb l j then mkm c j * Wf w c j else (fun _ => 0) l)).
                ** rewrite Sum_at by exact Hp. rewrite Sum_const. ring.
                ** intros l Hl. rewrite E0. destruct (Nat.eqb_spec l j); [subst; ring|ring].
             ++ apply Sum_zero. intros; ring.
        * intros i Hi. rewrite (Sum_ext k _ (fun d => if Nat.eqb d c then (prob p k X (Wf w) (Bf w) i c - mat Y i c) * (mkm c j * mat X i j) else 0)).
          -- rewrite (D1 (fun _ => 0)). ring.
          -- intros d Hd. rewrite P0, DE. destruct (Nat.eqb_spec d c); [subst; reflexivity|ring].
      + destruct Hq as [[Eq Eh]|[Eq Eh]]; [lia|]. assert (j = p) by lia.
        assert (DE : forall i d, escore p X (fun d l => if (Nat.eqb d c && Nat.eqb l j)%bool then mkm c j else 0)
                   (fun d => if (mhas w && (Nat.eqb d c && Nat.eqb p j))%bool then 1 else 0) i d = if Nat.eqb d c then 1 else 0).
        { intros i d. unfold escore. rewrite Eh, (proj2 (Nat.eqb_eq p j)) by lia. rewrite andb_true_r. cbn [andb].
          rewrite Sum_zero; [destruct (Nat.eqb d c); ring|]. intros l Hl. destruct (Nat.eqb_spec l j); [lia|]. rewrite andb_false_r. ring. }
        rewrite (Sum_ext n _ (fun i => entry sw i * (prob p k X (Wf w) (Bf w) i c - mat Y i c))).
        * rewrite (Sum_zero k); [ring|]. intros d Hd. apply Sum_zero. intros l Hl. destruct (Nat.eqb_spec l j); [lia|]. rewrite andb_false_r. ring.
        * intros i Hi. f_equal. rewrite (Sum_ext k _ (fun d => if Nat.eqb d c then (prob p k X (Wf w) (Bf w) i c - mat Y i c) else 0)).
          -- apply (D1 (fun _ => 0)).
          -- intros d Hd. rewrite P0, DE. destruct (Nat.eqb_spec d c); [subst; ring|ring].
    - intros d l Hd Hl. unfold Wt. destruct (Nat.eqb_spec d c) as [->|]; cbn [andb]; [|apply der_const].
      destruct (Nat.eqb_spec l j) as [->|]; [|apply der_const]. apply (der_val _ _ (mkm c j * 1)); [ring|]. apply der_scal, der_id.
    - intros d Hd. unfold Bt. destruct (mhas w); cbn [andb]; [|apply der_const]. destruct (Nat.eqb d c && Nat.eqb p j)%bool; [apply der_id|apply der_const].
  Qed.

  Lemma multi_gradient w j : length w = (k * p)%nat \/ length w = (k * S p)%nat -> (j < length w)%nat ->
    derivable_pt_lim (fun t => fst (mlg (upd w j t))) (entry w j) (entry (snd (mlg w)) j).
  Proof.
    intros Hw Hj. destruct (q_cases w Hw) as [Lw _].
    assert (Hq : mq w <> 0%nat) by (intro E; rewrite E in Lw; lia).
    pose proof (Nat.div_mod j (mq w) Hq) as D. rewrite Nat.mul_comm in D. rewrite D.
    apply multi_gradient_at; [exact Hw| |now apply Nat.mod_upper_bound].
    apply Nat.div_lt_upper_bound; [exact Hq|]. rewrite Nat.mul_comm, <- Lw. exact Hj.
  Qed.
End MLoss.
