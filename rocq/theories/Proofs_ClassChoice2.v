(** Proofs about ties in the choice of UoI_L1Logistic (C129). *)
From Coq Require Import ZArith String List Bool Arith Lia Reals Lra Permutation Sorted.
From Verif Require Import Prelude F64 Num Model_Intersection Model_Fit Model_Scores Model_Refit Model_Rescale Model_Poisson Model_Linear Model_Estimation Model_Selection Model_ClassFit
  Spec_Intersection Proofs_Intersection Spec_Rescale Proofs_Rescale Spec_Poisson Proofs_Poisson Spec_Linear Proofs_Linear
  Proofs_LinearUnits Spec_Estimation Proofs_Estimation Proofs_Estimation2 Proofs_Estimation3 Spec_Choice Proofs_Choice Spec_Units Proofs_Units3 Spec_ClassFit Proofs_ClassFit Proofs_ClassFit2 Spec_ClassChoice Proofs_ClassChoice.
From Verif Require Model_Logistic Model_Labels Spec_Logistic Proofs_Logistic.
Import ListNotations.
Local Open Scope R_scope.

(** ** More than half of the entries *)
Lemma sorted_le s : StronglySorted Rle s -> forall i j, (i <= j)%nat -> (j < length s)%nat -> entry s i <= entry s j.
Proof.
  unfold entry. induction 1 as [|x s H IH F]; intros i j Hij Hj; [cbn in Hj; lia|]. destruct i, j; cbn in *; try lia; [lra| |apply IH; lia].
  rewrite Forall_forall in F. apply F, nth_In. lia.
Qed.
Lemma count_firstn (v : R) s k : (forall i, (i < k)%nat -> (i < length s)%nat -> entry s i <> v) -> (count_occ Req_EM_T s v <= length s - k)%nat.
Proof.
  intro H. rewrite <- (firstn_skipn k s) at 1. rewrite count_occ_app.
  assert (E : count_occ Req_EM_T (firstn k s) v = 0%nat).
  { apply count_occ_not_In. intro I. apply (In_nth _ _ 0) in I as (i & Hi & Ei). rewrite firstn_length in Hi. apply (H i); [lia|lia|].
    unfold entry. rewrite <- Ei. clear -Hi. revert i s Hi. induction k as [|k IH]; intros [|i] [|x s] Hi; cbn in *; try lia; [reflexivity|]. apply IH. lia. }
  rewrite E. pose proof (count_occ_bound Req_EM_T v (skipn k s)) as B. rewrite skipn_length in B. lia.
Qed.
Lemma count_skipn (v : R) s k : (forall i, (k <= i)%nat -> (i < length s)%nat -> entry s i <> v) -> (count_occ Req_EM_T s v <= k)%nat.
Proof.
  intro H. rewrite <- (firstn_skipn k s). rewrite count_occ_app.
  assert (E : count_occ Req_EM_T (skipn k s) v = 0%nat).
  { apply count_occ_not_In. intro I. apply (In_nth _ _ 0) in I as (i & Hi & Ei). rewrite skipn_length in Hi. apply (H (k + i)%nat); [lia|lia|].
    unfold entry. rewrite <- Ei. clear. revert s. induction k as [|k IH]; intros [|x s]; cbn; try reflexivity; [now destruct i|apply IH]. }
  rewrite E. pose proof (count_occ_bound Req_EM_T v (firstn k s)) as B. rewrite firstn_length in B. lia.
Qed.
Lemma middle (v : R) s i : StronglySorted Rle s -> (i < length s)%nat -> (length s - i - 1 < count_occ Req_EM_T s v)%nat -> (i < count_occ Req_EM_T s v)%nat -> entry s i = v.
Proof.
  intros Hs Hi H1 H2. destruct (Rtotal_order (entry s i) v) as [L|[E|L]]; [|exact E|]; exfalso.
  - pose proof (count_firstn v s (S i)) as Q. assert (count_occ Req_EM_T s v <= length s - S i)%nat; [|lia]. apply Q.
    intros k Hk _. pose proof (sorted_le s Hs k i ltac:(lia) Hi). lra.
  - pose proof (count_skipn v s i) as Q. assert (count_occ Req_EM_T s v <= i)%nat; [|lia]. apply Q.
    intros k Hk Hk'. pose proof (sorted_le s Hs i k Hk Hk'). lra.
Qed.
Lemma median_majority (v w : R) l : (length l < 2 * count_occ Req_EM_T l v)%nat -> median_of l w -> w = v.
Proof.
  intros H (s & P & Hs & E). rewrite (proj1 (Permutation_count_occ Req_EM_T _ _) (Permutation_sym P)) in H.
  rewrite <- (Permutation_length P) in *. pose proof (count_occ_bound Req_EM_T v s) as B.
  assert (D : (length s = 2 * (length s / 2) + (if Nat.even (length s) then 0 else 1))%nat).
  { rewrite <- Nat.negb_odd. pose proof (Nat.div2_odd (length s)) as O. rewrite Nat.div2_div in O. destruct (Nat.odd (length s)); exact O. }
  rewrite E. destruct (Nat.even (length s)).
  - rewrite !(middle v s) by (assumption || lia). lra.
  - rewrite (middle v s) by (assumption || lia). reflexivity.
Qed.

(** ** The empty support comes first *)
Lemma lex_zeros p m : length m = p -> ~ lex_lt m (repeat false p).
Proof. revert m. induction p as [|p IH]; intros m L H; [inversion H|]. destruct m as [|x m]; [discriminate|]. cbn in *. inversion H; subst. apply (IH m); [lia|assumption]. Qed.
Lemma increasing_after before mask after m : increasing (before ++ mask :: after) -> In m after -> lex_lt mask m.
Proof.
  induction before as [|a before IH]; cbn; intros [F H] I; [|now apply IH]. rewrite Forall_forall in F. now apply F.
Qed.
Lemma zeros_first p before mask after : increasing (before ++ mask :: after) -> length mask = p ->
  In (repeat false p) (before ++ mask :: after) -> mask = repeat false p \/ In (repeat false p) before.
Proof.
  intros H L I. apply in_app_iff in I as [I|[I|I]]; [now right|now left|]. exfalso. exact (lex_zeros p mask L (increasing_after before mask after _ H I)).
Qed.
Lemma zeros_estimate_only p mask m e : mask = repeat false p -> estimate_of p mask m e -> forall j, entry e j = 0.
Proof. intros -> (_ & H & _) j. apply H. clear. revert j. induction p as [|p IH]; intros [|j]; try reflexivity. apply IH. Qed.

Lemma marked_count (P : list nat * list nat -> Prop) est (best : list (list R)) (marks : list bool) j :
  Forall2 (fun sp e => P sp -> entry e j = 0) est best -> Forall2 (fun sp (t : bool) => t = true -> P sp) est marks ->
  (count (fun t => t) marks <= count_occ Req_EM_T (map (fun e => entry e j) best) 0%R)%nat.
Proof.
  intros F. revert marks. induction F as [|sp e est best H F IH]; intros marks G; inversion G as [|? t ? marks' Ht G']; subst; [cbn; lia|].
  specialize (IH marks' G'). cbn [map count_occ]. destruct t.
  - rewrite (H (Ht eq_refl)). destruct (Req_EM_T 0 0) as [_|C]; [|now destruct C]. change (S (count (fun t => t) marks') <= S (count_occ Req_EM_T (map (fun e => entry e j) best) 0%R))%nat. lia.
  - change (count (fun t : bool => t) marks' <= (if Req_EM_T (entry e j) 0%R then S (count_occ Req_EM_T (map (fun e => entry e j) best) 0%R) else count_occ Req_EM_T (map (fun e => entry e j) best) 0%R))%nat.
    destruct (Req_EM_T _ _); lia.
Qed.

Lemma class_majority standardize has n p X (y : list Model_Labels.label) eps num (Cs : list R) ts clip target
    (sel_lm : solver_C (N := Rnum)) (est_lm : solver_ml (N := Rnum)) (refit : refitter (N := Rnum)) sel est (marks : list bool) :
  let z := Model_Labels.codes y in
  matrix n p X -> length z = n -> Forall (fun v => (v < 2)%nat) z -> In 0%nat z -> In 1%nat z ->
  ts <> [] -> Cs <> [] ->
  let Xs := map (base_transform (N := Rnum) standardize has (fit_scaler (columns p X))) X in
  class_Cs (N := Rnum) has p eps num Xs z = Ok Cs ->
  let supports := class_select (N := Rnum) p sel_lm ts Cs sel Xs z in
  let fit_of sp mask := est_lm (part Xs (fst sp) mask) (part_y (map INR z) (fst sp)) in
  let hits_of sp mask := hits Xs z (fst sp) (scored target sp) mask (fit_of sp mask) in
  (forall sp, In sp est ->
     (forall r, In r (fst sp) -> (r < n)%nat) /\ fst sp <> [] /\ (forall r, In r (scored target sp) -> (r < n)%nat) /\ scored target sp <> [] /\
     forall mask, In mask supports -> existsb (fun b => b) mask = true -> length (fst (fit_of sp mask)) = count (fun b => b) mask) ->
  In (repeat false p) supports ->
  Forall2 (fun sp (t : bool) => t = true -> forall mask, In mask supports -> (hits_of sp mask <= hits_of sp (repeat false p))%nat) est marks ->
  (length est < 2 * count (fun t => t) marks)%nat ->
  exists b, class_fit (N := Rnum) standardize has eps num ts clip "acc" target p sel_lm est_lm refit sel est X y = Ok (repeat 0 p, b).
Proof.
  intros z HX Lz Hb H0 H1 Hts HCs Xs G supports fit_of hits_of Hok Hin Hm Hc.
  assert (Hn : (0 < n)%nat) by (rewrite <- Lz; destruct z; [easy|cbn; lia]).
  assert (Hest : est <> []) by (intros ->; inversion Hm; subst; cbn in Hc; lia).
  destruct (class_choice standardize has n p X y eps num Cs ts clip "acc" target sel_lm est_lm refit sel est HX Lz Hb H0 H1 (or_introl eq_refl) ltac:(intro C; now destruct C) Hts HCs Hest G Hok) as (best & c & b & E & F & Lc & Med).
  exists b. fold z Xs in F. rewrite E. do 2 f_equal. apply (list_eq_entries c (repeat 0 p) p); [exact Lc|apply repeat_length|]. intros j Hj.
  assert (Ez : entry (repeat 0 p) j = 0) by (unfold entry; clear; revert j; induction p as [|q IH]; intros [|j]; try reflexivity; apply IH).
  rewrite Ez. specialize (Med j Hj).
  assert (Z : entry c j * (if standardize then column_scale (N := Rnum) (col n X j) else 1) = 0).
  { refine (median_majority 0 _ _ _ Med). rewrite map_length. rewrite <- (Forall2_len _ _ _ F) in Hc.
    eapply Nat.lt_le_trans; [exact Hc|]. apply Nat.mul_le_mono_l.
    refine (marked_count (fun sp => forall mask, In mask supports -> (hits_of sp mask <= hits_of sp (repeat false p))%nat) est best marks j _ Hm).
    eapply Forall2_weaken; [|exact F]. intros sp e Hsp (before & mask & after & Es & Ee & Hbe & _) Ht.
    assert (Inc : increasing (before ++ mask :: after)) by (rewrite <- Es; apply usort_rows_increasing).
    assert (Im : In mask supports) by (unfold supports; rewrite Es; apply in_app_iff; right; now left).
    destruct (zeros_first p before mask after Inc (module_length mask Im) (eq_ind _ (In (repeat false p)) Hin _ Es)) as [Q|Q].
    - exact (zeros_estimate_only p mask _ e Q Ee j).
    - exfalso. specialize (Hbe _ Q). specialize (Ht mask Im). unfold class_cost in Hbe. cbn [String.eqb Ascii.eqb Bool.eqb] in Hbe.
      destruct (Hok sp Hsp) as (_ & _ & _ & B4 & _).
      assert (In0 : 0 < / INR (length (scored target sp))) by (apply Rinv_0_lt_compat, lt_0_INR; destruct (scored target sp); [easy|cbn; lia]).
      apply le_INR in Ht. pose proof (Rmult_le_compat_r _ _ _ (Rlt_le _ _ In0) Ht) as K. unfold Rdiv in Hbe. unfold hits_of, fit_of in K. lra. }
  destruct standardize; [|lra]. pose proof (scale_pos n (col n X j) Hn (length_col n X j)) as S0. apply Rmult_integral in Z. destruct Z as [Z|Z]; [exact Z|]. rr. rewrite Z in S0. lra.
Qed.
