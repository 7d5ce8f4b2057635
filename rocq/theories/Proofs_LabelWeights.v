(** Class weights, sample weights and checks of MaskedCoefLogisticRegression.fit (C100). *)
From Coq Require Import String ZArith List Bool Arith Lia Reals Lra.
From Verif Require Import Prelude Num Model_Mpi Model_Poisson Model_Fit Model_Scores Model_Logistic Model_LogisticFit Model_Labels
  Spec_Rescale Spec_Labels Proofs_Rescale Proofs_Poisson Proofs_Logistic Proofs_Labels.
Import ListNotations.
Local Open Scope R_scope.

(** ** Dictionaries *)
Section Dict.
  Variable classes : list label.
  Let step (w : list R) (kv : label * R) : result (list R) :=
    match label_index (fst kv) classes with Some i => Ok (lset i (snd kv) w) | None => Raise ValueError end.
  Lemma dict_fold (D : NoDup classes) d : forall w, length w = length classes ->
    (incl (map fst d) classes ->
       exists w', foldM step d w = Ok w' /\ length w' = length classes /\
       forall j l, nth_error classes j = Some l ->
         (exists before after, d = (before ++ (l, entry w' j) :: after)%list /\ ~ In l (map fst after)) \/
         (~ In l (map fst d) /\ entry w' j = entry w j)) /\
    (~ incl (map fst d) classes -> foldM step d w = Raise ValueError).
  Proof.
    induction d as [|(l0, v) d IH]; intros w Lw; cbn [foldM map fst].
    - split; [|intro H; exfalso; apply H; intros x []]. intros _. exists w. split; [reflexivity|]. split; [exact Lw|].
      intros j l _. right. split; [intros []|reflexivity].
    - unfold step at 1 3. cbn [fst snd]. destruct (label_index l0 classes) as [i|] eqn:Ei; cbn [bind].
      + pose proof (index_Some _ _ _ Ei) as Ni.
        assert (Hi : (i < length w)%nat) by (rewrite Lw; apply nth_error_Some; congruence).
        destruct (IH (lset i v w) ltac:(rewrite length_lset; exact Lw)) as (A & B). split.
        * intro Inc. destruct A as (w' & E & L' & H); [intros x Hx; apply Inc; now right|].
          exists w'. split; [exact E|]. split; [exact L'|]. intros j l Nj.
          destruct (H j l Nj) as [(b & a & -> & Ha)|(Hn & Ev)].
          -- left. exists ((l0, v) :: b), a. split; [reflexivity|exact Ha].
          -- unfold entry in Ev at 2. rewrite nth_lset in Ev by exact Hi. destruct (Nat.eqb_spec j i) as [->|Nji].
             ++ left. exists [], d. rewrite Ni in Nj. injection Nj as <-. split; [now rewrite Ev|exact Hn].
             ++ right. split; [|exact Ev]. intros [->|X]; [|contradiction]. apply Nji.
                apply (proj1 (NoDup_nth_error classes) D); [apply nth_error_Some; congruence|congruence].
        * intro Inc. apply B. intro X. apply Inc. intros x [<-|Hx]; [exact (nth_error_In _ _ Ni)|now apply X].
      + apply index_None in Ei. split; [|reflexivity]. intro Inc. exfalso. apply Ei. apply Inc. now left.
  Qed.
End Dict.

(** ** Labels that stand for codes *)
Section Coded.
  Variables (f : nat -> label) (k : nat) (cs : list nat) (classes : list label).
  Hypothesis (Hcs : forall c, In c cs -> (c < k)%nat) (Lc : length classes = k) (D : NoDup classes)
    (Hn : forall c, (c < k)%nat -> nth_error classes c = Some (f c)).
  Lemma coded_inj c c' : (c < k)%nat -> (c' < k)%nat -> f c = f c' -> c = c'.
  Proof. intros H H' E. apply (proj1 (NoDup_nth_error classes) D); [lia|]. rewrite !Hn by assumption. congruence. Qed.
  Lemma coded_encode c : (c < k)%nat -> encode classes (f c) = c.
  Proof. intro H. apply encode_nth; [exact D|now apply Hn]. Qed.
  Lemma coded_count c : (c < k)%nat -> count (label_eqb (f c)) (map f cs) = count (Nat.eqb c) cs.
  Proof.
    intro H. revert Hcs. induction cs as [|c' l IH]; intro Hl; [reflexivity|]. cbn [map count].
    rewrite IH by (intros; apply Hl; now right). f_equal.
    assert (X : label_eqb (f c) (f c') = Nat.eqb c c'); [|now rewrite X].
    destruct (Nat.eqb_spec c c') as [<-|N]; [apply label_eqb_refl|].
    apply label_eqb_neq. intro A. apply N. apply coded_inj; [exact H|apply Hl; now left|exact A].
  Qed.
End Coded.

Section Weights.
  Variables (y : list label).
  Let k := length (unique_labels y).
  Let cs := codes y.
  Let n := length y.
  Variables (Hk : (2 <= k)%nat).
  Lemma cs_lt c : In c cs -> (c < k)%nat. Proof. apply codes_lt. Qed.
  Lemma cs_nth_lt i : (i < n)%nat -> (nth i cs 0 < k)%nat.
  Proof. intro H. apply cs_lt. apply nth_In. unfold cs. rewrite length_codes. exact H. Qed.
  Lemma cs_length : length cs = n. Proof. apply length_codes. Qed.

  (** The two ways in which codes are written as labels. *)
  Definition pm (v : nat) : label := LInt (if Nat.eqb v 1 then 1 else -1)%Z.
  Lemma code_classes : unique_labels (map of_code cs) = numbers k.
  Proof. exact (masked_numbers y). Qed.
  Lemma pm_classes : k = 2%nat -> unique_labels (map pm cs) = [LInt (-1); LInt 1].
  Proof.
    intro K. destruct (unique_classes (map pm cs)) as (D & I & (O & _)). revert D I O.
    generalize (unique_labels (map pm cs)) as u. intros u D I O.
    assert (I' : forall l, In l u <-> l = LInt (-1) \/ l = LInt 1).
    { intro l. rewrite I, in_map_iff. split.
      - intros (c & <- & Hc). unfold pm. destruct (Nat.eqb c 1); auto.
      - intros [->| ->]; [exists 0%nat|exists 1%nat]; (split; [reflexivity|]); apply codes_all; fold k; lia. }
    assert (L : length u = 2%nat).
    { apply Nat.le_antisymm.
      - apply (NoDup_incl_length (l' := [LInt (-1); LInt 1])); [exact D|]. intros x Hx. apply I' in Hx as [->| ->]; cbn; auto.
      - apply (NoDup_incl_length (l := [LInt (-1); LInt 1])).
        + constructor; [intros [X|[]]; discriminate|]. constructor; [intros []|constructor].
        + intros x [<-|[<-|[]]]; apply I'; auto. }
    destruct u as [|a [|b [|]]]; cbn in L; try lia.
    assert (A : a = LInt (-1) \/ a = LInt 1) by (apply I'; now left).
    assert (B : b = LInt (-1) \/ b = LInt 1) by (apply I'; right; now left).
    assert (AB : a <> b) by (inversion D as [|? ? X]; intros ->; apply X; now left).
    destruct A as [->| ->], B as [->| ->]; try congruence.
    specialize (O 0%nat 1%Z (-1)%Z eq_refl eq_refl). lia.
  Qed.

  (** The weights after the length check. *)
  Definition weighted (cw : class_weight Rnum) (s : list R) (ls : list label) : result (list R) :=
    let classes := unique_labels ls in
    let* w := compute_class_weight (N := Rnum) cw classes ls in
    Ok (map2 (fun v l => v * nth (encode classes l) w 0) s ls).

  Lemma weighted_value cw s f : length s = n -> (f = of_code \/ f = pm /\ k = 2%nat /\ cw = CWBalanced) ->
    match cw with CWDict d => forall l, In l (map fst d) -> In l (numbers k) | CWOther => False | _ => True end ->
    exists w, weighted cw s (map f cs) = Ok w /\ length w = n /\
      forall i, (i < n)%nat -> exists c, class_weight_of cw k cs (nth i cs 0%nat) c /\ entry w i = entry s i * c.
  Proof.
    intros Ls Hf Hcw. unfold weighted. set (classes := unique_labels (map f cs)).
    assert (D : NoDup classes) by apply unique_NoDup.
    assert (Hcl : length classes = k /\ forall c, (c < k)%nat -> nth_error classes c = Some (f c)).
    { destruct Hf as [->|(-> & K & _)]; unfold classes.
      - rewrite code_classes. split; [apply numbers_length|]. intros c Hc. now apply numbers_nth.
      - rewrite (pm_classes K), K. split; [reflexivity|]. intros [|[|c]] Hc; [reflexivity|reflexivity|lia]. }
    destruct Hcl as (Lc & Hn).
    assert (W : exists w : list R, compute_class_weight (N := Rnum) cw classes (map f cs) = Ok w /\ length w = k /\
                forall c, (c < k)%nat -> class_weight_of cw k cs c (entry w c)).
    { destruct cw as [| |d|]; cbn [compute_class_weight class_weight_of].
      - exists (map (fun _ => 1) classes). split; [reflexivity|]. split; [now rewrite map_length|].
        intros c Hc. unfold entry. rewrite (nth_indep _ 0 1) by (rewrite map_length; lia).
        now rewrite (map_nth (fun _ : label => 1) classes (LInt 0) c).
      - set (g := fun l => INR n / (INR k * INR (count (label_eqb l) (map f cs)))).
        assert (G : forall l, ndiv (n := Rnum) (nofnat (length (map f cs))) (nofnat (length classes * count (label_eqb l) (map f cs))) = g l).
        { intro l. unfold g, nofnat. rewrite map_length, cs_length, Lc.
          change (nofZ (n := Rnum)) with IZR. change (ndiv (n := Rnum)) with Rdiv.
          rewrite <- !INR_IZR_INZ. now rewrite mult_INR. }
        exists (map g classes). split; [exact (f_equal Ok (map_ext _ _ G classes))|]. split; [rewrite map_length; exact Lc|]. intros c Hc.
        unfold entry. rewrite (nth_indep _ 0 (g (f 0%nat))) by (rewrite map_length; lia).
        rewrite (map_nth g classes (f 0%nat) c). rewrite (nth_error_nth classes c _ (Hn c Hc)).
        unfold g. rewrite cs_length. rewrite (coded_count f k cs classes cs_lt Lc D Hn c Hc). reflexivity.
      - destruct Hf as [->|(_ & _ & X)]; [|discriminate].
        assert (Ec : classes = numbers k) by exact code_classes.
        destruct (dict_fold classes D d (map (fun _ => 1) classes)) as (A & _); [apply map_length|].
        destruct A as (w & Ew & Lw & Hw); [intros l Hl; rewrite Ec; now apply Hcw|].
        exists w. split; [exact Ew|]. split; [now rewrite Lw|]. intros c Hc.
        destruct (Hw c (of_code c) (Hn c Hc)) as [X|(X & Y)]; [now left|right]. split; [exact X|].
        rewrite Y. unfold entry. rewrite (nth_indep _ 0 1) by (rewrite map_length; lia).
        now rewrite (map_nth (fun _ : label => 1) classes (LInt 0) c).
      - contradiction. }
    destruct W as (w & -> & Lw & Hw). cbn [bind]. eexists. split; [reflexivity|].
    split; [rewrite map2_length, map_length, cs_length, Ls; apply Nat.min_id|].
    intros i Hi. exists (entry w (nth i cs 0%nat)). split; [apply Hw, cs_nth_lt, Hi|].
    unfold entry at 1. rewrite (map2_nth _ _ _ _ 0 (f 0%nat) 0) by (rewrite ?map_length, ?cs_length; lia).
    rewrite map_nth. rewrite (coded_encode f k classes D Hn) by (now apply cs_nth_lt). reflexivity.
  Qed.

  Lemma weighted_bad cw s : match cw with CWDict d => ~ (forall l, In l (map fst d) -> In l (numbers k)) | CWOther => True | _ => False end ->
    weighted cw s (map of_code cs) = Raise ValueError.
  Proof.
    intro H. unfold weighted. destruct cw as [| |d|]; try contradiction; [|reflexivity].
    rewrite code_classes. cbn [compute_class_weight].
    assert (D : NoDup (numbers k)) by (rewrite <- code_classes; apply unique_NoDup).
    destruct (dict_fold (numbers k) D d (map (fun _ => 1) (numbers k))) as (_ & B); [apply map_length|].
    refine (f_equal (fun r => bind r _) (B H)).
  Qed.

  Definition unit_or (sw : option (list R)) : list R := match sw with Some s => s | None => map (fun _ => 1) cs end.
  Lemma weights_unfold multi cw sw : (forall s, sw = Some s -> length s = n) ->
    Model_Labels.weights (N := Rnum) multi cw cs sw
    = if multi then weighted cw (unit_or sw) (map of_code cs)
      else match cw with CWDict _ => weighted cw (unit_or sw) (map of_code cs)
           | CWBalanced => weighted cw (unit_or sw) (map pm cs) | _ => Ok (unit_or sw) end.
  Proof.
    intro H. unfold Model_Labels.weights. destruct sw as [s|].
    - rewrite (H s eq_refl), cs_length, Nat.eqb_refl. reflexivity.
    - reflexivity.
  Qed.
  Lemma unit_value sw : (forall s, sw = Some s -> length s = n) ->
    length (unit_or sw) = n /\ forall i, (i < n)%nat -> entry (unit_or sw) i = sample_weight_of sw i.
  Proof.
    intro H. destruct sw as [s|]; cbn [unit_or sample_weight_of]; [auto|]. rewrite map_length. split; [apply cs_length|].
    intros i Hi. unfold entry. rewrite (nth_indep _ 0 1) by (rewrite map_length, cs_length; exact Hi).
    now rewrite (map_nth (fun _ : nat => 1) cs 0%nat i).
  Qed.

  Lemma weights_value multi cw sw : (multi = false -> k = 2%nat) -> weights_accepted multi cw k n sw ->
    exists w, Model_Labels.weights (N := Rnum) multi cw cs sw = Ok w /\ length w = n /\
      forall i, (i < n)%nat -> exists c, class_weight_of cw k cs (nth i cs 0%nat) c /\ entry w i = sample_weight_of sw i * c.
  Proof.
    intros Hm (Hs & Hcw). rewrite (weights_unfold multi cw sw Hs). destruct (unit_value sw Hs) as (Lu & Hu).
    assert (V : forall f, (f = of_code \/ f = pm /\ k = 2%nat /\ cw = CWBalanced) ->
       match cw with CWDict d => forall l, In l (map fst d) -> In l (numbers k) | CWOther => False | _ => True end ->
       exists w, weighted cw (unit_or sw) (map f cs) = Ok w /\ length w = n /\
       forall i, (i < n)%nat -> exists c, class_weight_of cw k cs (nth i cs 0%nat) c /\ entry w i = sample_weight_of sw i * c).
    { intros f Hf Hc. destruct (weighted_value cw (unit_or sw) f Lu Hf Hc) as (w & E & L & H).
      exists w. split; [exact E|]. split; [exact L|]. intros i Hi. rewrite <- (Hu i Hi). now apply H. }
    destruct multi.
    - apply V; [now left|]. destruct cw; auto. discriminate.
    - destruct cw as [| |d|].
      + exists (unit_or sw). split; [reflexivity|]. split; [exact Lu|]. intros i Hi. exists 1. split; [reflexivity|].
        rewrite (Hu i Hi). lra.
      + apply V; [|exact Logic.I]. right. auto.
      + apply V; [now left|exact Hcw].
      + exists (unit_or sw). split; [reflexivity|]. split; [exact Lu|]. intros i Hi. exists 1. split; [reflexivity|].
        rewrite (Hu i Hi). lra.
  Qed.
  Lemma label_In_dec (l : label) c : In l c \/ ~ In l c.
  Proof. destruct (existsb (label_eqb l) c) eqn:E; [left; now apply existsb_label|right]. rewrite <- existsb_label. congruence. Qed.
  Lemma incl_dec (a b : list label) : (forall l, In l a -> In l b) \/ ~ (forall l, In l a -> In l b).
  Proof.
    induction a as [|x a [IH|IH]].
    - left. intros l [].
    - destruct (label_In_dec x b) as [H|H]; [left|right].
      + intros l [<-|Hl]; auto.
      + intro A. apply H, A. now left.
    - right. intro A. apply IH. intros l Hl. apply A. now right.
  Qed.
  Lemma weights_bad multi cw sw : ~ weights_accepted multi cw k n sw ->
    Model_Labels.weights (N := Rnum) multi cw cs sw = Raise ValueError.
  Proof.
    intro H.
    assert (Hs : (forall s, sw = Some s -> length s = n) \/ exists s, sw = Some s /\ length s <> n).
    { destruct sw as [s|]; [|left; discriminate]. destruct (Nat.eq_dec (length s) n) as [E|E]; [left|right; eauto].
      intros s' X. injection X as <-. exact E. }
    destruct Hs as [Hs|(s & -> & Ls)].
    - rewrite (weights_unfold multi cw sw Hs). unfold weights_accepted in H.
      assert (B : match cw with CWDict d => ~ (forall l, In l (map fst d) -> In l (numbers k)) | CWOther => multi = true | _ => False end).
      { destruct cw as [| |d|]; try (apply H; auto).
        - intro A. apply H. auto.
        - destruct multi; [reflexivity|]. exfalso. apply H. auto. }
      destruct cw as [| |d|]; try contradiction.
      + rewrite (weighted_bad (CWDict d) (unit_or sw) B). now destruct multi.
      + rewrite B. now apply weighted_bad.
    - unfold Model_Labels.weights. rewrite cs_length. change (@length (carrier Rnum) s) with (@length R s).
      destruct (Nat.eqb_spec (length s) n); [contradiction|reflexivity].
  Qed.

  (** Balanced weights give every class the same total weight. *)
  Lemma count_Sum c : Sum n (fun i => if Nat.eqb c (nth i cs 0%nat) then 1 else 0) = INR (count (Nat.eqb c) cs).
  Proof.
    rewrite <- cs_length. generalize cs as l. intro l. induction l as [|a l IH]; [reflexivity|].
    cbn [length]. rewrite Sum_shift. cbn [nth count]. rewrite IH. destruct (Nat.eqb c a); rewrite plus_INR; cbn; lra.
  Qed.
  Lemma count_app {A} (p : A -> bool) a b : count p (a ++ b) = (count p a + count p b)%nat.
  Proof. induction a as [|x a IH]; cbn; [reflexivity|]. rewrite IH. lia. Qed.
  Lemma balanced_total multi w c : (multi = false -> k = 2%nat) ->
    Model_Labels.weights (N := Rnum) multi CWBalanced cs None = Ok w -> (c < k)%nat ->
    Sum n (fun i => if Nat.eqb c (nth i cs 0%nat) then entry w i else 0) = INR n / INR k.
  Proof.
    intros Hm E Hc. destruct (weights_value multi CWBalanced None Hm) as (w' & E' & _ & H); [split; [discriminate|exact Logic.I]|].
    pose proof (eq_trans (eq_sym E) E') as X. injection X as <-.
    rewrite (Sum_ext n _ (fun i => (INR n / (INR k * INR (count (Nat.eqb c) cs))) * (if Nat.eqb c (nth i cs 0%nat) then 1 else 0))).
    2:{ intros i Hi. destruct (Nat.eqb_spec c (nth i cs 0%nat)) as [->|]; [|lra].
        destruct (H i Hi) as (v & Hv & ->). cbn [class_weight_of sample_weight_of] in *. rewrite Hv, cs_length. lra. }
    rewrite Sum_scal, count_Sum.
    assert (P : INR (count (Nat.eqb c) cs) <> 0).
    { assert (In c cs) by (apply codes_all; exact Hc). apply not_0_INR. intro Z.
      apply in_split in H0 as (a & b & Ecs). rewrite Ecs in Z. rewrite count_app in Z. cbn [count] in Z.
      rewrite Nat.eqb_refl in Z. cbn in Z. lia. }
    assert (INR k <> 0) by (apply not_0_INR; lia). field. auto.
  Qed.
End Weights.

(** ** The fit *)
Lemma rejected_bad {N : NumOps} (v : number N) : rejected v = true <-> bad_number v.
Proof. destruct v; cbn; split; auto. Qed.
Section MaskedFit.
  Context {N : NumOps}.
  Variables (l2 has multinomial : bool) (p : nat) (C tol max_iter : number N) (mi : Z) (X : list (list N)) (y : list label)
    (mask coef : option (list (list N))) (opt : (list N -> N * list N) -> list N -> list N) (fuel lsfuel : nat).
  Let run cw sw := masked_fit l2 has multinomial p C tol max_iter mi cw X y sw mask coef opt fuel lsfuel.
  Lemma fit_rejected cw sw : bad_number C \/ bad_number max_iter \/ bad_number tol ->
    run cw sw = Some (mkMasked None (FitRaises ValueError)).
  Proof.
    rewrite <- !rejected_bad. intro H. unfold run, masked_fit.
    assert (E : rejected C || rejected max_iter || rejected tol = true) by
      (destruct H as [->|[->| ->]]; rewrite ?orb_true_r; reflexivity).
    now rewrite E.
  Qed.
  Lemma fit_classes cw sw o : ~ (bad_number C \/ bad_number max_iter \/ bad_number tol) ->
    run cw sw = Some o -> mk_classes o = Some (numbers (length (unique_labels y))).
  Proof.
    rewrite <- !rejected_bad. intro H. unfold run, masked_fit.
    assert (E : rejected C || rejected max_iter || rejected tol = false).
    { destruct (rejected C), (rejected max_iter), (rejected tol); cbn; auto; exfalso; apply H; auto. }
    rewrite E, masked_numbers. cbv zeta. destruct (Nat.ltb _ 2); [intro X0; now injection X0 as <-|].
    destruct (Model_Labels.weights _ _ _ _) as [w|e]; [|intro X0; now injection X0 as <-].
    destruct C as [c|]; [|intro X0; now injection X0 as <-]. destruct tol as [t|]; [|intro X0; now injection X0 as <-].
    destruct (if _ : bool then _ else _); cbn [option_map]; [|discriminate]. intro X0. now injection X0 as <-.
  Qed.
  Lemma fit_one_class cw sw : ~ (bad_number C \/ bad_number max_iter \/ bad_number tol) ->
    (length (unique_labels y) < 2)%nat ->
    run cw sw = Some (mkMasked (Some (numbers (length (unique_labels y)))) (FitRaises ValueError)).
  Proof.
    rewrite <- !rejected_bad. intros H K. unfold run, masked_fit.
    assert (E : rejected C || rejected max_iter || rejected tol = false).
    { destruct (rejected C), (rejected max_iter), (rejected tol); cbn; auto; exfalso; apply H; auto. }
    rewrite E, masked_numbers, numbers_length. cbv zeta. rewrite (proj2 (Nat.ltb_lt _ _) K). reflexivity.
  Qed.
  Lemma fit_same_weights cw sw cw' sw' :
    Model_Labels.weights (multinomial || Nat.ltb 2 (length (unique_labels y))) cw (codes y) sw
    = Model_Labels.weights (multinomial || Nat.ltb 2 (length (unique_labels y))) cw' (codes y) sw' ->
    run cw sw = run cw' sw'.
  Proof. intro H. unfold run, masked_fit. rewrite masked_numbers, numbers_length. cbv zeta. now rewrite H. Qed.
  Lemma fit_bad_weights cw sw : ~ (bad_number C \/ bad_number max_iter \/ bad_number tol) ->
    (2 <= length (unique_labels y))%nat ->
    Model_Labels.weights (multinomial || Nat.ltb 2 (length (unique_labels y))) cw (codes y) sw = Raise ValueError ->
    run cw sw = Some (mkMasked (Some (numbers (length (unique_labels y)))) (FitRaises ValueError)).
  Proof.
    rewrite <- !rejected_bad. intros H K W. unfold run, masked_fit.
    assert (E : rejected C || rejected max_iter || rejected tol = false).
    { destruct (rejected C), (rejected max_iter), (rejected tol); cbn; auto; exfalso; apply H; auto. }
    rewrite E, masked_numbers, numbers_length. cbv zeta. rewrite (proj2 (Nat.ltb_ge _ _) K). now rewrite W.
  Qed.
End MaskedFit.

Lemma weights_none (y : list label) multi (w : list R) : (2 <= length (unique_labels y))%nat ->
  (multi = false -> length (unique_labels y) = 2%nat) -> length w = length y ->
  Model_Labels.weights (N := Rnum) multi CWNone (codes y) (Some w) = Ok w.
Proof.
  intros K Hm L. destruct (weights_value y K multi CWNone (Some w) Hm) as (w' & E & L' & H).
  { split; [|exact Logic.I]. intros s X. now injection X as <-. }
  refine (eq_trans E _). f_equal. apply (nth_ext _ _ 0 0); [exact (eq_trans L' (eq_sym L))|]. intros i Hi. pose proof (eq_ind _ (fun m => (i < m)%nat) Hi _ L') as Hj. cbn beta in Hj.
  destruct (H i Hj) as (c & Hc & Ev). cbn in Hc, Ev. subst c. unfold entry in Ev. rewrite Ev. lra.
Qed.
Lemma multi_two multinomial k : (2 <= k)%nat -> multinomial || Nat.ltb 2 k = false -> k = 2%nat.
Proof. intros K H. apply orb_false_elim in H as (_ & H). apply Nat.ltb_ge in H. lia. Qed.

Lemma dict_functional d l v v' : dict_weight d l v -> dict_weight d l v' -> v = v'.
Proof.
  unfold dict_weight.
  assert (Two : forall b a b' a', (b ++ (l, v) :: a = b' ++ (l, v') :: a')%list -> ~ In l (map fst a) -> ~ In l (map fst a') -> v = v').
  { induction b as [|x b IH]; intros a [|x' b'] a' E H H'; cbn [app] in E.
    - now injection E.
    - injection E as _ ->. exfalso. apply H. rewrite map_app. apply in_or_app. right. now left.
    - injection E as _ <-. exfalso. apply H'. rewrite map_app. apply in_or_app. right. now left.
    - injection E as _ E. eauto. }
  assert (Has : forall b a (u : R), In l (map fst (b ++ (l, u) :: a)%list)) by
    (intros; rewrite map_app; apply in_or_app; right; now left).
  intros [(b & a & -> & H)|(H & ->)] [(b' & a' & E & H')|(H' & ->)].
  - eauto.
  - exfalso. apply H', Has.
  - exfalso. subst d. apply H, Has.
  - reflexivity.
Qed.
Lemma weight_functional cw k cs c v v' : class_weight_of cw k cs c v -> class_weight_of cw k cs c v' -> v = v'.
Proof. destruct cw as [| |d|]; cbn; try congruence. apply dict_functional. Qed.
Lemma weighted_unique cw y sw w w' : weighted_by cw y sw w -> weighted_by cw y sw w' -> w = w'.
Proof.
  intros (L & H) (L' & H'). apply (nth_ext _ _ 0 0); [congruence|]. intros i Hi. rewrite L in Hi.
  destruct (H i Hi) as (v & A & B). destruct (H' i Hi) as (v' & A' & B'). unfold entry in B, B'. rewrite B, B'.
  now rewrite (weight_functional _ _ _ _ _ _ A A').
Qed.
Lemma weights_exact y multi cw sw : (2 <= length (unique_labels y))%nat ->
  (multi = false -> length (unique_labels y) = 2%nat) -> weights_accepted multi cw (length (unique_labels y)) (length y) sw ->
  exists w, weighted_by cw y sw w /\ Model_Labels.weights (N := Rnum) multi cw (codes y) sw = Ok w.
Proof.
  intros K Hm A. destruct (weights_value y K multi cw sw Hm A) as (w & E & L & H). exists w. split; [|exact E]. split; auto.
Qed.
Lemma weights_are y multi cw sw w : (2 <= length (unique_labels y))%nat ->
  (multi = false -> length (unique_labels y) = 2%nat) -> weights_accepted multi cw (length (unique_labels y)) (length y) sw ->
  weighted_by cw y sw w -> Model_Labels.weights (N := Rnum) multi cw (codes y) sw = Ok w.
Proof.
  intros K Hm A H. destruct (weights_exact y multi cw sw K Hm A) as (w' & H' & E). rewrite (weighted_unique _ _ _ _ _ H H'). exact E.
Qed.
Lemma masked_fit_weights (l2 has multinomial : bool) p C tol max_iter mi cw X y (sw : option (list R)) mask coef opt fuel lsfuel :
  let k := length (uoi_classes y) in let multi := multinomial || Nat.ltb 2 k in
  (2 <= k)%nat ->
  (weights_accepted multi cw k (length y) sw ->
   exists w, weighted_by cw y sw w /\
     masked_fit (N := Rnum) l2 has multinomial p C tol max_iter mi cw X y sw mask coef opt fuel lsfuel
     = masked_fit (N := Rnum) l2 has multinomial p C tol max_iter mi CWNone X y (Some w) mask coef opt fuel lsfuel) /\
  (~ weights_accepted multi cw k (length y) sw -> ~ (bad_number C \/ bad_number max_iter \/ bad_number tol) ->
   masked_fit (N := Rnum) l2 has multinomial p C tol max_iter mi cw X y sw mask coef opt fuel lsfuel
   = Some (mkMasked (Some (numbers k)) (FitRaises ValueError))).
Proof.
  intros k multi K. split.
  - intro A. destruct (weights_exact y multi cw sw K (multi_two _ _ K) A) as (w & W & E). exists w. split; [exact W|].
    apply fit_same_weights. refine (eq_trans E (eq_sym _)). apply weights_none; [exact K|exact (multi_two _ _ K)|exact (proj1 W)].
  - intros A B. apply fit_bad_weights; [exact B|exact K|]. exact (weights_bad y multi cw sw A).
Qed.
Lemma balanced_totals y w c : let k := length (uoi_classes y) in let n := length y in
  (2 <= k)%nat -> weighted_by CWBalanced y None w -> (c < k)%nat ->
  Sum n (fun i => if Nat.eqb c (nth i (codes y) 0%nat) then entry w i else 0) = INR n / INR k.
Proof.
  intros k n K W Hc. apply (balanced_total y K true w c); [discriminate| |exact Hc].
  apply weights_are; [exact K|discriminate| |exact W]. split; [discriminate|exact Logic.I].
Qed.
