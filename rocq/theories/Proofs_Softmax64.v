(** softmax and sigmoid in binary64 (C108). *)
From Coq Require Import ZArith Reals Bool List Lia Lra Floats.SpecFloat.
From Flocq Require Import Core IEEE754.BinarySingleNaN.
From Verif Require Import F64 F64Facts F64Order Num Num64 Proofs_Num64 Model_Poisson Model_Logistic Model_Labels Spec_Softmax64.
Import ListNotations.
Local Open Scope R_scope.

Lemma of_Z_value z : (Z.abs z <= 2 ^ 53)%Z -> B2R (of_Z z) = IZR z /\ is_finite (of_Z z) = true.
Proof.
  intros H. destruct (f64_of_Z_correct z H) as [H1 H2]. unfold f64_of_Z in *. rewrite binary_normalize_equiv in H1, H2.
  rewrite rval_B2SF in H1. rewrite is_finite64_B2SF in H2. split; assumption.
Qed.
Lemma one_value : B2R one64 = 1 /\ is_finite one64 = true.
Proof. apply of_Z_value. cbn. lia. Qed.

(** A number between two finite ones is finite. *)
Lemma between (a b x : bf) : is_finite a = true -> is_finite b = true -> Bleb a x = true -> Bleb x b = true ->
  is_finite x = true /\ B2R a <= B2R x <= B2R b.
Proof.
  intros Fa Fb H1 H2. assert (Fx : is_finite x = true).
  { destruct x as [|[]| |]; try reflexivity.
    - destruct a as [[]|[]| |[] ? ? ?]; try discriminate Fa; discriminate H1.
    - destruct b as [[]|[]| |[] ? ? ?]; try discriminate Fb; discriminate H2.
    - destruct a as [[]|[]| |[] ? ? ?]; discriminate H1. }
  split; [exact Fx|]. split; apply Bleb_value; assumption.
Qed.
Lemma probability_value p : probability p <-> is_finite p = true /\ 0 <= B2R p <= 1.
Proof.
  destruct one_value as [O1 O2]. split.
  - intros [H1 H2]. destruct (between zero64 one64 p eq_refl O2 H1 H2) as (F & L & U). rewrite O1 in U. cbn in L. auto.
  - intros (F & L & U). split; apply Bleb_value; auto; rewrite ?O1; cbn; assumption.
Qed.

Lemma add_finite (a b : bf) z : (Z.abs z <= 2 ^ 53)%Z -> is_finite a = true -> is_finite b = true -> 0 <= B2R a -> 0 <= B2R b ->
  B2R a + B2R b <= IZR z ->
  is_finite (Bplus mode_NE a b) = true /\ B2R (Bplus mode_NE a b) <= IZR z /\ B2R a <= B2R (Bplus mode_NE a b) /\ B2R b <= B2R (Bplus mode_NE a b).
Proof.
  intros Hz Fa Fb Pa Pb Hs. pose proof (Bplus_correct prec64 emax64 _ _ mode_NE a b Fa Fb) as C. simpl round_mode in C.
  fold (rn (B2R a + B2R b)) in C. assert (U : rn (B2R a + B2R b) <= IZR z).
  { rewrite <- (rnd64_IZR z Hz). now apply rn_le. }
  assert (L : B2R a <= rn (B2R a + B2R b) /\ B2R b <= rn (B2R a + B2R b)).
  { rewrite <- (rn_B2R a) at 1. rewrite <- (rn_B2R b) at 2. split; apply rn_le; lra. }
  rewrite Rlt_bool_true in C.
  - destruct C as (C1 & C2 & _). rewrite C1. repeat split; try assumption; apply L.
  - rewrite Rabs_right by lra. eapply Rle_lt_trans; [exact U|]. eapply Rle_lt_trans; [apply Rle_abs|]. exact (IZR_lt_fmax64 z Hz).
Qed.

(** Sums of probabilities. *)
Lemma summed_value l t : summed l t -> (Z.of_nat (length l) <= 2 ^ 53)%Z -> Forall probability l ->
  is_finite t = true /\ 0 <= B2R t <= IZR (Z.of_nat (length l)) /\ forall x, In x l -> B2R x <= B2R t.
Proof.
  intros H. induction H as [x|l t H IH|l l' r t u H1 IH1 H2 IH2 Hin Hlen]; intros Hl Hp.
  - inversion_clear Hp as [|? ? P _]. apply probability_value in P. destruct P as (F & L). cbn [length]. change (IZR (Z.of_nat 1)) with 1.
    split; [exact F|]. split; [exact L|]. intros y [<-|[]]. lra.
  - destruct (IH Hl Hp) as (F & L & U). destruct (add_finite t zero64 (Z.of_nat (length l))) as (A1 & A2 & A3 & A4); try assumption; try reflexivity; try (cbn; lra); [lia|].
    split; [exact A1|]. split; [lra|]. intros y Hy. specialize (U y Hy). lra.
  - assert (P : Forall probability l /\ Forall probability r).
    { rewrite !Forall_forall in *. split; intros y Hy; apply Hp, Hin; auto. }
    destruct P as [Pl Pr]. assert (Sl : (Z.of_nat (length l) <= 2 ^ 53)%Z) by lia. assert (Sr : (Z.of_nat (length r) <= 2 ^ 53)%Z) by lia.
    destruct (IH1 Sl Pl) as (F1 & L1 & U1). destruct (IH2 Sr Pr) as (F2 & L2 & U2).
    destruct (add_finite t u (Z.of_nat (length l'))) as (A1 & A2 & A3 & A4); try assumption; try lra; [lia| |].
    { rewrite Hlen, Nat2Z.inj_add, plus_IZR. lra. }
    split; [exact A1|]. split; [lra|]. intros y Hy. apply Hin in Hy. destruct Hy as [Hy|Hy]; [specialize (U1 y Hy)|specialize (U2 y Hy)]; lra.
Qed.

Lemma div_value (x t : bf) : is_finite x = true -> is_finite t = true -> 0 <= B2R x <= 1 -> 1 <= B2R t ->
  is_finite (Bdiv mode_NE x t) = true /\ B2R (Bdiv mode_NE x t) = rn (B2R x / B2R t) /\ 0 <= rn (B2R x / B2R t) <= 1.
Proof.
  intros Fx Ft Hx Ht. assert (Q : 0 <= B2R x / B2R t <= 1).
  { split; [apply Rmult_le_pos; [lra|apply Rlt_le, Rinv_0_lt_compat; lra]|].
    apply (Rmult_le_reg_r (B2R t)); [lra|]. unfold Rdiv. rewrite Rmult_assoc, Rinv_l by lra. lra. }
  assert (Rg : 0 <= rn (B2R x / B2R t) <= 1).
  { assert (R1 : rn 1 = 1) by (exact (rnd64_IZR 1 ltac:(cbn; lia))). pose proof (rn_le _ _ (proj1 Q)) as Q1. pose proof (rn_le _ _ (proj2 Q)) as Q2.
    rewrite rn_0 in Q1. rewrite R1 in Q2. split; assumption. }
  assert (Nt : B2R t <> 0) by lra. pose proof (Bdiv_correct prec64 emax64 _ _ mode_NE x t Nt) as C. simpl round_mode in C.
  fold (rn (B2R x / B2R t)) in C. rewrite Rlt_bool_true in C.
  - destruct C as (C1 & C2 & _). rewrite C2. repeat split; try assumption; apply Rg.
  - rewrite Rabs_right by lra. eapply Rle_lt_trans; [apply Rg|]. eapply Rle_lt_trans; [apply Rle_abs|]. exact (IZR_lt_fmax64 1 ltac:(cbn; lia)).
Qed.

Section Soft.
  Variables e l : bf -> bf.
  Notation BN := (Bnum e l).

  Lemma max2_value (a b : bf) : is_finite a = true -> is_finite b = true ->
    let m := nmax2 (N := BN) a b in (m = a \/ m = b) /\ B2R a <= B2R m /\ B2R b <= B2R m.
  Proof.
    intros Fa Fb. unfold nmax2. cbn [nltb neqb Bnum]. rewrite Bltb_correct, Beqb_correct by assumption.
    destruct (Rlt_bool_spec (B2R a) (B2R b)); [cbv zeta; split; [auto|lra]|].
    destruct (Req_bool_spec (B2R b) (B2R b)); [cbv zeta; split; [auto|lra]|congruence].
  Qed.
  Lemma max_value (y : list bf) : y <> [] -> Forall (fun v => is_finite v = true) y ->
    let m := nmaxl (N := BN) y in In m y /\ forall v, In v y -> B2R v <= B2R m.
  Proof.
    destruct y as [|a r]; [congruence|]. intros _ H. inversion_clear H as [|? ? Fa Fr]. cbn [nmaxl]. cbv zeta.
    assert (K : forall (r : list bf) (a : bf), is_finite a = true -> Forall (fun v => is_finite v = true) r ->
      let m := fold_left (nmax2 (N := BN)) r a in (m = a \/ In m r) /\ B2R a <= B2R m /\ forall v, In v r -> B2R v <= B2R m).
    { clear. intros r. induction r as [|b r IH]; intros a Fa Fr; cbn [fold_left].
      - cbv zeta. split; [auto|]. split; [lra|]. intros v [].
      - inversion_clear Fr as [|? ? Fb Fr']. destruct (max2_value a b Fa Fb) as (M1 & M2 & M3). cbv zeta in M1, M2, M3.
        set (c := nmax2 (N := BN) a b) in *. assert (Fc : is_finite (c : bf) = true) by (destruct M1 as [-> | ->]; assumption).
        destruct (IH c Fc Fr') as (I1 & I2 & I3). cbv zeta in *. split; [|split].
        + destruct I1 as [I1|I1]; [|right; right; exact I1]. destruct M1 as [M1|M1]; [left; congruence|right; left; congruence].
        + eapply Rle_trans; [exact M2|exact I2].
        + intros v [<-|Hv]; [eapply Rle_trans; [exact M3|exact I2]|now apply I3]. }
    destruct (K r a Fa Fr) as (K1 & K2 & K3). cbv zeta in *. split.
    - destruct K1 as [K1|K1]; [left; symmetry; exact K1|right; exact K1].
    - intros v [<-|Hv]; [exact K2|now apply K3].
  Qed.

  Lemma sub_le (v m : bf) : is_finite v = true -> is_finite m = true -> B2R v <= B2R m -> Bleb (Bminus mode_NE v m) zero64 = true.
  Proof.
    intros Fv Fm H. assert (M : moved true m v) by (right; cbn; apply Bleb_value; assumption).
    apply sub_moved in M. assert (Nn : is_nan (Bminus mode_NE v m) = false).
    { pose proof (Bminus_correct prec64 emax64 _ _ mode_NE v m Fv Fm) as C. destruct (Rlt_bool _ _) in C.
      - destruct C as (_ & C & _). destruct (Bminus mode_NE v m); try reflexivity; discriminate C.
      - destruct C as [C _]. unfold binary_overflow in C. cbn in C. apply B2SF_inf in C. rewrite C. reflexivity. }
    destruct (Bminus mode_NE v m) as [s|[]| |[] ? ? ?]; try discriminate Nn; try discriminate M; reflexivity.
  Qed.

  Lemma sub_same (v m : bf) : is_finite v = true -> is_finite m = true -> B2R v = B2R m -> Beqb (Bminus mode_NE v m) zero64 = true.
  Proof.
    intros Fv Fm H. pose proof (Bminus_correct prec64 emax64 _ _ mode_NE v m Fv Fm) as C. simpl round_mode in C.
    fold (rn (B2R v - B2R m)) in C. rewrite H, Rminus_diag_eq, rn_0 in C by reflexivity. rewrite Rlt_bool_true in C.
    - destruct C as (C1 & C2 & _). rewrite Beqb_correct by (auto; reflexivity). rewrite C1. cbn. now rewrite Req_bool_true.
    - rewrite Rabs_R0. apply bpow_gt_0.
  Qed.

  Hypothesis He : fair_exp e.

  Section Row.
    Variable y : list bf.
    Hypothesis Hy : y <> [].
    Hypothesis Hk : (Z.of_nat (length y) <= 2 ^ 53)%Z.
    Hypothesis Hf : Forall (fun v => is_finite v = true) y.
    Let m : bf := nmaxl (N := BN) y.
    Let es : list bf := map (fun v => e (Bminus mode_NE v m)) y.

    Lemma m_finite : is_finite m = true.
    Proof. destruct (max_value y Hy Hf) as [M _]. rewrite Forall_forall in Hf. apply Hf, M. Qed.
    Lemma es_probability : Forall probability es.
    Proof.
      unfold es. apply Forall_map, Forall_forall. intros v Hv. apply He. apply sub_le; [|exact m_finite|apply max_value; assumption].
      rewrite Forall_forall in Hf. now apply Hf.
    Qed.
    Lemma es_one : In one64 es.
    Proof.
      unfold es. apply in_map_iff. exists m. destruct (max_value y Hy Hf) as [M _]. split; [|exact M].
      apply He. apply sub_same; auto using m_finite.
    Qed.
    Lemma sum_value t : summed es t -> is_finite t = true /\ 1 <= B2R t <= IZR (Z.of_nat (length y)).
    Proof.
      intros H. apply summed_value in H; [|unfold es; rewrite map_length; exact Hk|exact es_probability].
      destruct H as (F & L & U). specialize (U one64 es_one). rewrite (proj1 one_value) in U. unfold es in L. rewrite map_length in L.
      split; [exact F|]. lra.
    Qed.

    Lemma row_probability t : summed es t -> forall x, In x es -> probability (Bdiv mode_NE x t).
    Proof.
      intros H x Hx. destruct (sum_value t H) as (F & L). pose proof es_probability as P. rewrite Forall_forall in P.
      specialize (P x Hx). apply probability_value in P. destruct P as (Fx & Bx). apply probability_value.
      destruct (div_value x t Fx F Bx) as (D1 & D2 & D3); [lra|]. rewrite D2. auto.
    Qed.
    Lemma row_largest t : summed es t -> Bleb (Bdiv mode_NE one64 (of_Z (Z.of_nat (length y)))) (Bdiv mode_NE one64 t) = true.
    Proof.
      intros H. destruct (sum_value t H) as (F & L). destruct one_value as [O1 O2].
      destruct (of_Z_value (Z.of_nat (length y))) as [K1 K2]; [lia|].
      assert (B1 : 0 <= B2R one64 <= 1) by lra.
      destruct (div_value one64 t O2 F B1) as (D1 & D2 & _); [lra|]. destruct (div_value one64 _ O2 K2 B1) as (E1 & E2 & _); [lra|].
      apply Bleb_value; auto. rewrite D2, E2. apply rn_le. rewrite O1, K1. unfold Rdiv. rewrite !Rmult_1_l. apply Rinv_le_contravar; lra.
    Qed.
    Lemma row_monotone t a b : summed es t -> In a es -> In b es -> Bleb a b = true -> Bleb (Bdiv mode_NE a t) (Bdiv mode_NE b t) = true.
    Proof.
      intros H Ha Hb Hab. destruct (sum_value t H) as (F & L). pose proof es_probability as P. rewrite Forall_forall in P.
      pose proof (P a Ha) as Pa. pose proof (P b Hb) as Pb. apply probability_value in Pa, Pb. destruct Pa as (Fa & Ba). destruct Pb as (Fb & Bb).
      destruct (div_value a t Fa F Ba) as (D1 & D2 & _); [lra|]. destruct (div_value b t Fb F Bb) as (E1 & E2 & _); [lra|].
      apply Bleb_value; auto. rewrite D2, E2. apply rn_le. apply Bleb_value in Hab; auto. unfold Rdiv. apply Rmult_le_compat_r; [|exact Hab].
      apply Rlt_le, Rinv_0_lt_compat. lra.
    Qed.

    Lemma model_sum : summed es (nsum (N := BN) es).
    Proof.
      assert (K : forall l : list bf, l <> [] -> summed l (nsum (N := BN) l)).
      { induction l0 as [|a r IH]; [congruence|]. intros _. destruct r as [|b r].
        - change (summed [a] (Bplus mode_NE a zero64)). constructor. constructor.
        - change (summed (a :: b :: r) (Bplus mode_NE a (nsum (N := BN) (b :: r)))). apply (sum_two [a] _ (b :: r)).
          + constructor.
          + apply IH. congruence.
          + intros x. cbn. intuition.
          + reflexivity. }
      apply K. unfold es. destruct y; [congruence|discriminate].
    Qed.
  End Row.

  Lemma Bleb_total (x z : bf) : is_nan x = false -> is_nan z = false -> Bleb x z = true \/ Bleb z x = true.
  Proof. intros H1 H2. rewrite <- is_nan64_B2SF in H1, H2. exact (fleb_total (B2SF x) (B2SF z) H1 H2). Qed.

  (** Rounded differences keep the order. *)
  Lemma sub_mono (a b m : bf) : is_finite a = true -> is_finite b = true -> is_finite m = true -> B2R a <= B2R b -> B2R b <= B2R m ->
    Bleb (Bminus mode_NE a m) (Bminus mode_NE b m) = true.
  Proof.
    intros Fa Fb Fm Hab Hbm. pose proof (sub_le a m Fa Fm ltac:(lra)) as La. pose proof (sub_le b m Fb Fm Hbm) as Lb.
    pose proof (Bminus_correct prec64 emax64 _ _ mode_NE a m Fa Fm) as Ca. pose proof (Bminus_correct prec64 emax64 _ _ mode_NE b m Fb Fm) as Cb.
    simpl round_mode in Ca, Cb. fold (rn (B2R a - B2R m)) in Ca. fold (rn (B2R b - B2R m)) in Cb.
    assert (M : rn (B2R a - B2R m) <= rn (B2R b - B2R m)) by (apply rn_le; lra).
    assert (Mb : rn (B2R b - B2R m) <= 0) by (rewrite <- rn_0; apply rn_le; lra).
    assert (Nb : is_nan (Bminus mode_NE b m) = false) by (apply Bleb_not_nan in Lb; apply Lb).
    destruct (Rlt_bool_spec (Rabs (rn (B2R a - B2R m))) (bpow radix2 emax64)) as [A|A].
    - rewrite Rlt_bool_true in Cb.
      + destruct Ca as (C1 & C2 & _). destruct Cb as (D1 & D2 & _). apply Bleb_value; auto. rewrite C1, D1. exact M.
      + rewrite Rabs_left1 by exact Mb. rewrite Rabs_left1 in A by lra. lra.
    - destruct Ca as [C1 _]. unfold binary_overflow in C1. cbn in C1. apply B2SF_inf in C1.
      destruct (Bsign a); rewrite C1 in *; [now apply inf_bottom|discriminate La].
  Qed.

  Lemma softmax_probabilities (y : list bf) : y <> [] -> (Z.of_nat (length y) <= 2 ^ 53)%Z -> Forall (fun v => is_finite v = true) y ->
    let s : list bf := softmax (N := BN) y in
    length s = length y /\ Forall probability s /\
    (forall i, (i < length y)%nat -> (forall j, (j < length y)%nat -> Bleb (nth j y zero64) (nth i y zero64) = true) ->
       Bleb (Bdiv mode_NE one64 (of_Z (Z.of_nat (length y)))) (nth i s zero64) = true) /\
    (increasing e -> forall i j, (i < length y)%nat -> (j < length y)%nat -> Bleb (nth i y zero64) (nth j y zero64) = true ->
       Bleb (nth i s zero64) (nth j s zero64) = true).
  Proof.
    intros Hy Hk Hf. set (m := nmaxl (N := BN) y : bf). set (es := map (fun v => e (Bminus mode_NE v m)) y). set (t := nsum (N := BN) es : bf).
    change (let s := map (fun v => Bdiv mode_NE v t) es in
      length s = length y /\ Forall probability s /\
      (forall i, (i < length y)%nat -> (forall j, (j < length y)%nat -> Bleb (nth j y zero64) (nth i y zero64) = true) ->
         Bleb (Bdiv mode_NE one64 (of_Z (Z.of_nat (length y)))) (nth i s zero64) = true) /\
      (increasing e -> forall i j, (i < length y)%nat -> (j < length y)%nat -> Bleb (nth i y zero64) (nth j y zero64) = true ->
         Bleb (nth i s zero64) (nth j s zero64) = true)).
    cbv zeta. pose proof (model_sum y Hy Hk Hf) as Hs. fold m in Hs. fold es in Hs. fold t in Hs.
    assert (En : forall i, (i < length y)%nat -> nth i es zero64 = e (Bminus mode_NE (nth i y zero64) m)).
    { intros i Hi. unfold es. rewrite (nth_indep _ _ (e (Bminus mode_NE zero64 m))) by (rewrite map_length; exact Hi).
      exact (map_nth (fun v => e (Bminus mode_NE v m)) y zero64 i). }
    assert (Ls : length es = length y) by (unfold es; apply map_length).
    assert (Sn : forall i, (i < length y)%nat -> nth i (map (fun v => Bdiv mode_NE v t) es) zero64 = Bdiv mode_NE (nth i es zero64) t).
    { intros i Hi. rewrite (nth_indep _ _ (Bdiv mode_NE zero64 t)) by (rewrite map_length, Ls; exact Hi).
      exact (map_nth (fun v => Bdiv mode_NE v t) es zero64 i). }
    assert (Ie : forall i, (i < length y)%nat -> In (nth i es zero64) es) by (intros; apply nth_In; lia).
    destruct (max_value y Hy Hf) as [Mi Mm]. fold m in Mi, Mm. pose proof Hf as Hf'. rewrite Forall_forall in Hf'.
    assert (Fm : is_finite m = true) by now apply Hf'.
    assert (Fi : forall i, (i < length y)%nat -> is_finite (nth i y zero64) = true) by (intros; apply Hf', nth_In; assumption).
    split; [rewrite map_length; exact Ls|]. split; [|split].
    - apply Forall_map, Forall_forall. intros x Hx. exact (row_probability y Hy Hk Hf t Hs x Hx).
    - intros i Hi Hmax. rewrite Sn, En by exact Hi. assert (E : e (Bminus mode_NE (nth i y zero64) m) = one64).
      { apply He. apply sub_same; auto. apply Rle_antisym; [apply Mm, nth_In, Hi|].
        destruct (In_nth _ _ zero64 Mi) as (j & Hj & Ej). specialize (Hmax j Hj). rewrite Ej in Hmax. apply Bleb_value in Hmax; auto. }
      rewrite E. exact (row_largest y Hy Hk Hf t Hs).
    - intros Hi i j Li Lj Hij. rewrite !Sn by assumption. apply (row_monotone y Hy Hk Hf t); auto. rewrite !En by assumption. apply Hi.
      apply sub_mono; auto; [apply Bleb_value in Hij; auto|apply Mm, nth_In, Lj].
  Qed.

  (** sigmoid *)
  Hypothesis Hl : fair_ln l.

  Lemma opp_le (x : bf) : sgn false x = true -> is_nan x = false -> Bleb (Bopp x) zero64 = true.
  Proof. destruct x as [[]|[]| |[] ? ? ?]; try discriminate; reflexivity. Qed.
  Lemma le_sgn (x : bf) : Bleb zero64 x = true -> sgn false x = true.
  Proof. destruct x as [[]|[]| |[] ? ? ?]; try discriminate; reflexivity. Qed.
  Lemma probability_sgn p : probability p -> sgn false p = true /\ is_finite p = true.
  Proof. intros H. split; [apply le_sgn, H|]. now apply probability_value in H. Qed.
  Lemma log1p_probability (p : bf) : probability p -> probability (log1p (N := BN) p).
  Proof.
    intros H. apply probability_value in H. destruct H as (F & L). destruct one_value as [O1 O2].
    destruct (add_finite one64 p 2) as (A1 & A2 & A3 & A4); auto; try lra; [cbn; lia|].
    destruct (of_Z_value 2) as [T1 T2]; [cbn; lia|]. apply Hl; apply Bleb_value; auto. rewrite T1. exact A2.
  Qed.
  Lemma two_probability : probability (l (of_Z 2)).
  Proof. destruct (of_Z_value 2) as [T1 T2]; [cbn; lia|]. destruct one_value as [O1 O2]. apply Hl; apply Bleb_value; auto; lra. Qed.
  Lemma add_not_nan (a b : bf) : is_nan a = false -> is_finite b = true -> is_nan (Bplus mode_NE a b) = false.
  Proof.
    intros Na Fb. destruct (is_finite a) eqn:Fa.
    - pose proof (Bplus_correct prec64 emax64 _ _ mode_NE a b Fa Fb) as C. destruct (Rlt_bool _ _) in C.
      + destruct C as (_ & C & _). destruct (Bplus mode_NE a b); try reflexivity; discriminate C.
      + destruct C as [C _]. unfold binary_overflow in C. cbn in C. apply B2SF_inf in C. now rewrite C.
    - destruct a; try discriminate Fa; try discriminate Na. destruct b; try discriminate Fb; reflexivity.
  Qed.

  Lemma sigmoid_probability (x : bf) : is_nan x = false -> probability (sigmoid (N := BN) x).
  Proof.
    intros Hx. apply He. set (b := Bopp x). assert (Nb : is_nan b = false) by (unfold b; destruct x; try discriminate Hx; reflexivity).
    assert (K : sgn false (logaddexp (N := BN) zero64 b) = true /\ is_nan (logaddexp (N := BN) zero64 b) = false).
    { unfold logaddexp. cbn [neqb nadd nln nofZ Bnum nltb nleb nsub nexp nopp]. change (nzero (N := BN)) with zero64. fold (of_Z 2).
      assert (Fin : forall p : bf, probability p -> sgn false (Bplus mode_NE zero64 p) = true /\ is_nan (Bplus mode_NE zero64 p) = false).
      { intros p Hp. destruct (probability_sgn p Hp) as [S1 S2]. split; [apply add_sgn; auto|now apply add_not_nan]. }
      destruct (Beqb zero64 b) eqn:E; [apply Fin, two_probability|]. set (d := Bminus mode_NE zero64 b).
      assert (Nd : is_nan d = false) by (unfold d; destruct b as [[]|[]| |[] ? ? ?]; try discriminate Nb; reflexivity).
      destruct (Bltb zero64 d) eqn:E1.
      - apply Fin, log1p_probability, He. apply opp_le; destruct d as [[]|[]| |[] ? ? ?]; try discriminate Nd; try discriminate E1; reflexivity.
      - destruct (Bleb d zero64) eqn:E2.
        + pose proof (log1p_probability (e d) (proj1 He d E2)) as P. destruct (probability_sgn _ P) as [S1 S2].
          split; [|now apply add_not_nan]. apply add_sgn; [|exact S1].
          assert (S : sgn true d = true) by (destruct d as [[]|[]| |[] ? ? ?]; try discriminate Nd; try discriminate E2; reflexivity).
          unfold d in S. destruct b as [[]|[]| |[] ? ? ?]; try discriminate Nb; try reflexivity; discriminate S.
        + exfalso. destruct d as [[]|[]| |[] ? ? ?]; try discriminate Nd; try discriminate E1; discriminate E2. }
    apply opp_le; apply K.
  Qed.

  (** predict_proba *)
  Hypothesis Hg : large_exp e.

  Lemma expit_probability (v : bf) : is_nan v = false -> probability (expit (N := BN) v).
  Proof.
    intros Hv. set (p := e (Bopp v)). change (probability (Bdiv mode_NE one64 (Bplus mode_NE one64 p))). destruct one_value as [O1 O2].
    assert (Nv : is_nan (Bopp v) = false) by (destruct v; try discriminate Hv; reflexivity).
    assert (Hp : Bleb zero64 p = true).
    { destruct (Bleb_total (Bopp v) zero64 Nv eq_refl) as [E|E]; [exact (proj1 (proj1 He _ E))|].
      eapply Bleb_trans; [|exact (Hg _ E)]. apply Bleb_value; auto. rewrite O1. cbn. lra. }
    assert (Np : is_nan p = false) by (apply Bleb_not_nan in Hp; apply Hp).
    assert (Hs : Bleb one64 (Bplus mode_NE one64 p) = true).
    { destruct (add_moved false one64 p (le_sgn p Hp)) as [E|E]; [|exact E]. exfalso.
      assert (is_nan (Bplus mode_NE one64 p) = false); [|congruence]. destruct (is_finite p) eqn:F; [now apply add_not_nan|].
      destruct p as [| [] | |]; try discriminate F; try discriminate Np; try discriminate Hp.
      destruct one64 as [[]|[]| |]; try discriminate O2; reflexivity. }
    set (q := Bplus mode_NE one64 p) in *. clearbody q. destruct (is_finite q) eqn:F.
    - apply Bleb_value in Hs; auto. rewrite O1 in Hs. apply probability_value. destruct (div_value one64 q O2 F) as (D1 & D2 & D3); [lra|exact Hs|]. rewrite D2. auto.
    - destruct q as [| [] | |]; try discriminate F; [|..].
      + exfalso. destruct one64 as [[]|[]| |[] ? ? ?]; try discriminate O2; discriminate Hs.
      + assert (E : Bdiv mode_NE one64 (B754_infinity false) = zero64 \/ Bdiv mode_NE one64 (B754_infinity false) = B754_zero true).
        { destruct one64 as [[]|[]| |[] ? ? ?]; try discriminate O2; cbn; auto. }
        apply probability_value. destruct E as [-> | ->]; cbn; (split; [reflexivity|lra]).
      + exfalso. destruct one64 as [[]|[]| |[] ? ? ?]; discriminate Hs.
  Qed.

  Lemma complement (p : bf) : probability p -> probability (Bminus mode_NE one64 p).
  Proof.
    intros H. apply probability_value in H. destruct H as (F & L). destruct one_value as [O1 O2].
    pose proof (Bminus_correct prec64 emax64 _ _ mode_NE one64 p O2 F) as C. simpl round_mode in C. fold (rn (B2R one64 - B2R p)) in C. rewrite O1 in C.
    assert (Rg : 0 <= rn (1 - B2R p) <= 1).
    { assert (R1 : rn 1 = 1) by (exact (rnd64_IZR 1 ltac:(cbn; lia))). rewrite <- R1 at 3. rewrite <- rn_0 at 1. split; apply rn_le; lra. }
    rewrite Rlt_bool_true in C.
    - destruct C as (C1 & C2 & _). apply probability_value. rewrite C1. auto.
    - rewrite Rabs_right by lra. eapply Rle_lt_trans; [apply Rg|]. eapply Rle_lt_trans; [apply Rle_abs|]. exact (IZR_lt_fmax64 1 ltac:(cbn; lia)).
  Qed.

  Lemma proba_one (v : bf) k : (k <= 2)%nat -> is_nan v = false -> Forall probability (predict_proba (N := BN) false k (D1 (N := BN) v) : list bf).
  Proof.
    intros Hk Hv. unfold predict_proba. cbn [negb andb]. apply Nat.leb_le in Hk. rewrite Hk. pose proof (expit_probability v Hv) as P.
    constructor; [exact (complement _ P)|]. constructor; [exact P|constructor].
  Qed.
  Lemma proba_several multinomial k (row : list bf) : multinomial = true \/ (3 <= k)%nat -> row <> [] -> (Z.of_nat (length row) <= 2 ^ 53)%Z ->
    Forall (fun v => is_finite v = true) row -> Forall probability (predict_proba (N := BN) multinomial k (D2 (N := BN) row) : list bf).
  Proof.
    intros Hm Hr Hk Hf. assert (E : negb multinomial && Nat.leb k 2 = false).
    { destruct Hm as [-> |Hm]; [reflexivity|]. destruct (Nat.leb_spec k 2); [lia|]. apply andb_false_r. }
    unfold predict_proba. rewrite E. apply softmax_probabilities; assumption.
  Qed.
End Soft.

(** An infinite score. *)
Section Infinite.
  Variables e l : bf -> bf.
  Notation BN := (Bnum e l).
  Hypothesis He : forall x, is_nan x = true -> is_nan (e x) = true.

  Lemma nan_add (a b : bf) : is_nan a = true \/ is_nan b = true -> is_nan (Bplus mode_NE a b) = true.
  Proof. intros [H|H]; [destruct a; try discriminate H; destruct b; reflexivity|destruct b; try discriminate H; destruct a; reflexivity]. Qed.
  Lemma nan_sum (r : list bf) : (exists x, In x r /\ is_nan x = true) -> is_nan (nsum (N := BN) r : bf) = true.
  Proof.
    induction r as [|a r IH]; intros (x & Hx & Nx); [destruct Hx|]. change (is_nan (Bplus mode_NE a (nsum (N := BN) r)) = true). apply nan_add.
    destruct Hx as [<-|Hx]; [now left|right]. apply IH. eauto.
  Qed.
  Lemma max_infinite (y : list bf) : In (B754_infinity false) y -> (forall v, In v y -> is_nan v = false) -> (nmaxl (N := BN) y : bf) = B754_infinity false.
  Proof.
    destruct y as [|a r]; [intros []|]. intros H Hn. change (fold_left (nmax2 (N := BN)) r a = (B754_infinity false : bf)).
    assert (Stay : forall (r : list bf), (forall v, In v r -> is_nan v = false) -> fold_left (nmax2 (N := BN)) r (B754_infinity false : bf) = (B754_infinity false : bf)).
    { clear. induction r as [|b r IH]; intros Hn; [reflexivity|]. cbn [fold_left].
      assert (E : nmax2 (N := BN) (B754_infinity false : bf) b = (B754_infinity false : bf)).
      { unfold nmax2. cbn [nltb neqb Bnum]. specialize (Hn b (or_introl eq_refl)). assert (Q : Bltb (B754_infinity false) b = false) by (destruct b as [[]|[]| |[] ? ? ?]; try discriminate Hn; reflexivity).
        rewrite Q. assert (Q' : Beqb b b = true).
        { destruct b as [[]|[]| |[] ? ? ?]; try discriminate Hn; try reflexivity; rewrite Beqb_correct by reflexivity; now apply Req_bool_true. }
        now rewrite Q'. }
      rewrite E. apply IH. intros v Hv. apply Hn. now right. }
    assert (Na := Hn a (or_introl eq_refl)). assert (Hr : forall v, In v r -> is_nan v = false) by (intros; apply Hn; now right). clear Hn. revert a Na H Hr.
    induction r as [|b r IH]; intros a Na H Hr.
    - destruct H as [H|[]]. exact H.
    - cbn [fold_left]. pose proof (Hr b (or_introl eq_refl)) as Nb. assert (Hr' : forall v, In v r -> is_nan v = false) by (intros; apply Hr; now right).
      assert (K : is_nan (nmax2 (N := BN) a b : bf) = false) by (unfold nmax2; cbn [nltb neqb Bnum]; destruct (Bltb a b); [exact Nb|]; destruct (Beqb b b); assumption).
      destruct H as [H|[H|H]].
      + subst a. change (fold_left (nmax2 (N := BN)) (b :: r) (B754_infinity false : bf) = (B754_infinity false : bf)). apply Stay. exact Hr.
      + subst b. apply IH; [exact K| |exact Hr']. left. unfold nmax2. cbn [nltb neqb Bnum].
        destruct a as [[]|[]| |[] ? ? ?]; try discriminate Na; reflexivity.
      + apply IH; [exact K|now right|exact Hr'].
  Qed.

  Lemma softmax_nan (y : list bf) : In (B754_infinity false) y -> (forall v, In v y -> is_nan v = false) ->
    let s : list bf := softmax (N := BN) y in length s = length y /\ Forall (fun p => is_nan p = true) s.
  Proof.
    intros H Hn. set (m := nmaxl (N := BN) y : bf). set (es := map (fun v => e (Bminus mode_NE v m)) y). set (t := nsum (N := BN) es : bf).
    change (let s := map (fun v => Bdiv mode_NE v t) es in length s = length y /\ Forall (fun p => is_nan p = true) s). cbv zeta.
    split; [unfold es; now rewrite !map_length|]. apply Forall_map, Forall_forall. intros x _.
    assert (Nt : is_nan t = true).
    { apply nan_sum. exists (e (Bminus mode_NE (B754_infinity false) m)). split; [exact (in_map (fun v => e (Bminus mode_NE v m)) y _ H)|]. apply He.
      unfold m. rewrite max_infinite by assumption. reflexivity. }
    destruct t; try discriminate Nt. destruct x as [[]|[]| |[] ? ? ?]; reflexivity.
  Qed.
End Infinite.

(** Correctly rounded exponentials qualify. *)
Definition rounded_exp (e : bf -> bf) : Prop :=
  (forall x, is_finite x = true -> B2R x <= 0 -> is_finite (e x) = true /\ B2R (e x) = rn (exp (B2R x))) /\
  e (B754_infinity true) = zero64.
Lemma rounded_fair e : rounded_exp e -> fair_exp e.
Proof.
  intros [H1 H2]. assert (R1 : rn 1 = 1) by (exact (rnd64_IZR 1 ltac:(cbn; lia))). destruct one_value as [O1 O2]. split.
  - intros x Hx. destruct (is_finite x) eqn:F.
    + apply Bleb_value in Hx; auto. cbn in Hx. destruct (H1 x F Hx) as [E1 E2]. apply probability_value. split; [exact E1|]. rewrite E2.
      assert (U : exp (B2R x) <= 1) by (rewrite <- exp_0; destruct Hx as [Hx|Hx]; [left; now apply exp_increasing|rewrite Hx; lra]).
      apply rn_le in U. rewrite R1 in U. split; [|exact U]. rewrite <- rn_0. apply rn_le. left. apply exp_pos.
    + destruct x as [|[]| |]; try discriminate F; try discriminate Hx. rewrite H2. apply probability_value. cbn. split; [reflexivity|lra].
  - intros x Hx. assert (Z : is_finite x = true /\ B2R x = 0) by (destruct x as [[]|[]| |[] ? ? ?]; try discriminate Hx; cbn; auto).
    destruct Z as [F Z]. destruct (H1 x F) as [E1 E2]; [lra|]. rewrite Z, exp_0, R1 in E2. apply B2R_inj.
    + destruct (e x); try discriminate E1; cbn in E2; try lra; reflexivity.
    + reflexivity.
    + now rewrite O1.
Qed.
