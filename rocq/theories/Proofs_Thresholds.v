From Coq Require Import ZArith Reals List Bool Lia Lra Floats.SpecFloat.
From Flocq Require Import Core.
From Verif Require Import Prelude F64 F64Facts Model_Thresholds Spec_Thresholds.
Import ListNotations.
Local Open Scope Z_scope.

Lemma mapM_ok {A B} (f : A -> result B) l ys :
  mapM f l = Ok ys <-> Forall2 (fun x y => f x = Ok y) l ys.
Proof.
  revert ys. induction l as [|x l IH]; intros ys; simpl.
  - split; intro H.
    + inversion H. constructor.
    + inversion H. reflexivity.
  - split; intro H.
    + destruct (f x) as [y|e] eqn:E; simpl in H; [|discriminate].
      destruct (mapM f l) as [ys'|e] eqn:E'; simpl in H; [|discriminate].
      inversion H; subst. constructor; auto. now apply IH.
    + inversion H as [|? y ? ys' H1 H2]; subst. rewrite H1. simpl.
      apply IH in H2. now rewrite H2.
Qed.

Lemma bounds_check_iff n ts :
  forallb (fun t => t <=? n) ts && forallb (fun t => 1 <=? t) ts = true
  <-> Forall (in_bounds n) ts.
Proof.
  rewrite andb_true_iff, !forallb_forall, Forall_forall. unfold in_bounds.
  split.
  - intros [H1 H2] x Hx. specialize (H1 x Hx). specialize (H2 x Hx).
    apply Z.leb_le in H1. apply Z.leb_le in H2. lia.
  - intros H. split; intros x Hx; specialize (H x Hx); apply Z.leb_le; lia.
Qed.

Lemma stst_ok_iff ss n ts :
  stability_selection_to_threshold ss n = Ok ts <->
  raw_thresholds ss n = Ok ts /\ Forall (in_bounds n) ts.
Proof.
  unfold stability_selection_to_threshold.
  destruct (raw_thresholds ss n) as [l|e]; simpl.
  - destruct (forallb (fun t => t <=? n) l && forallb (fun t => 1 <=? t) l) eqn:E.
    + split.
      * intro H; inversion H; subst. split; auto. now apply bounds_check_iff.
      * intros [H _]. now inversion H.
    + split; [discriminate|]. intros [H1 H2]. inversion H1; subst.
      apply bounds_check_iff in H2. congruence.
  - split; [discriminate|]. intros [H _]. discriminate.
Qed.

(** Bounds hold for every accepted value, for every [n]. *)
Lemma thresholds_bounds ss n ts :
  stability_selection_to_threshold ss n = Ok ts -> Forall (in_bounds n) ts.
Proof. intro H. now apply stst_ok_iff in H. Qed.

Section Float.
  Variable n : Z.
  Hypothesis Hn : 1 <= n <= 2 ^ 53.

  Lemma n_facts : rval (f64_of_Z n) = IZR n /\ is_finite64 (f64_of_Z n) = true.
  Proof. apply f64_of_Z_correct. lia. Qed.

  Lemma n_finite_strict : exists m e, f64_of_Z n = S754_finite false m e.
  Proof.
    destruct n_facts as [Hr Hf].
    destruct (f64_of_Z n) as [s|s| |s m e]; try discriminate Hf.
    - exfalso. unfold rval in Hr. simpl in Hr. apply eq_IZR in Hr. lia.
    - destruct s; [|now eauto]. exfalso.
      unfold rval in Hr. simpl in Hr.
      assert (H : (F2R (Float radix2 (Z.neg m) e) < 0)%R) by (apply F2R_lt_0; simpl; lia).
      rewrite Hr in H. assert (H' : (1 <= IZR n)%R) by (apply IZR_le; lia). lra.
  Qed.

  Lemma inf_nan_mul x : is_finite64 x = false -> is_finite64 (fmul x (f64_of_Z n)) = false.
  Proof.
    intro H. destruct n_finite_strict as (m & e & E). rewrite E.
    destruct x; simpl in *; congruence.
  Qed.

  Lemma prod_cases x : valid64 x = true -> is_finite64 x = true ->
    let p := fmul x (f64_of_Z n) in
    let t := Ztrunc (rnd64 (rval x * IZR n)) in
    (is_finite64 p = true /\ ftrunc p = Some t) \/
    (exists s, p = S754_infinity s) /\ ~ in_bounds n t.
  Proof.
    intros Vx Fx p t. destruct n_facts as [Rn Fn].
    destruct (Rlt_or_le (Rabs (rnd64 (rval x * IZR n))) fmax64) as [Hlt|Hle].
    - left. subst p. rewrite <- Rn in Hlt.
      destruct (fmul_correct x (f64_of_Z n) Vx (f64_of_Z_valid n) Fx Fn Hlt) as [H1 H2].
      split; [exact H2|]. rewrite ftrunc_correct by exact H2.
      subst t. now rewrite H1, Rn.
    - right. split.
      + subst p. rewrite <- Rn in Hle.
        now apply (fmul_overflow x (f64_of_Z n) Vx (f64_of_Z_valid n)).
      + subst t. unfold in_bounds. intros [H1 H2].
        assert (Hbig : (IZR (2 ^ 53 + 1) <= fmax64)%R).
        { unfold fmax64, emax64. apply Rle_trans with (bpow radix2 54).
          - change (bpow radix2 54) with (IZR (2 ^ 54)). apply IZR_le. lia.
          - apply bpow_le. lia. }
        set (r := rnd64 (rval x * IZR n)) in *.
        destruct (Rle_or_lt 0 r) as [Hr|Hr].
        * rewrite Rabs_pos_eq in Hle by exact Hr.
          rewrite Ztrunc_floor in H2 by exact Hr.
          assert (2 ^ 53 + 1 <= Zfloor r) by (apply Zfloor_lub; lra). lia.
        * rewrite Ztrunc_ceil in H1 by lra.
          assert (Zceil r <= 0) by (apply Zceil_glb; lra). lia.
  Qed.

  Lemma in_bounds_int64 t : in_bounds n t -> in_int64 t = true.
  Proof.
    unfold in_bounds, in_int64, int64_min, int64_max. intros H.
    apply andb_true_iff; split; apply Z.leb_le; lia.
  Qed.

  (** Scalar floats. *)
  Lemma py_int_float x t : valid64 x = true -> in_bounds n t ->
    (py_int (fmul x (f64_of_Z n)) = Ok t <-> proportion n x t).
  Proof.
    intros Vx Ht. unfold proportion.
    destruct (is_finite64 x) eqn:Fx.
    - destruct (prod_cases x Vx Fx) as [[F T]|[[s E] NB]].
      + destruct (fmul x (f64_of_Z n)) as [s|s| |s m e] eqn:Ep; try discriminate F;
          unfold py_int; rewrite T; (split; [intro H; inversion H; subst; tauto|
            intros [_ ->]; reflexivity]).
      + rewrite E. simpl. split; [discriminate|]. intros [_ ->]. contradiction.
    - pose proof (inf_nan_mul x Fx) as F.
      destruct (fmul x (f64_of_Z n)) eqn:Ep; try discriminate F; simpl;
        (split; [discriminate | intros [? _]; discriminate]).
  Qed.

  (** Array elements. *)
  Lemma astype_float x t : valid64 x = true -> in_bounds n t ->
    (astype_int_of_f64 (fmul (f64_of_Z n) x) = t <-> proportion n x t).
  Proof.
    intros Vx Ht. rewrite fmul_comm. unfold proportion, astype_int_of_f64.
    assert (Hmin : int64_min <> t) by (unfold int64_min, in_bounds in *; lia).
    destruct (is_finite64 x) eqn:Fx.
    - destruct (prod_cases x Vx Fx) as [[F T]|[[s E] NB]].
      + rewrite T. set (u := Ztrunc _).
        destruct (in_int64 u) eqn:Iu.
        * split; [intros <-; tauto| intros [_ ->]; reflexivity].
        * split; [contradiction|]. intros [_ ->]. apply in_bounds_int64 in Ht.
          congruence.
      + rewrite E. simpl. split; [contradiction|]. intros [_ ->]. contradiction.
    - rewrite (ftrunc_not_finite _ (inf_nan_mul x Fx)).
      split; [contradiction|]. intros [? _]. discriminate.
  Qed.

  Lemma float_list_ok l ts : Forall (fun x => valid64 x = true) l ->
    (map (fun x => astype_int_of_f64 (fmul (f64_of_Z n) x)) l = ts /\ Forall (in_bounds n) ts
     <-> Forall2 (fun x t => proportion n x t /\ in_bounds n t) l ts).
  Proof.
    intro Hl. revert ts. induction Hl as [|x l Vx Hl IH]; intro ts; simpl.
    - split; [intros [<- _]; constructor | intro H; inversion H; auto].
    - split.
      + intros [<- H]. inversion H; subst. constructor.
        * split; auto. now apply astype_float.
        * apply IH. now split.
      + intro H. inversion H as [|? t ? ts' [H1 H2] H3]; subst.
        apply IH in H3. destruct H3 as [H3 H4]. split.
        * f_equal; auto. now apply astype_float.
        * now constructor.
  Qed.

  Lemma floats_of_map xs : floats_of (map PyFloat xs) = xs.
  Proof. induction xs; simpl; congruence. Qed.

  Lemma wf_map_float xs : Forall wf_value (map PyFloat xs) ->
    Forall (fun x => valid64 x = true) xs.
  Proof.
    induction xs as [|a xs IH]; simpl; intro H; constructor; inversion H; subst; auto.
    now inversion H2.
  Qed.

  Lemma all_float_iff l :
    forallb isinstance_float l = true -> l = map PyFloat (floats_of l).
  Proof.
    induction l as [|v l IH]; simpl; auto. intro H.
    apply andb_true_iff in H. destruct H as [H1 H2].
    destruct v; try discriminate. simpl. f_equal. auto.
  Qed.

  Lemma int_list_ok l ts : forallb isinstance_int l = true ->
    (mapM astype_int_of_Z (ints_of l) = Ok ts /\ Forall (in_bounds n) ts
     <-> Forall2 (fun v t => (v = PyInt t \/ (v = PyBool true /\ t = 1))
                             /\ in_bounds n t) l ts).
  Proof.
    intro Hl. rewrite mapM_ok. revert ts.
    induction l as [|v l IH]; intro ts; simpl in *.
    - split; [intros [H _]; inversion H; constructor | intro H; inversion H; split; constructor].
    - apply andb_true_iff in Hl. destruct Hl as [Hv Hl]. specialize (IH Hl).
      assert (Hhd : exists z, (match v with PyInt z => [z] | PyBool b => [int_of_bool b] | _ => [] end) = [z]
                  /\ (forall t, in_bounds n t -> (z = t <-> (v = PyInt t \/ (v = PyBool true /\ t = 1))))).
      { destruct v; try discriminate; eexists; (split; [reflexivity|]); intros t Ht; simpl.
        - split; [intros ->; auto | intros [H|[H _]]; [now inversion H|discriminate]].
        - split.
          + intros <-. right. destruct b; auto. unfold in_bounds in Ht. simpl in Ht. lia.
          + intros [H|[H ->]]; [discriminate|]. inversion H. reflexivity. }
      destruct Hhd as (z & Ez & Hz). rewrite Ez. simpl.
      split.
      + intros [H B]. inversion H as [|? t ? ts' H1 H2]; subst. inversion B; subst.
        unfold astype_int_of_Z in H1.
        destruct (in_int64 z); [|discriminate]. inversion H1; subst t.
        constructor; [split; [now apply Hz|assumption] | apply IH; now split].
      + intro H. inversion H as [|? t ? ts' [H1 H2] H3]; subst.
        apply IH in H3. destruct H3 as [H3 H4]. split; constructor; auto.
        apply (Hz t H2) in H1. subst z. unfold astype_int_of_Z.
        now rewrite in_bounds_int64.
  Qed.

  Theorem thresholds_iff ss ts : wf_value ss ->
    (stability_selection_to_threshold ss n = Ok ts <-> stands_for n ss ts).
  Proof.
    intro Wf. rewrite stst_ok_iff. destruct Wf as [x Vx|z|b|l Wl|l Vl|l| |]; simpl.
    - split.
      + intros [H B]. destruct (py_int (fmul x (f64_of_Z n))) as [z|e] eqn:E; simpl in H; [|discriminate].
        destruct (astype_int_of_Z z) as [t|e] eqn:E'; simpl in H; [|discriminate].
        inversion H; subst. inversion B; subst.
        unfold astype_int_of_Z in E'. destruct (in_int64 z); inversion E'; subst.
        constructor; auto. now apply py_int_float.
      + intro H. inversion H as [x' t P B| | | | | |]; subst.
        apply py_int_float in P; auto. rewrite P. simpl.
        unfold astype_int_of_Z. rewrite in_bounds_int64 by exact B. simpl.
        split; auto.
    - split.
      + intros [H B]. unfold astype_int_of_Z in H. destruct (in_int64 z); simpl in H; inversion H; subst.
        inversion B; subst. now constructor.
      + intro H. inversion H as [|z' B| | | | |]; subst. unfold astype_int_of_Z.
        rewrite in_bounds_int64 by exact B. simpl. auto.
    - split.
      + intros [H B]. unfold astype_int_of_Z in H.
        destruct b; simpl in H; inversion H; subst; inversion B; subst.
        * now constructor.
        * exfalso. unfold in_bounds in *. lia.
      + intro H. inversion H as [| |B| | | |]; subst. unfold astype_int_of_Z. simpl.
        split; auto.
    - destruct (forallb isinstance_float l) eqn:Ef.
      + assert (Ex : exists xs, l = map PyFloat xs)
          by (eexists; apply all_float_iff; exact Ef).
        destruct Ex as [xs ->]. rewrite floats_of_map. clear Ef.
        pose proof (wf_map_float xs Wl) as Vxs.
        split.
        * intros [H B]. inversion H as [E]. apply SfListFloat.
          apply float_list_ok; auto. split; auto. now rewrite E.
        * intro H. inversion H as [| | |xs' ts' F E|vs ts' F E| |].
          -- assert (Ex' : xs' = xs).
             { rewrite <- (floats_of_map xs'), <- (floats_of_map xs). congruence. }
             subst xs' ts'. apply float_list_ok in F; auto. destruct F as [F1 F2].
             split; auto. now f_equal.
          -- (* integers: only possible for the empty list *)
             subst vs ts'. destruct xs as [|a xs].
             ++ simpl in F. inversion F. simpl. split; auto.
             ++ simpl in F. inversion F as [|? ? ? ? [C _]]; subst.
                destruct C as [C|[C _]]; discriminate.
      + destruct (forallb isinstance_int l) eqn:Ei.
        * rewrite int_list_ok by exact Ei. split.
          -- intro F. now apply SfListInt.
          -- intro H. inversion H as [| | |xs' ts' F E|vs ts' F E| |]; subst; auto.
             exfalso. clear - Ef.
             assert (G : forallb isinstance_float (map PyFloat xs') = true)
               by (induction xs'; simpl; auto).
             congruence.
        * split; [intros [H _]; discriminate|].
          intro H. inversion H as [| | |xs' ts' F E|vs ts' F E| |]; subst; exfalso.
          -- assert (G : forallb isinstance_float (map PyFloat xs') = true)
               by (clear; induction xs'; simpl; auto).
             congruence.
          -- assert (G : forallb isinstance_int l = true).
             { clear - F. induction F as [|v t l ts [H1 _] H2 IH]; simpl; auto.
               rewrite IH. destruct H1 as [->|[-> _]]; reflexivity. }
             congruence.
    - split.
      + intros [H B]. inversion H as [E]. apply SfNdFloat. apply float_list_ok; auto.
        split; auto. now rewrite E.
      + intro H. inversion H as [| | | | |xs' ts' F|]; subst. apply float_list_ok in F; auto.
        destruct F as [F1 F2]. split; auto. now f_equal.
    - split.
      + intros [H B]. inversion H; subst. now constructor.
      + intro H. inversion H; subst. auto.
    - split; [intros [H _]; discriminate | intro H; inversion H].
    - split; [intros [H _]; discriminate | intro H; inversion H].
  Qed.

  Theorem cur_threshold_iff ss t : wf_value ss ->
    (cur_stability_selection_to_threshold ss n = Ok t <-> stands_for_scalar n ss t).
  Proof.
    intro Wf. unfold cur_stability_selection_to_threshold.
    assert (Chk : forall r u, (let* t := r in
        if (t <=? n) && (1 <=? t) then Ok t else Raise ValueError) = Ok u
        <-> r = Ok u /\ in_bounds n u).
    { intros [a|e] u; simpl; [|split; [discriminate|intros [? _]; discriminate]].
      destruct ((a <=? n) && (1 <=? a)) eqn:E.
      - apply andb_true_iff in E. destruct E as [E1 E2].
        apply Z.leb_le in E1. apply Z.leb_le in E2.
        split; [intro H; inversion H; subst; split; auto; split; lia
               | intros [H _]; exact H].
      - split; [discriminate|]. intros [H [B1 B2]]. inversion H; subst.
        rewrite (proj2 (Z.leb_le _ _) B2), (proj2 (Z.leb_le _ _) B1) in E. discriminate. }
    rewrite Chk. destruct Wf as [x Vx|z|b|l Wl|l Vl|l| |].
    - split.
      + intros [H B]. constructor; auto. now apply py_int_float.
      + intro H; inversion H; subst. split; auto. now apply py_int_float.
    - split; [intros [H B]; inversion H; subst; now constructor
             | intro H; inversion H; subst; auto].
    - split.
      + intros [H B]. destruct b; inversion H; subst; [now constructor|].
        exfalso; unfold in_bounds in B; simpl in B; lia.
      + intro H; inversion H; subst; auto.
    - split; [intros [H _]; discriminate | intro H; inversion H].
    - split; [intros [H _]; discriminate | intro H; inversion H].
    - split; [intros [H _]; discriminate | intro H; inversion H].
    - split; [intros [H _]; discriminate | intro H; inversion H].
    - split; [intros [H _]; discriminate | intro H; inversion H].
  Qed.

  (** A proportion of at most one never exceeds [n]. *)
  Lemma unit_float_upper x : (0 <= rval x <= 1)%R ->
    (0 <= Ztrunc (rnd64 (rval x * IZR n)) <= n)%Z.
  Proof.
    intros [H0 H1].
    assert (Hn1 : (0 <= IZR n)%R) by (apply IZR_le; lia).
    assert (Lo : (0 <= rnd64 (rval x * IZR n))%R).
    { rewrite <- rnd64_0. apply rnd64_le. now apply Rmult_le_pos. }
    assert (Up : (rnd64 (rval x * IZR n) <= IZR n)%R).
    { rewrite <- (rnd64_IZR n) at 2 by lia. apply rnd64_le.
      rewrite <- (Rmult_1_l (IZR n)) at 2. now apply Rmult_le_compat_r. }
    rewrite Ztrunc_floor by exact Lo. split.
    - apply Zfloor_lub. exact Lo.
    - apply Zfloor_le in Up. now rewrite Zfloor_IZR in Up.
  Qed.

  Theorem unit_float_accepted x : valid64 x = true -> is_finite64 x = true ->
    (0 <= rval x <= 1)%R ->
    ((1 <= rnd64 (rval x * IZR n))%R <->
     exists t, stability_selection_to_threshold (PyFloat x) n = Ok [t]).
  Proof.
    intros Vx Fx Hx. pose proof (unit_float_upper x Hx) as Up. split.
    - intro H. eexists. apply thresholds_iff; [now constructor|].
      constructor; [split; [exact Fx|reflexivity]|]. split; [|tauto].
      rewrite Ztrunc_floor by lra. apply Zfloor_lub. exact H.
    - intros [t H]. apply thresholds_iff in H; [|now constructor].
      inversion H as [x' t' [_ E] [B _]| | | | | |]; subst.
      destruct (Rle_or_lt 1 (rnd64 (rval x * IZR n))) as [?|L]; auto. exfalso.
      assert (Lo : (0 <= rnd64 (rval x * IZR n))%R).
      { rewrite <- rnd64_0. apply rnd64_le. apply Rmult_le_pos; [tauto|]. apply IZR_le. lia. }
      rewrite Ztrunc_floor in B by exact Lo.
      apply IZR_le in B. pose proof (Zfloor_lb (rnd64 (rval x * IZR n))). simpl in B. lra.
  Qed.

  Theorem float_monotone x y tx ty :
    valid64 x = true -> valid64 y = true -> (rval x <= rval y)%R ->
    stability_selection_to_threshold (PyFloat x) n = Ok [tx] ->
    stability_selection_to_threshold (PyFloat y) n = Ok [ty] ->
    tx <= ty.
  Proof.
    intros Vx Vy Hle Hx Hy.
    apply thresholds_iff in Hx; [|now constructor].
    apply thresholds_iff in Hy; [|now constructor].
    inversion Hx as [? ? [_ Ex] _| | | | | |]; subst.
    inversion Hy as [? ? [_ Ey] _| | | | | |]; subst.
    apply Ztrunc_le. apply rnd64_le. apply Rmult_le_compat_r; auto.
    apply IZR_le. lia.
  Qed.

  Theorem one_is_all : stability_selection_to_threshold (PyFloat fone) n = Ok [n].
  Proof.
    assert (H1 : rval fone = 1%R /\ is_finite64 fone = true) by (apply f64_of_Z_correct; lia).
    destruct H1 as [R1 F1].
    apply thresholds_iff; [constructor; reflexivity|].
    assert (E : Ztrunc (rnd64 (rval fone * IZR n)) = n).
    { rewrite R1, Rmult_1_l, rnd64_IZR by lia. apply Ztrunc_IZR. }
    constructor; [split; [exact F1|now rewrite E]|]. split; lia.
  Qed.

  Theorem cur_one_is_all : cur_stability_selection_to_threshold (PyFloat fone) n = Ok n.
  Proof.
    pose proof one_is_all as H.
    apply cur_threshold_iff; [constructor; reflexivity|].
    apply thresholds_iff in H; [|constructor; reflexivity].
    inversion H; subst. now constructor.
  Qed.
End Float.

(** C03: the nearest double to 29/100 gives 28 of 100 bootstraps. *)
Lemma fdiv_nearest a b : Z.abs a <= 2 ^ 53 -> 1 <= b <= 2 ^ 53 ->
  Z.abs a <= b ->
  rval (fdiv (f64_of_Z a) (f64_of_Z b)) = rnd64 (IZR a / IZR b).
Proof.
  intros Ha Hb Hab.
  destruct (f64_of_Z_correct a Ha) as [Ra Fa].
  destruct (f64_of_Z_correct b) as [Rb Fb]; [lia|].
  pose proof (f64_of_Z_valid a) as Va. pose proof (f64_of_Z_valid b) as Vb.
  rewrite <- Ra, <- Rb in *.
  assert (NZ : rval (f64_of_Z b) <> 0%R) by (rewrite Rb; apply IZR_neq; lia).
  assert (Bnd : (Rabs (rval (f64_of_Z a) / rval (f64_of_Z b)) <= 1)%R).
  { rewrite Ra, Rb. unfold Rdiv. rewrite Rabs_mult, Rabs_inv.
    assert (0 < IZR b)%R by (apply IZR_lt; lia).
    rewrite (Rabs_pos_eq (IZR b)) by lra.
    apply Rmult_le_reg_r with (IZR b); auto. rewrite Rmult_assoc, Rinv_l by lra.
    rewrite Rmult_1_r, Rmult_1_l, <- abs_IZR. apply IZR_le. lia. }
  revert Va Vb Ra Rb Fa Fb NZ Bnd.
  generalize (f64_of_Z a) (f64_of_Z b). intros x y Va Vb _ _ Fa Fb NZ Bnd.
  lift64 x Va. lift64 y Vb.
  rewrite fdiv_B2SF, !rval_B2SF, !is_finite64_B2SF in *.
  generalize (BinarySingleNaN.Bdiv_correct prec64 emax64 _ _ BinarySingleNaN.mode_NE b0 b1 NZ).
  simpl BinarySingleNaN.round_mode. fold (rnd64 (BinarySingleNaN.B2R b0 / BinarySingleNaN.B2R b1)).
  rewrite Rlt_bool_true. { intros (H & _). exact H. }
  assert (H1 : (Rabs (rnd64 (BinarySingleNaN.B2R b0 / BinarySingleNaN.B2R b1)) <= 1)%R).
  { apply Rabs_le_inv in Bnd. apply Rabs_le. split.
    - assert (E : rnd64 (-1) = (-1)%R) by (apply (rnd64_IZR (-1)); lia).
      destruct Bnd as [B1 _]. apply rnd64_le in B1.
      replace (- (1))%R with (-1)%R in * by ring. now rewrite E in B1.
    - assert (E : rnd64 1 = 1%R) by (apply (rnd64_IZR 1); lia).
      destruct Bnd as [_ B2]. apply rnd64_le in B2. now rewrite E in B2. }
  apply Rle_lt_trans with (1 := H1).
  change 1%R with (bpow radix2 0). apply bpow_lt. reflexivity.
Qed.
Arguments fdiv_nearest : clear implicits.

Theorem proportion_rounding : exists (k n : Z) (x : f64),
  1 <= k <= n /\ valid64 x = true /\ rval x = rnd64 (IZR k / IZR n) /\
  stability_selection_to_threshold (PyFloat x) n = Ok [k - 1].
Proof.
  exists 29, 100, (fdiv (f64_of_Z 29) (f64_of_Z 100)).
  split; [lia|]. split; [reflexivity|]. split; [|reflexivity].
  apply fdiv_nearest; lia.
Qed.

Theorem proportion_rejected : exists (n : Z) (x : f64),
  1 <= n /\ valid64 x = true /\ rval x = rnd64 (1 / IZR n) /\
  stability_selection_to_threshold (PyFloat x) n = Raise ValueError.
Proof.
  exists 49, (fdiv (f64_of_Z 1) (f64_of_Z 49)).
  split; [lia|]. split; [reflexivity|]. split; [|reflexivity].
  apply (fdiv_nearest 1 49); lia.
Qed.
