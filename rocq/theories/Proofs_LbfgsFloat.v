(** The optimizer in binary64 arithmetic: accepted steps do not increase the value. *)
From Coq Require Import String ZArith Reals List Bool Arith Lia Lra Floats.SpecFloat.
From Flocq Require Import Core IEEE754.BinarySingleNaN.
From Verif Require Import Prelude F64 F64Facts Num Num64 Proofs_Num64 Model_Lbfgs Spec_Lbfgs Spec_LbfgsFloat
  Proofs_Lbfgs Proofs_LbfgsTrace Proofs_LbfgsVec Proofs_Poisson.
Import ListNotations.

(** ** Lengths and entries, for every number type *)
Lemma len_map2 {A B C} (h : A -> B -> C) k : forall a b, length a = k -> length b = k -> length (map2 h a b) = k.
Proof. induction k as [|k IH]; intros [|x a] [|y b] H1 H2; try discriminate; [reflexivity|]. cbn in *. f_equal. apply IH; lia. Qed.
Lemma len_mapi_from {A B} (h : nat -> A -> B) l : forall k, length (mapi_from k h l) = length l.
Proof. induction l as [|a l IH]; intros k; cbn; [reflexivity|]. now rewrite IH. Qed.
Lemma len_mapi {A B C} (h : nat -> A * B -> C) n a b : length a = n -> length b = n -> length (mapi h (combine a b)) = n.
Proof. intros H1 H2. unfold mapi. rewrite len_mapi_from, combine_length. lia. Qed.

Section Lengths.
  Context {N : NumOps}.
  Variable n : nat.
  Definition sized (it : correction N) : Prop := length (c_s it) = n /\ length (c_y it) = n.
  Lemma len_vecadd (y x : list N) c : length y = n -> length x = n -> length (vecadd y x c) = n.
  Proof. intros. now apply len_map2. Qed.
  Lemma len_vecdiff (y x : list N) : length y = n -> length x = n -> length (vecdiff y x) = n.
  Proof. intros. now apply len_map2. Qed.
  Lemma len_vecscale (y : list N) c : length y = n -> length (vecscale y c) = n.
  Proof. intros. unfold vecscale. now rewrite map_length. Qed.
  Lemma len_vecncpy (y : list N) : length y = n -> length (vecncpy y) = n.
  Proof. intros. unfold vecncpy. now rewrite map_length. Qed.

  Lemma first_loop_sized m : (0 < m)%nat -> forall bound j (lm : list (correction N)) d,
    length lm = m -> Forall sized lm -> length d = n ->
    let q := first_loop m bound j lm d in
    length (snd (fst q)) = m /\ Forall sized (snd (fst q)) /\ length (snd q) = n /\ ((j < m)%nat -> (fst (fst q) < m)%nat).
  Proof.
    intros Hm. induction bound as [|bound IH]; intros j lm d H1 H2 H3; cbn [first_loop]; [auto|]. cbv zeta in *.
    set (j' := Nat.modulo (j + m - 1) m). assert (Hj : (j' < m)%nat) by (apply Nat.mod_upper_bound; lia).
    set (it := nth j' lm (blank 0)).
    assert (Hit : sized it) by (apply (nth_Forall sized); [exact H2|lia]).
    set (a := ndiv (vecdot (c_s it) d) (c_ys it)).
    destruct (IH j' (lset j' (mkCorr a (c_s it) (c_y it) (c_ys it)) lm) (vecadd d (c_y it) (nopp a))) as (K1 & K2 & K3 & K4).
    - now rewrite Proofs_Poisson.length_lset.
    - apply Forall_lset; [exact H2|exact Hit].
    - apply len_vecadd; [exact H3|apply Hit].
    - auto.
  Qed.
  Lemma second_loop_sized m : (0 < m)%nat -> forall bound j (lm : list (correction N)) d,
    length lm = m -> Forall sized lm -> (j < m)%nat -> length d = n -> length (second_loop m bound j lm d) = n.
  Proof.
    intros Hm. induction bound as [|bound IH]; intros j lm d H1 H2 Hj H3; cbn [second_loop]; [auto|]. cbv zeta.
    set (it := nth j lm (blank 0)).
    assert (Hit : sized it) by (apply (nth_Forall sized); [exact H2|lia]).
    apply IH; auto; [apply Nat.mod_upper_bound; lia|]. apply len_vecadd; [exact H3|apply Hit].
  Qed.
End Lengths.

(** The best step of the interval is the one before or the trial step. *)
Section Interval.
  Context {N : NumOps} {St : Type}.
  Lemma update_best (iv : interval N) ft dt tmin tmax :
    let j := fst (update_trial_interval iv ft dt tmin tmax) in i_x j = i_x iv \/ i_x j = i_t iv.
  Proof.
    destruct iv as [x fx dx y fy dy t br]. unfold update_trial_interval. cbv zeta.
    match goal with |- context [if ?c then (_, LBFGSERR_OUTOFINTERVAL) else _] => destruct c end; [left; reflexivity|].
    match goal with |- context [if ?c then (_, LBFGSERR_INCREASEGRADIENT) else _] => destruct c end; [left; reflexivity|].
    match goal with |- context [if ?c then (_, LBFGSERR_INCORRECT_TMINMAX) else _] => destruct c end; [left; reflexivity|].
    match goal with |- context [match ?t with (_, _) => _ end] => destruct t as [[newt bound] br'] end.
    destruct (nltb fx ft); [left; reflexivity|]. destruct (fsigndiff dt dx); right; reflexivity.
  Qed.
  Lemma mt_next_best (P : params N) finit dginit dgtest (v : mt_vars N St) stp (pt : point N St) dg :
    let j := mt_iv (mt_next P finit dginit dgtest v stp pt dg) in i_x j = i_x (mt_iv v) \/ i_x j = stp.
  Proof.
    unfold mt_next. cbv zeta.
    match goal with |- context [if i_brackt (fst ?r) then _ else _] => set (u := r) end.
    assert (K : i_x (fst u) = i_x (mt_iv v) \/ i_x (fst u) = stp).
    { unfold u. match goal with |- context [if ?c then (_, _) else _] => destruct c end.
      - cbn [fst i_x]. match goal with |- context [update_trial_interval ?iv ?a ?b ?c ?d] => exact (update_best iv a b c d) end.
      - match goal with |- context [update_trial_interval ?iv ?a ?b ?c ?d] => exact (update_best iv a b c d) end. }
    clearbody u. destruct (i_brackt (fst u)); exact K.
  Qed.
End Interval.

(** ** Signs *)
Section Signs.
  Variables exp64 ln64 : bf -> bf.
  Notation BN := (Bnum exp64 ln64).
  Notation zero := (nzero (N := BN)).

  Lemma zero_eq : zero = B754_zero false.
  Proof. reflexivity. Qed.

  Lemma not_below (x : bf) : Bltb x (B754_zero false) = false -> sgn false x = true.
  Proof. destruct x as [[]|[]| |[]]; try reflexivity; discriminate. Qed.
  Lemma not_above (x : bf) : Bltb (B754_zero false) x = false -> sgn true x = true.
  Proof. destruct x as [[]|[]| |[]]; try reflexivity; discriminate. Qed.
  Lemma not_above' (x : bf) : Bleb x (B754_zero false) = false -> sgn false x = true.
  Proof. destruct x as [[]|[]| |[]]; try reflexivity; discriminate. Qed.

  (** An accepted value. *)
  Lemma accept_le (v finit t : bf) : Bleb v (Bplus mode_NE finit t) = true -> sgn true t = true -> Bleb v finit = true.
  Proof.
    intros H Ht. destruct (add_moved true finit t Ht) as [Nn|M].
    - apply Bleb_not_nan in H. destruct H as [_ H]. congruence.
    - exact (Bleb_trans _ _ _ H M).
  Qed.

  Section Search.
    Context {St : Type}.
    Variable P : params BN.
    Variable f : objective BN St.
    Let M := p_max_linesearch P.
    Hypothesis Hmin : nltb (p_min_step P) zero = false.
    Hypothesis Hmin' : is_nan (p_min_step P : bf) = false.
    Hypothesis Hmax : nltb (p_max_step P) (p_min_step P) = false.
    Hypothesis Hftol : nltb (p_ftol P) zero = false.

    Lemma nneg_ge (x y : bf) : is_nan x = false -> Bltb x (B754_zero false) = false -> Bltb y x = false -> sgn false y = true.
    Proof.
      destruct x as [[]|[]| |[] m e H]; intros Hn Hx Hy; try discriminate Hn; try discriminate Hx;
      destruct y as [[]|[]| |[] m' e' H']; try reflexivity; discriminate Hy.
    Qed.

    Lemma mt_step_sign (v : mt_vars BN St) : sgn false (i_x (mt_iv v)) = true -> sgn false (mt_step P v) = true.
    Proof.
      intros Hx. unfold mt_step. cbv zeta.
      match goal with |- context [if ?c then i_x _ else _] => destruct c end; [exact Hx|].
      assert (Hm : sgn false (p_max_step P) = true) by (exact (nneg_ge _ _ Hmin' Hmin Hmax)).
      assert (H1 : sgn false (if nltb (i_t (mt_iv v)) (p_min_step P) then p_min_step P else i_t (mt_iv v)) = true).
      { destruct (nltb (i_t (mt_iv v)) (p_min_step P)) eqn:E; [exact (not_below _ Hmin)|]. exact (nneg_ge _ _ Hmin' Hmin E). }
      match goal with |- context [if nltb (p_max_step P) ?u then _ else _] => destruct (nltb (p_max_step P) u) end; [exact Hm|exact H1].
    Qed.

    Lemma mt_loop_sign fuel : forall xp s finit dginit dgtest (v : mt_vars BN St) (r : search BN St), (0 <= mt_count v < M)%Z ->
      sgn false (i_x (mt_iv v)) = true ->
      morethuente_loop P f fuel xp s finit dginit dgtest v = Some r -> sgn false (s_step r) = true.
    Proof.
      induction fuel as [|fuel IH]; intros xp s finit dginit dgtest v r Hc Hx H; [discriminate|].
      cbn [morethuente_loop] in H. destruct (mt_round P f xp s finit dginit dgtest v) as [v'|r'] eqn:E.
      - apply mt_round_next in E. cbv zeta in E. destruct E as (E1 & E2 & _).
        set (pt := call_eval f (mt_st v) (vecadd xp s (mt_step P v)) (mt_g v)) in *.
        destruct (mt_next_vars P finit dginit dgtest v (mt_step P v) pt (vecdot (pt_g pt) s)) as (F1 & _).
        rewrite <- E1 in F1. apply IH in H; [exact H|fold M in E2; lia|].
        destruct (mt_next_best P finit dginit dgtest v (mt_step P v) pt (vecdot (pt_g pt) s)) as [B|B]; rewrite <- E1 in B.
        + exact (eq_trans (f_equal (sgn false) B) Hx).
        + exact (eq_trans (f_equal (sgn false) B) (mt_step_sign v Hx)).
      - injection H as <-. apply mt_round_end in E; [|exact Hc]. destruct E as (E1 & _).
        exact (eq_trans (f_equal (sgn false) E1) (mt_step_sign v Hx)).
    Qed.

    Lemma owl_loop_sign fuel : forall b e xp s gp wp finit st g (stp : bf) count (r : search BN St), sgn false stp = true ->
      owlqn_loop P f fuel b e xp s gp wp finit st g stp count = Some r -> sgn false (s_step r) = true.
    Proof.
      induction fuel as [|fuel IH]; intros b e xp s gp wp finit st g stp count r Hs H; [discriminate|].
      cbn [owlqn_loop] in H.
      match type of H with (if ?c then _ else _) = _ => destruct c end; [injection H as <-; exact Hs|].
      match type of H with (if ?c then _ else _) = _ => destruct c end; [injection H as <-; exact Hs|].
      match type of H with (if ?c then _ else _) = _ => destruct c end; [injection H as <-; exact Hs|].
      match type of H with (if ?c then _ else _) = _ => destruct c end; [injection H as <-; exact Hs|].
      apply IH in H; [exact H|]. apply (mul_sgn false false stp (half (N := BN)) Hs). reflexivity.
    Qed.

    Lemma search_sign fuel b e (s : state BN St) (r : search BN St) : (0 < M)%Z -> owl P = true \/ p_linesearch P = MoreThuente ->
      run_line_search P f fuel b e s = Some r -> (0 <= s_ret r)%Z -> sgn false (s_step r) = true.
    Proof.
      intros HM Hm H Hr. unfold run_line_search in H. destruct (owl P).
      - unfold line_search_owlqn in H. destruct (nleb (l_step s) zero) eqn:E; [injection H as <-; exact (False_ind _ (Hr eq_refl))|].
        apply owl_loop_sign in H; [exact H|]. exact (not_above' _ E).
      - destruct Hm as [Hm|Hm]; [discriminate|]. rewrite Hm in H. unfold line_search_morethuente in H.
        match type of H with (if ?c then _ else _) = _ => destruct c end; [injection H as <-; exact (False_ind _ (Hr eq_refl))|].
        cbv zeta in H. match type of H with (if ?c then _ else _) = _ => destruct c end; [injection H as <-; exact (False_ind _ (Hr eq_refl))|].
        eapply mt_loop_sign; [| |exact H]; [cbn; lia|reflexivity].
    Qed.
  End Search.

  (** ** One coordinate of OWL-QN *)
  Definition against (d pg : bf) : Prop := exists s, sgn s d = true /\ sgn (negb s) pg = true.

  Lemma against_opp (g : bf) : against (Bopp g) g.
  Proof. destruct g as [[]|[]| |[] m e H]; [exists true|exists true|exists false|exists true|exists true|exists false|exists true]; split; reflexivity. Qed.
  Lemma against_zero (g : bf) : against (B754_zero false) g.
  Proof. destruct g as [[]|[]| |[] m e H]; [exists true|exists true|exists false|exists true|exists true|exists false|exists true]; split; reflexivity. Qed.
  Lemma sgn_some (x : bf) : exists s, sgn s x = true.
  Proof. destruct x as [[]|[]| |[] m e H]; [exists true|exists true|exists true|exists false|exists true|exists true|exists false]; reflexivity. Qed.

  Lemma mul_not_nan (x y : bf) : is_finite x = true -> is_finite y = true -> is_nan (Bmult mode_NE x y) = false.
  Proof.
    intros Fx Fy. pose proof (Bmult_correct prec64 emax64 _ _ mode_NE x y) as C. destruct (Rlt_bool _ _) in C.
    - destruct C as (_ & C & _). rewrite Fx, Fy in C. now destruct (Bmult mode_NE x y).
    - unfold binary_overflow in C. cbn in C. apply B2SF_inf in C. now rewrite C.
  Qed.

  Lemma against_constrained (d g : bf) : against (if Bleb (B754_zero false) (Bmult mode_NE d g) then B754_zero false else d) g.
  Proof.
    destruct (Bleb _ _) eqn:E; [apply against_zero|].
    destruct (sgn_some d) as [s Hs]. destruct (sgn (negb s) g) eqn:Hg; [exists s; auto|].
    assert (Hg' : sgn s g = true).
    { destruct s, g as [[]|[]| |[] m e H]; try reflexivity; discriminate Hg. }
    (* the product has sign false, hence is NaN: one of them is NaN or they are 0 and infinite *)
    pose proof (mul_sgn s s d g Hs Hg') as K. rewrite xorb_nilpotent in K.
    destruct (is_nan d) eqn:Nd; [exists (negb s); split; [apply sgn_nan; exact Nd|now rewrite negb_involutive]|].
    destruct (is_nan g) eqn:Ng; [exfalso; rewrite sgn_nan in Hg by exact Ng; discriminate|].
    destruct d as [sd|sd| |sd md ed Hd]; try discriminate Nd.
    - exists (negb s). split; [apply sgn_zero|now rewrite negb_involutive].
    - destruct g as [sg|sg| |sg mg eg HHg]; try discriminate Ng; [rewrite sgn_zero in Hg; discriminate| |];
        exfalso; cbn [Bmult] in *; rewrite sgn_inf in K; (destruct (xorb sd sg); [discriminate K|discriminate E]).
    - exfalso. destruct g as [sg|sg| |sg mg eg HHg]; try discriminate Ng; [rewrite sgn_zero in Hg; discriminate| |].
      + cbn [Bmult] in *. rewrite sgn_inf in K. destruct (xorb sd sg); [discriminate K|discriminate E].
      + assert (Nn : is_nan (Bmult mode_NE (B754_finite sd md ed Hd) (B754_finite sg mg eg HHg)) = false).
        { now apply mul_not_nan. }
        revert E K Nn. generalize (Bmult mode_NE (B754_finite sd md ed Hd) (B754_finite sg mg eg HHg)). intros p E K Nn.
        destruct p as [[]|[]| |[] m e H]; try discriminate Nn; try discriminate K; discriminate E.
  Qed.

  (** The new coordinate. *)
  Definition coordinate (xp d pg stp : bf) : bf :=
    let y := Bplus mode_NE xp (Bmult mode_NE stp d) in
    let w := if Beqb xp (B754_zero false) then Bopp pg else xp in
    if Bleb (Bmult mode_NE y w) (B754_zero false) then B754_zero false else y.

  Definition tiny : bf := Bdiv mode_NE (binary_normalize prec64 emax64 _ _ mode_NE 1 0 false)
    (binary_normalize prec64 emax64 _ _ mode_NE (2 ^ 530) 0 false).
  Lemma tiny_finite : is_finite tiny = true.
  Proof.
    rewrite <- is_finite64_B2SF. unfold tiny. rewrite <- fdiv_B2SF, <- !binary_normalize_equiv. vm_compute. reflexivity.
  Qed.
  Lemma tiny_value : B2R tiny = bpow radix2 (-530).
  Proof.
    rewrite <- rval_B2SF. unfold tiny. rewrite <- fdiv_B2SF, <- !binary_normalize_equiv.
    replace (fdiv _ _) with (S754_finite false 4503599627370496%positive (-582)%Z) by (vm_compute; reflexivity).
    change (F2R (Float radix2 (Zpower radix2 52) (-582)) = bpow radix2 (-530)).
    unfold F2R. cbn [Defs.Fnum Defs.Fexp]. rewrite IZR_Zpower by lia. rewrite <- bpow_plus. reflexivity.
  Qed.

  Definition unproblematic (x : bf) : Prop := Bltb (B754_zero false) (Babs x) && Bltb (Babs x) tiny = false.

  Lemma apart (x : bf) : unproblematic x -> is_finite x = true -> B2R x <> 0%R -> (bpow radix2 (-530) <= Rabs (B2R x))%R.
  Proof.
    unfold unproblematic. intros H Fx Nx.
    assert (Fa : is_finite (Babs x) = true) by (now destruct x).
    assert (Va : B2R (Babs x) = Rabs (B2R x)) by apply B2R_Babs.
    pose proof tiny_finite as Ft. rewrite !Bltb_correct in H by auto. rewrite Va, tiny_value in H. cbn [B2R] in H.
    destruct (Rlt_bool_spec 0 (Rabs (B2R x))) as [L|L]; [|exfalso; apply Nx; apply Rabs_pos_lt in Nx; lra].
    cbn [andb] in H. destruct (Rlt_bool_spec (Rabs (B2R x)) (bpow radix2 (-530))); [discriminate|assumption].
  Qed.

  (** A step away from zero keeps the sign, unless the product underflows. *)
  Lemma away (s : bool) (x y : bf) : unproblematic x -> is_finite x = true -> B2R x <> 0%R -> (if s then (B2R x < 0)%R else (0 < B2R x)%R) ->
    (if s then Bleb y x else Bleb x y) = true -> Bleb (Bmult mode_NE y x) (B754_zero false) = false.
  Proof.
    intros Hu Fx Nx Sx M. pose proof (apart x Hu Fx Nx) as A.
    destruct (is_finite y) eqn:Fy.
    2:{ destruct y as [|sy| |]; try discriminate Fy; [|destruct s, x; discriminate M].
        destruct x as [sx|sx| |sx m e H]; try discriminate Fx; [exfalso; apply Nx; reflexivity|].
        assert (sx = s).
        { destruct s, sx; try reflexivity; exfalso; cbn [B2R cond_Zopp] in Sx.
          - pose proof (finite_pos m e). lra.
          - pose proof (finite_neg m e). cbn [Z.opp] in Sx. lra. }
        subst sx. destruct s, sy; try discriminate M; reflexivity. }
    assert (L : (bpow radix2 (-530) <= Rabs (B2R y) /\ 0 < B2R y * B2R x)%R).
    { destruct s; apply Bleb_value in M; auto.
      - rewrite Rabs_left in A by lra. rewrite Rabs_left by lra. split; [lra|nra].
      - rewrite Rabs_right in A by lra. rewrite Rabs_right by lra. split; [lra|nra]. }
    destruct L as [L1 L2].
    assert (Q : (bpow radix2 (-1060) <= B2R y * B2R x)%R).
    { rewrite <- (Rabs_right (B2R y * B2R x)) by lra. rewrite Rabs_mult. change (-1060)%Z with (-530 + -530)%Z. rewrite bpow_plus.
      pose proof (bpow_gt_0 radix2 (-530)). apply Rmult_le_compat; lra. }
    pose proof (Bmult_correct prec64 emax64 _ _ mode_NE y x) as C. simpl round_mode in C.
    destruct (Rlt_bool _ _) in C.
    - destruct C as (C1 & C2 & _). rewrite Fx, Fy in C2. cbn [andb] in C2. rewrite Bleb_correct by (auto). rewrite C1. cbn [B2R].
      apply Rle_bool_false. fold (rn (B2R y * B2R x)). apply (Rlt_le_trans _ (rn (bpow radix2 (-1060)))); [|now apply rn_le].
      unfold rn. rewrite round_generic; [apply bpow_gt_0|typeclasses eauto|]. apply generic_format_bpow. vm_compute. discriminate.
    - unfold binary_overflow in C. cbn in C. apply B2SF_inf in C. rewrite C.
      assert (E : xorb (Bsign y) (Bsign x) = false); [|rewrite E; reflexivity].
      destruct x as [sx|sx| |sx mx ex Hx]; try discriminate Fx; [exfalso; apply Nx; reflexivity|].
      destruct y as [sy|sy| |sy my ey Hy]; try discriminate Fy; [cbn [B2R] in L2; lra|].
      cbn [Bsign]. destruct sx, sy; try reflexivity; exfalso; cbn [B2R cond_Zopp Z.opp] in L2;
        pose proof (finite_pos mx ex); pose proof (finite_neg mx ex); pose proof (finite_pos my ey); pose proof (finite_neg my ey); cbn [Z.opp] in *; nra.
  Qed.

  Lemma coordinate_sign (xp d pg stp : bf) : against d pg -> sgn false stp = true -> unproblematic xp ->
    sgn true (Bmult mode_NE (Bminus mode_NE (coordinate xp d pg stp) xp) pg) = true.
  Proof.
    intros (s & Hd & Hg) Ht Hu.
    assert (K : sgn s (Bminus mode_NE (coordinate xp d pg stp) xp) = true).
    2:{ replace true with (xorb s (negb s)) at 1 by (now destruct s). now apply mul_sgn. }
    unfold coordinate. cbv zeta. set (y := Bplus mode_NE xp (Bmult mode_NE stp d)).
    assert (Hm : moved s xp y) by (apply add_moved; pose proof (mul_sgn false s stp d Ht Hd) as K; now rewrite xorb_false_l in K).
    destruct (Bleb _ (B754_zero false)) eqn:E; [|now apply sub_moved].
    destruct (is_nan xp) eqn:Nx; [apply sgn_nan; now destruct xp|].
    destruct (Beqb xp (B754_zero false)) eqn:Ez.
    - destruct xp as [t|t| |t m e H]; try (destruct t); try discriminate Ez; (destruct s; reflexivity).
    - destruct (Bleb xp (B754_zero false)) eqn:El.
      + (* xp negative *)
        destruct s; [|apply sub_moved; right; exact El].
        exfalso. destruct (is_finite xp) eqn:Fx.
        * assert (Sx : (B2R xp < 0)%R).
          { apply Bleb_value in El; auto. rewrite Beqb_correct in Ez by auto. cbn [B2R] in *. destruct (Req_bool_spec (B2R xp) 0); [discriminate|lra]. }
          destruct Hm as [Nn|M].
          -- apply Bleb_not_nan in E. destruct E as [E _]. destruct y; try discriminate Nn. destruct xp; discriminate E.
          -- rewrite (away true xp y) in E; auto; [discriminate|lra].
        * destruct xp as [|t| |]; try discriminate Fx; try discriminate Nx. destruct t; [|discriminate El].
          destruct Hm as [Nn|M].
          -- apply Bleb_not_nan in E. destruct E as [E _]. destruct y; try discriminate Nn. discriminate E.
          -- destruct y as [[]|[]| |[]]; try discriminate M. discriminate E.
      + (* xp positive *)
        assert (El' : Bleb (B754_zero false) xp = true).
        { destruct xp as [[]|[]| |[]]; try reflexivity; try discriminate Nx; discriminate El. }
        destruct s; [apply sub_moved; right; exact El'|].
        exfalso. destruct (is_finite xp) eqn:Fx.
        * assert (Sx : (0 < B2R xp)%R).
          { apply Bleb_value in El'; auto. rewrite Beqb_correct in Ez by auto. cbn [B2R] in *. destruct (Req_bool_spec (B2R xp) 0); [discriminate|lra]. }
          destruct Hm as [Nn|M].
          -- apply Bleb_not_nan in E. destruct E as [E _]. destruct y; try discriminate Nn. destruct xp; discriminate E.
          -- rewrite (away false xp y) in E; auto; [discriminate|lra].
        * destruct xp as [|t| |]; try discriminate Fx; try discriminate Nx. destruct t; [discriminate El'|].
          destruct Hm as [Nn|M].
          -- apply Bleb_not_nan in E. destruct E as [E _]. destruct y; try discriminate Nn. discriminate E.
          -- destruct y as [[]|[]| |[]]; try discriminate M. discriminate E.
  Qed.
End Signs.

(** ** Vectors *)
Section Vectors.
  Variables exp64 ln64 : bf -> bf.
  Notation BN := (Bnum exp64 ln64).
  Notation zero := (nzero (N := BN)).

  Lemma fold_sign : forall (l : list (bf * bf)) (a : bf), sgn true a = true ->
    Forall (fun p => sgn true (Bmult mode_NE (fst p) (snd p)) = true) l ->
    sgn true (fold_left (fun s p => Bplus mode_NE s (Bmult mode_NE (fst p) (snd p))) l a) = true.
  Proof.
    induction l as [|p l IH]; intros a Ha H; [exact Ha|]. inversion H; subst. cbn [fold_left]. apply IH; [|assumption]. now apply add_sgn.
  Qed.

  Definition signs_of (xp pg : list BN) : list BN := map2 (fun x g => if neqb x zero then nopp g else x) xp pg.

  Lemma step_signs b e stp : sgn false stp = true -> forall (xp d pg : list BN) i,
    (b <= i)%nat -> (i + length xp <= e)%nat -> length d = length xp -> length pg = length xp ->
    Forall2 against d pg -> Forall unproblematic xp ->
    Forall (fun p => sgn true (Bmult mode_NE (fst p) (snd p)) = true)
      (combine (vecdiff (N := BN) (mapi_from i (fun i ds => if in_range b e i && nleb (n := BN) (nmul (n := BN) (fst ds) (snd ds)) zero then zero else fst ds)
                          (combine (vecadd (N := BN) xp d stp) (signs_of xp pg))) xp) pg).
  Proof.
    intros Ht. induction xp as [|x xp IH]; intros [|u d] [|g pg] i Hb He L1 L2 HA HU; try discriminate; [constructor|].
    cbn [length] in *. inversion HA; subst. inversion HU; subst.
    cbn [vecadd signs_of map2 combine mapi_from vecdiff fst snd].
    constructor.
    - cbn [fst snd]. assert (E : in_range b e i = true) by (unfold in_range; apply andb_true_intro; split; [apply Nat.leb_le|apply Nat.ltb_lt]; lia).
      rewrite E. exact (coordinate_sign x u g stp H2 Ht H1).
    - apply IH; auto; lia.
  Qed.

  Lemma x1norm_fold (x : list BN) : owlqn_x1norm x 0 (length x) = fold_left nadd (map nabs x) nzero.
  Proof.
    unfold owlqn_x1norm. rewrite Nat.sub_0_r.
    assert (K : forall (pre l : list BN) a,
      fold_left (fun s i => nadd s (nabs (nth i (pre ++ l) nzero))) (seq (length pre) (length l)) a = fold_left nadd (map nabs l) a).
    { intros pre l. revert pre. induction l as [|v l IH]; intros pre a; [reflexivity|].
      cbn [length seq map fold_left]. rewrite app_nth2, Nat.sub_diag by lia. cbn [nth].
      specialize (IH (pre ++ [v]) (nadd a (nabs v))). rewrite app_length, <- app_assoc in IH. cbn [length app] in IH.
      rewrite Nat.add_1_r in IH. exact IH. }
    exact (K [] x nzero).
  Qed.

  Lemma against_constrain b e : forall (d pg : list BN) i, (b <= i)%nat -> (i + length d <= e)%nat -> length pg = length d ->
    Forall2 against (mapi_from i (fun i dp => if in_range b e i && nleb (n := BN) zero (nmul (n := BN) (fst dp) (snd dp)) then zero else fst dp) (combine d pg)) pg.
  Proof.
    induction d as [|u d IH]; intros [|g pg] i Hb He L; try discriminate; [constructor|]. cbn [length combine mapi_from fst snd] in *. constructor.
    - assert (E : in_range b e i = true) by (unfold in_range; apply andb_true_intro; split; [apply Nat.leb_le|apply Nat.ltb_lt]; lia).
      rewrite E. exact (against_constrained u g).
    - apply IH; lia.
  Qed.
  Lemma against_ncpy (pg : list BN) : Forall2 against (vecncpy pg) pg.
  Proof. induction pg as [|g pg IH]; [constructor|]. cbn [vecncpy map]. constructor; [exact (against_opp g)|exact IH]. Qed.

  Lemma ordinary_unproblematic (x : list BN) : ordinary x -> Forall unproblematic x.
  Proof. intros H. exact H. Qed.

  Section Run.
    Context {St : Type}.
    Variables (n : nat) (P : params BN) (b e : nat).
    Variable f : objective BN St.
    Variable progress : option (observer BN St).
    Variables (F : list BN -> BN) (G : list BN -> list BN).
    Hypothesis Hf : evaluates n f F G.
    Hypothesis Hmin : nltb (p_min_step P) zero = false.
    Hypothesis Hmin' : is_nan (p_min_step P : bf) = false.
    Hypothesis Hmax : nltb (p_max_step P) (p_min_step P) = false.
    Hypothesis Hftol : nltb (p_ftol P) zero = false.
    Hypothesis HM : (0 < p_max_linesearch P)%Z.
    Hypothesis Hls : owl P = true \/ p_linesearch P = MoreThuente.
    Hypothesis Hbe : owl P = true -> b = 0%nat /\ e = n.
    Let m := Z.to_nat (p_m P).
    Let T := total (N := BN) (p_c P) F.

    Lemma eval_float st (x : list BN) g : length x = n ->
      let q := call_eval f st x g in pt_x q = x /\ pt_g q = G x /\ pt_f q = F x /\ length (G x) = n.
    Proof. intros Hl. destruct (Hf st x g Hl) as (H1 & H2). unfold call_eval. cbv zeta. rewrite H1. cbn. auto. Qed.

    Lemma total_owl (x : list BN) : owl P = true -> length x = n -> nadd (F x) (nmul (owlqn_x1norm x b e) (p_c P)) = T x.
    Proof.
      intros Ho Hl. destruct (Hbe Ho) as [-> ->]. unfold T, total. unfold owl, nnonzero in Ho. apply negb_true_iff in Ho. rewrite Ho.
      rewrite <- Hl, x1norm_fold. reflexivity.
    Qed.
    Lemma total_plain (x : list BN) : owl P = false -> F x = T x.
    Proof. intros Ho. unfold T, total. unfold owl, nnonzero in Ho. apply negb_false_iff in Ho. now rewrite Ho. Qed.

    Record finv (s : state BN St) : Prop := mkFinv {
      fi_x : length (pt_x (l_pt s)) = n;
      fi_g : length (pt_g (l_pt s)) = n;
      fi_f : pt_f (l_pt s) = T (pt_x (l_pt s));
      fi_pg : owl P = true -> length (l_pg s) = n;
      fi_d : length (l_d s) = n;
      fi_dir : owl P = true -> Forall2 against (l_d s) (l_pg s);
      fi_lm : length (l_lm s) = m;
      fi_corr : Forall (sized n) (l_lm s);
      fi_end : (0 < m)%nat -> (l_end s < m)%nat
    }.

    Lemma len_pseudo (x g : list BN) c : length x = n -> length g = n -> length (owlqn_pseudo_gradient x g c b e) = n.
    Proof. intros. now apply len_mapi. Qed.

    Lemma init_finv st x0 : length x0 = n -> finv (init_state P f b e st x0).
    Proof.
      intros Hx. unfold init_state. cbv zeta. set (g0 := repeat _ _). destruct (eval_float st x0 g0 Hx) as (E1 & E2 & E3 & E4).
      set (q := call_eval f st x0 g0) in *.
      constructor; cbn [l_pt l_pg l_d l_lm l_end pt_x pt_g pt_f]; rewrite ?E1, ?E2, ?E3; auto.
      - pose proof total_owl as TO. pose proof total_plain as TP. destruct (owl P); [now apply TO|now apply TP].
      - intros Ho. rewrite Ho. now apply len_pseudo.
      - destruct (owl P); apply len_vecncpy; [now apply len_pseudo|exact E4].
      - intros Ho. rewrite Ho. apply against_ncpy.
      - apply repeat_length.
      - apply Forall_forall. intros it Hit. apply repeat_spec in Hit. subst it. split; cbn [blank c_s c_y]; rewrite repeat_length; exact Hx.
    Qed.

    Lemma float_step fuel s r : finv s -> run_line_search P f fuel b e s = Some r -> (0 <= s_ret r)%Z ->
      let x := pt_x (l_pt s) in let y := pt_x (s_pt r) in
      length y = n /\ length (pt_g (s_pt r)) = n /\ pt_f (s_pt r) = T y /\
      ((owl P = true -> ordinary x) -> nleb (T y) (T x) = true).
    Proof.
      intros Hi E Hr. pose proof (search_sign exp64 ln64 P f Hmin Hmin' Hmax fuel b e s r HM Hls E Hr) as Hs.
      apply search_end in E; [|exact HM]. destruct E as (k & _ & _ & E). destruct E as [E|(_ & _ & E)]; [lia|].
      unfold accepted in E. cbv zeta in E. destruct E as [_ E].
      destruct Hi as [Ix Ig If Ipg Id Idir Ilm Icorr Iend].
      set (x := pt_x (l_pt s)) in *. pose proof total_owl as TO. destruct (owl P) eqn:Eo.
      - specialize (Ipg eq_refl). specialize (Idir eq_refl). destruct E as [E1 E2]. destruct E1 as (st & g & E1).
        change (map2 (fun x0 g0 : BN => if neqb x0 zero then nopp g0 else x0) x (l_pg s)) with (signs_of x (l_pg s)) in E1.
        set (y := owlqn_project (vecadd x (l_d s) (s_step r)) (signs_of x (l_pg s)) b e) in *.
        assert (Hy : length y = n) by (apply len_mapi; [now apply len_vecadd|now apply len_map2]).
        destruct (eval_float st y g Hy) as (Q1 & Q2 & Q3 & Q4). cbv zeta in E1.
        assert (Ey : pt_x (s_pt r) = y) by (rewrite E1; exact Q1).
        assert (Eg : pt_g (s_pt r) = G y) by (rewrite E1; exact Q2).
        assert (Ef : pt_f (s_pt r) = T y).
        { rewrite E1. cbn [pt_f]. rewrite Q1, Q3. now apply TO. }
        cbv zeta. unfold owl_ok in E2. rewrite Ey, Ef in *. rewrite If in E2. rewrite Eg.
        split; [exact Hy|]. split; [exact Q4|]. split; [reflexivity|]. intros Ho. specialize (Ho eq_refl).
        refine (accept_le _ _ _ E2 _). apply (mul_sgn false true); [exact (not_below _ Hftol)|].
        apply fold_sign; [reflexivity|]. unfold y, owlqn_project, mapi. destruct (Hbe eq_refl) as [-> ->].
        apply step_signs; auto; try lia; try (rewrite ?Ix; lia || congruence).
      - destruct Hls as [Hls'|Hls']; [discriminate|]. rewrite Hls' in E. destruct E as (E0 & E1 & E2 & _). destruct E1 as (st & g & E1).
        set (y := vecadd x (l_d s) (s_step r)) in *.
        assert (Hy : length y = n) by (now apply len_vecadd).
        destruct (eval_float st y g Hy) as (Q1 & Q2 & Q3 & Q4).
        assert (Ey : pt_x (s_pt r) = y) by (rewrite E1; exact Q1).
        assert (Eg : pt_g (s_pt r) = G y) by (rewrite E1; exact Q2).
        assert (Ef : pt_f (s_pt r) = T y) by (rewrite E1, <- total_plain by exact Eo; exact Q3).
        cbv zeta. rewrite Ey, Ef in *. rewrite If in E2. rewrite Eg.
        split; [exact Hy|]. split; [exact Q4|]. split; [reflexivity|]. intros _.
        refine (accept_le _ _ _ E2 _). apply (mul_sgn false true); [exact Hs|].
        apply (mul_sgn false true); [exact (not_below _ Hftol)|exact (not_above _ E0)].
    Qed.

    Lemma next_finv s (pt : point BN St) pg : finv s -> (0 < m)%nat ->
      length (pt_x pt) = n -> length (pt_g pt) = n -> pt_f pt = T (pt_x pt) ->
      (owl P = true -> length pg = n) -> finv (next_state P b e s pt pg).
    Proof.
      intros Hi Hm Hx Hg HF Hpg. unfold next_state. cbv zeta. fold m.
      destruct Hi as [Ix Ig If Ipg Id Idir Ilm Icorr Iend].
      set (it := mkCorr _ _ _ _). set (lm := lset (l_end s) it (l_lm s)).
      set (d0 := if owl P then vecncpy pg else vecncpy (pt_g pt)).
      set (bound := if Nat.leb m (l_k s) then m else l_k s). set (end' := Nat.modulo (l_end s + 1) m).
      assert (Hlm : length lm = m) by (unfold lm; now rewrite length_lset).
      assert (Hcf : Forall (sized n) lm).
      { apply Forall_lset; [exact Icorr|]. split; apply len_vecdiff; assumption. }
      assert (Hd0 : length d0 = n) by (unfold d0; destruct (owl P) eqn:Eo; apply len_vecncpy; auto).
      assert (He' : (end' < m)%nat) by (apply Nat.mod_upper_bound; lia).
      destruct (first_loop_sized n m Hm bound end' lm d0 Hlm Hcf Hd0) as (L1 & L2 & L3 & L4). cbv zeta in *.
      set (q := first_loop m bound end' lm d0) in *. specialize (L4 He').
      match goal with |- context [vecscale (snd q) ?t] => set (sc := t) end.
      assert (Hd1 : length (second_loop m bound (fst (fst q)) (snd (fst q)) (vecscale (snd q) sc)) = n).
      { apply second_loop_sized; auto. now apply len_vecscale. }
      set (d1 := second_loop m bound (fst (fst q)) (snd (fst q)) (vecscale (snd q) sc)) in *.
      constructor; cbn [l_pt l_pg l_d l_lm l_end pt_x pt_g pt_f]; auto.
      - destruct (owl P) eqn:Eo; [|exact Hd1]. apply len_mapi; auto.
      - intros Ho. rewrite Ho. destruct (Hbe Ho) as [-> ->]. specialize (Hpg Ho). apply against_constrain; lia.
    Qed.

    Definition float_point (r : search BN St) : Prop := pt_f (s_pt r) = T (pt_x (s_pt r)) /\ length (pt_x (s_pt r)) = n.
    Definition float_rel (x y : list BN) : Prop := (owl P = true -> ordinary x) -> nleb (T y) (T x) = true.

    Lemma run_float s l en : finv s -> run P f progress b e s l en ->
      Forall float_point l /\
      chain float_rel (pt_x (l_pt s)) (map (fun r => pt_x (s_pt r)) l) /\
      forall st x code, en = Done st x code -> x = last (map (fun r => pt_x (s_pt r)) l) (pt_x (l_pt s)).
    Proof.
      intros Hi H. induction H as [fuel s r E Hr | fuel s r en E Hr Ea | fuel s r s' l en E Hr Ea H IH].
      - split; [constructor|]. split; [exact Logic.I|]. intros st x code [= _ <- _]. reflexivity.
      - destruct (float_step fuel s r Hi E Hr) as (H1 & H2 & H3 & H4).
        split; [constructor; [split; auto|constructor]|]. split; [split; [exact H4|exact Logic.I]|].
        intros st x code Ee. apply after_step_exit in Ea. destruct Ea as (gn & _ & _ & Ea). cbn. eauto.
      - destruct (float_step fuel s r Hi E Hr) as (H1 & H2 & H3 & H4).
        apply after_step_next in Ea. destruct Ea as (st & pg & _ & Epg & -> & _ & Hm & _).
        assert (Hi' : finv (next_state P b e s (mkPoint st (pt_x (s_pt r)) (pt_g (s_pt r)) (pt_f (s_pt r))) pg)).
        { apply next_finv; cbn [pt_x pt_g pt_f]; auto; [unfold m; lia|]. intros Ho. rewrite Epg, Ho. now apply len_pseudo. }
        specialize (IH Hi'). cbn [next_state l_pt pt_x] in IH. destruct IH as (I1 & I2 & I3).
        split; [constructor; [split; auto|exact I1]|]. split; [split; [exact H4|exact I2]|].
        intros st' x code Ee. rewrite (I3 _ _ _ Ee). cbn [map].
        destruct (map (fun r0 => pt_x (s_pt r0)) l) eqn:El; [reflexivity|]. cbn [last].
        clear. revert l0. induction l1 as [|a l1 IH]; intros; cbn [last]; auto.
    Qed.
  End Run.
End Vectors.

(** ** The whole call *)
Section Call.
  Variables exp64 ln64 : bf -> bf.
  Notation BN := (Bnum exp64 ln64).
  Context {St : Type}.

  Definition descent (O : options BN) (F : list BN -> BN) (x y : list BN) : Prop :=
    (neqb (o_c O) nzero = false -> ordinary x) -> nleb (total (o_c O) F y) (total (o_c O) F x) = true.

  Lemma chain_map_described (log : list (report BN)) (l : list (search BN (St * list (report BN)))) :
    Forall2 describes log l -> map r_x log = map (fun r => pt_x (s_pt r)) l.
  Proof. induction 1 as [|q r log l Hq H IH]; [reflexivity|]. cbn [map]. f_equal; [apply Hq|exact IH]. Qed.

  Lemma keep_evaluates n (f : objective BN St) F G : evaluates n f F G -> evaluates n (keep_log f) F G.
  Proof. intros H st x g Hl. unfold keep_log. cbn [snd]. now apply H. Qed.

  Lemma float_descends n (O : options BN) (f : objective BN St) progress F G fuel lsfuel st x0 st' log out :
    evaluates n f F G -> length x0 = n -> is_nan (o_min_step O : bf) = false ->
    (neqb (o_c O) nzero = true -> o_line_search O = "default"%string \/ o_line_search O = "morethuente"%string) ->
    (neqb (o_c O) nzero = false -> covers O n) ->
    recorded O f progress fuel lsfuel st x0 = Some (st', log, out) ->
    chain (descent O F) x0 (map r_x log) /\
    Forall (fun q => r_fx q = total (o_c O) F (r_x q)) log /\
    forall x w, out = Returned x w -> x = last (map r_x log) x0.
  Proof.
    intros Hf Hx Hmin Hm Hcov H. unfold recorded, fmin_lbfgs in H.
    assert (Triv : forall y : outcome BN, (forall x w, y = Returned x w -> x = x0) -> [] = log -> y = out ->
      chain (descent O F) x0 (map r_x log) /\ Forall (fun q => r_fx q = total (o_c O) F (r_x q)) log /\
      forall x w, out = Returned x w -> x = last (map r_x log) x0).
    { intros y Hy <- <-. split; [exact Logic.I|]. split; [constructor|exact Hy]. }
    destruct (negb (nleb nzero (o_c O))) eqn:E0; [injection H as _ Hl Ho; refine (Triv _ _ Hl Ho); intros; discriminate|].
    destruct (line_search_algo (fst (choose_line_search O))) as [alg|] eqn:Ea; [|injection H as _ Hl Ho; refine (Triv _ _ Hl Ho); intros; discriminate].
    apply minimize_cases in H. destruct H as [(code & _ & H & Ho)|(b & e & Hck & H)].
    { injection H as _ Hl. apply (Triv (conclude x0 code)); [|now symmetry|now symmetry]. intros x w Ec. now apply conclude_returned in Ec. }
    destruct H as [(_ & H & Ho)|(Hm' & H)].
    { injection H as _ Hl. apply (Triv (Raises MemoryError)); [intros; discriminate|now symmetry|now symmetry]. }
    cbv zeta in H. set (P := to_params O alg) in *. set (s := init_state P (keep_log f) b e (st, []) x0) in *.
    rewrite Hx in Hck.
    assert (Hp : owl P = true \/ p_linesearch P = MoreThuente).
    { unfold owl. change (p_c P) with (o_c O). unfold nnonzero. destruct (neqb (o_c O) nzero) eqn:En; [|left; reflexivity]. right.
      assert (Ec : nltb (n := BN) nzero (o_c O) = false).
      { clear - En. revert En. generalize (o_c O). intros c. change (Beqb c (B754_zero false) = true -> Bltb (B754_zero false) c = false).
        destruct c as [[]|[]| |[]]; cbn; congruence. }
      unfold choose_line_search in Ea. rewrite Ec in Ea. cbn [andb fst] in Ea.
      destruct (Hm eq_refl) as [C|C]; rewrite C in Ea; cbn in Ea; injection Ea as <-; reflexivity. }
    assert (Ho : owl P = true -> neqb (o_c O) nzero = false) by (unfold owl, nnonzero; intros K; now apply negb_true_iff in K).
    assert (Ho' : neqb (o_c O) nzero = false -> owl P = true) by (unfold owl, nnonzero; intros K; now apply negb_true_iff).
    assert (Hbe : owl P = true -> b = 0%nat /\ e = n).
    { intros K. destruct (Hcov (Ho K)) as [C1 C2]. destruct Hck as [_ _ _ _ _ _ _ _ _ _ _ _ [_ [Hb _]] [He _] _].
      change (p_start P) with (o_start O) in Hb. change (p_end P) with (o_end O) in He. rewrite C1 in Hb. split; [exact Hb|].
      rewrite He. destruct (Z.ltb_spec (o_end O) 0); [reflexivity|]. lia. }
    pose proof (ck_ls _ _ _ _ Hck) as HM. pose proof (keep_evaluates n f F G Hf) as Hf'.
    pose proof (init_finv exp64 ln64 n P b e (keep_log f) F G Hf' Hp Hbe (st, []) x0 Hx) as Hi. fold s in Hi.
    assert (Es : snd (pt_st (l_pt s)) = []) by reflexivity.
    assert (Ex : pt_x (l_pt s) = x0).
    { destruct (eval_float exp64 ln64 n (keep_log f) F G Hf' (st, []) x0 (repeat nzero (length x0)) Hx) as [E1 _]. exact E1. }
    destruct H as [(_ & H & Hou)|(l & en & Hr & H & Hou)].
    { rewrite <- H in Es. cbn [snd] in Es. apply (Triv (Returned (pt_x (l_pt s)) None)); [|now symmetry|now symmetry].
      intros x w [= <- _]. exact Ex. }
    destruct (run_log P f progress b e s l en HM Hr) as (reps & R1 & R2 & R3).
    rewrite Es in R1. cbn [app] in R1. rewrite <- H in R1. cbn [snd] in R1. subst reps.
    pose proof (run_float exp64 ln64 n P b e (keep_log f) (Some (write_log progress)) F G Hf' (ck_min _ _ _ _ Hck) Hmin (ck_max _ _ _ _ Hck)
      (ck_ftol _ _ _ _ Hck) HM Hp Hbe s l en Hi Hr) as (K1 & K2 & K3).
    rewrite (chain_map_described log l R2). rewrite Ex in K2, K3.
    split; [|split].
    - clear - K2 Ho. revert K2. generalize x0. induction (map (fun r => pt_x (s_pt r)) l) as [|y ys IH]; intros x K; [exact Logic.I|].
      destruct K as [K K']. split; [|now apply IH]. intros Hord. apply K. intros HO. apply Hord. now apply Ho.
    - clear - R2 K1. induction R2 as [|q r log l Hq H IH]; constructor.
      + inversion K1; subst. destruct Hq as (Q1 & _ & Q2 & _). rewrite Q1, Q2. apply H2.
      + apply IH. now inversion K1.
    - intros x w Er. destruct en as [st1 y code|st1]; [|rewrite Hou in Er; discriminate].
      rewrite Hou in Er. apply conclude_returned in Er. rewrite Er. eapply K3. reflexivity.
  Qed.

  Lemma Bleb_chain (T : list BN -> BN) (Q : list BN -> Prop) : forall l x0,
    chain (fun x y => Q x -> nleb (T y) (T x) = true) x0 l -> Forall Q (x0 :: l) ->
    last l x0 = x0 \/ nleb (T (last l x0)) (T x0) = true.
  Proof.
    induction l as [|y l IH]; intros x0 H HF; [left; reflexivity|]. destruct H as [H1 H2]. inversion HF; subst.
    assert (El : last (y :: l) x0 = last l y).
    { clear. revert y. induction l as [|z l IH]; intros y; [reflexivity|]. cbn [last] in *. destruct l; [reflexivity|]. exact (IH y). }
    rewrite El. right. specialize (H1 ltac:(assumption)). destruct (IH y H2 ltac:(assumption)) as [->|K]; [exact H1|].
    exact (Bleb_trans _ _ _ K H1).
  Qed.

  Lemma float_never_worse n (O : options BN) (f : objective BN St) progress F G fuel lsfuel st x0 st' log x w :
    evaluates n f F G -> length x0 = n -> is_nan (o_min_step O : bf) = false ->
    (neqb (o_c O) nzero = true -> o_line_search O = "default"%string \/ o_line_search O = "morethuente"%string) ->
    (neqb (o_c O) nzero = false -> covers O n /\ Forall ordinary (x0 :: map r_x log)) ->
    recorded O f progress fuel lsfuel st x0 = Some (st', log, Returned x w) ->
    x = x0 \/ nleb (total (o_c O) F x) (total (o_c O) F x0) = true.
  Proof.
    intros Hf Hx Hmin Hm Hcov H.
    destruct (float_descends n O f progress F G fuel lsfuel st x0 st' log (Returned x w) Hf Hx Hmin Hm (fun K => proj1 (Hcov K)) H) as (K1 & _ & K3).
    rewrite (K3 x w eq_refl).
    apply (Bleb_chain (total (o_c O) F) (fun u => neqb (o_c O) nzero = false -> ordinary u)); [exact K1|].
    destruct (neqb (o_c O) nzero) eqn:E.
    - apply Forall_forall. intros u _ C. discriminate.
    - destruct (Hcov eq_refl) as [_ HF]. eapply Forall_impl; [|exact HF]. intros u Hu _. exact Hu.
  Qed.

  Lemma float_never_worse_plain n (O : options BN) (f : objective BN St) progress F G fuel lsfuel st x0 st' x w :
    evaluates n f F G -> length x0 = n -> is_nan (o_min_step O : bf) = false ->
    neqb (o_c O) nzero = true -> o_line_search O = "default"%string \/ o_line_search O = "morethuente"%string ->
    fmin_lbfgs O f progress fuel lsfuel st x0 = Some (st', Returned x w) ->
    x = x0 \/ nleb (F x) (F x0) = true.
  Proof.
    intros Hf Hx Hmin Hc Hm H. rewrite recording_faithful in H.
    destruct (recorded O f progress fuel lsfuel st x0) as [[[st1 log] out]|] eqn:E; [|discriminate]. cbn in H. injection H as -> ->.
    pose proof (float_never_worse n O f progress F G fuel lsfuel st x0 st' log x w Hf Hx Hmin (fun _ => Hm)) as K.
    unfold total in K. rewrite Hc in K. apply K; [discriminate|exact E].
  Qed.
End Call.
