(** Interpolation in the More-Thuente search, in any direction (C118). *)
From Coq Require Import ZArith List Bool Arith Reals Lra Lia Psatz.
From Verif Require Import Prelude Num Model_Lbfgs Proofs_LbfgsVec Proofs_LbfgsReal Proofs_LbfgsQuad1 Proofs_LbfgsQuad2 Spec_LbfgsRules.
Import ListNotations.
Local Open Scope R_scope.

(** ** The cubic on the unit interval: values A and B, slopes U and V at 0 and 1 *)
Section Unit.
  Variables A B U V : R.
  Definition uth : R := 3 * (A - B) + U + V.
  Definition uga : R := sqrt (uth * uth - U * V).
  Definition uq : R := 2 * uga - U + V.
  Definition up : R := uga - U + uth.

  Lemma unit_fit (a b : R) : A + U + b + a = B -> U + 2 * b + 3 * a = V -> a = (U + V + 2 * uth) / 3 /\ b = - (U + uth).
  Proof. unfold uth. intros H1 H2. split; lra. Qed.

  Lemma unit_fits : A + U + - (U + uth) + (U + V + 2 * uth) / 3 = B /\ U + 2 * (- (U + uth)) + 3 * ((U + V + 2 * uth) / 3) = V.
  Proof. unfold uth. split; field. Qed.

  Lemma unit_disc (r : R) : U + 2 * (- (U + uth)) * r + (U + V + 2 * uth) * (r * r) = 0 ->
    0 < 2 * (- (U + uth)) + 2 * (U + V + 2 * uth) * r -> 0 < uth * uth - U * V.
  Proof.
    set (th := uth). clearbody th. intros H1 H2.
    assert (E : (- (U + th) + (U + V + 2 * th) * r) * (- (U + th) + (U + V + 2 * th) * r) = th * th - U * V + (U + V + 2 * th) * (U + 2 * (- (U + th)) * r + (U + V + 2 * th) * (r * r))) by ring.
    rewrite H1 in E. nra.
  Qed.

  Lemma unit_root : 0 < uth * uth - U * V -> uq <> 0 -> let r := up / uq in
    U + 2 * (- (U + uth)) * r + (U + V + 2 * uth) * (r * r) = 0 /\ 2 * (- (U + uth)) + 2 * (U + V + 2 * uth) * r = 2 * uga.
  Proof.
    intros Hd Hq r. assert (S : uga * uga = uth * uth - U * V) by (apply sqrt_sqrt; lra). unfold r, up, uq in *.
    set (ga := uga) in *. set (th := uth) in *. clearbody ga th. split.
    - apply (Rmult_eq_reg_r ((2 * ga - U + V) * (2 * ga - U + V))); [|apply Rmult_integral_contrapositive_currified; exact Hq]. rewrite Rmult_0_l.
      replace ((U + 2 * - (U + th) * ((ga - U + th) / (2 * ga - U + V)) + (U + V + 2 * th) * ((ga - U + th) / (2 * ga - U + V) * ((ga - U + th) / (2 * ga - U + V)))) * ((2 * ga - U + V) * (2 * ga - U + V)))
        with (U * (2 * ga - U + V) ^ 2 - 2 * (U + th) * (ga - U + th) * (2 * ga - U + V) + (U + V + 2 * th) * (ga - U + th) ^ 2) by (field; exact Hq).
      replace (U * (2 * ga - U + V) ^ 2 - 2 * (U + th) * (ga - U + th) * (2 * ga - U + V) + (U + V + 2 * th) * (ga - U + th) ^ 2)
        with ((ga * ga - (th * th - U * V)) * (U + V - 2 * th)) by ring. rewrite S. ring.
    - apply (Rmult_eq_reg_r (2 * ga - U + V)); [|exact Hq].
      replace ((2 * - (U + th) + 2 * (U + V + 2 * th) * ((ga - U + th) / (2 * ga - U + V))) * (2 * ga - U + V))
        with (2 * ga * (2 * ga - U + V) - 4 * (ga * ga - (th * th - U * V))) by (field; exact Hq). rewrite S. ring.
  Qed.

  (** There is one such point. *)
  Lemma unit_unique (r s : R) : U + 2 * (- (U + uth)) * r + (U + V + 2 * uth) * (r * r) = 0 -> 0 < 2 * (- (U + uth)) + 2 * (U + V + 2 * uth) * r ->
    U + 2 * (- (U + uth)) * s + (U + V + 2 * uth) * (s * s) = 0 -> 0 < 2 * (- (U + uth)) + 2 * (U + V + 2 * uth) * s -> r = s.
  Proof.
    set (b := - (U + uth)). set (a := U + V + 2 * uth). clearbody a b. intros H1 H2 H3 H4.
    assert (Q : (r - s) * (2 * b + a * (r + s)) = 0) by nra. apply Rmult_integral in Q. destruct Q as [Q|Q]; [lra|nra].
  Qed.

  (** Descent at 0, and either ascent at 1 or the value there not too low. *)
  Definition dips : Prop := U < 0 /\ (0 < V \/ 4 * (A - B) < - U).

  Lemma dips_disc : dips -> 0 < uth * uth - U * V.
  Proof.
    intros [H1 H2]. pose proof (Rle_0_sqr uth) as Q. unfold Rsqr in Q. destruct (Rlt_dec 0 V) as [D|D].
    - assert (0 < - U * V) by (apply Rmult_lt_0_compat; lra). lra.
    - destruct H2 as [H2|H2]; [lra|]. assert (T : uth < U / 4 + V) by (unfold uth; lra). set (th := uth) in *. clearbody th.
      assert ((U / 4 + V) * (U / 4 + V) < th * th) by nra. pose proof (Rle_0_sqr (U / 4 - V)) as Q2. unfold Rsqr in Q2. nra.
  Qed.

  Lemma dips_ga : dips -> 0 < uga /\ uga * uga = uth * uth - U * V.
  Proof. intro H. apply dips_disc in H. split; [apply sqrt_lt_R0; exact H|apply sqrt_sqrt; lra]. Qed.

  Lemma dips_q : dips -> 0 < uq.
  Proof.
    intro H. destruct (dips_ga H) as [G S]. destruct H as [H1 H2]. unfold uq. destruct (Rlt_dec 0 V) as [D|D]; [lra|].
    destruct H2 as [H2|H2]; [lra|]. assert (T : uth < U / 4 + V) by (unfold uth; lra). set (th := uth) in *. set (ga := uga) in *. clearbody th ga.
    destruct (Rle_dec U V) as [E|E]; [lra|]. assert (T2 : th < (U + V) / 2) by lra.
    assert ((U + V) / 2 * ((U + V) / 2) < th * th) by nra. nra.
  Qed.

  Lemma dips_p : dips -> 0 < up.
  Proof.
    intro H. destruct (dips_ga H) as [G S]. destruct H as [H1 H2]. unfold up.
    assert (E : V = uth - U - 3 * (A - B)) by (unfold uth; ring). set (th := uth) in *. set (ga := uga) in *. clearbody th ga.
    destruct (Rlt_dec U th) as [D|D]; [lra|]. assert (K : 0 < V + U - 2 * th) by (destruct H2 as [H2|H2]; lra).
    assert ((U - th) * (U - th) < ga * ga) by nra. nra.
  Qed.

  Lemma dips_pq : dips -> up < uq.
  Proof.
    intro H. destruct (dips_ga H) as [G S]. destruct H as [H1 H2]. unfold up, uq.
    assert (E : V = uth - U - 3 * (A - B)) by (unfold uth; ring). set (th := uth) in *. set (ga := uga) in *. clearbody th ga.
    destruct (Rlt_dec th V) as [D|D]; [lra|]. assert (HV : 0 < V) by (destruct H2 as [H2|H2]; lra).
    assert ((th - V) * (th - V) < ga * ga) by nra. nra.
  Qed.

  Lemma dips_range : dips -> 0 < up / uq < 1.
  Proof.
    intro H. pose proof (dips_q H). pose proof (dips_p H). pose proof (dips_pq H). split; [apply Rdiv_lt_0_compat; assumption|].
    apply (Rmult_lt_reg_r uq); [assumption|]. unfold Rdiv. rewrite Rmult_assoc, Rinv_l by lra. lra.
  Qed.
End Unit.

(** ** From u to v *)
Section Scale.
  Variables k k' : R -> R.
  Variables u v : R.
  Hypothesis Hd : u <> v.
  Let d := v - u.
  Let A := k u. Let B := k v. Let U := k' u * d. Let V := k' v * d.
  Let c0 : R := u + up A B U V / uq A B U V * d.

  Lemma d0 : d <> 0. Proof. unfold d. lra. Qed.

  Lemma lowest_unit c : lowest k k' u v c <->
    let r := (c - u) / d in U + 2 * (- (U + uth A B U V)) * r + (U + V + 2 * uth A B U V) * (r * r) = 0 /\
      0 < 2 * (- (U + uth A B U V)) + 2 * (U + V + 2 * uth A B U V) * r.
  Proof.
    pose proof d0 as Hd0. cbv zeta. unfold lowest. fold d A B. set (r := (c - u) / d).
    assert (Ec : c - u = r * d) by (unfold r; field; exact Hd0). clearbody r. rewrite Ec.
    assert (Dp : 0 < d * d) by (destruct (Rdichotomy _ _ Hd0); nra). split.
    - intros (a & b & E1 & E2 & E3 & E4). destruct (unit_fit A B U V (a * d ^ 3) (b * d ^ 2)) as [Ea Eb].
      + unfold U. rewrite <- E1. ring.
      + unfold U, V. rewrite <- E2. ring.
      + rewrite <- Eb. replace (U + V + 2 * uth A B U V) with (3 * (a * d ^ 3)) by (rewrite Ea; field). split.
        * unfold U. replace (k' u * d + 2 * (b * d ^ 2) * r + 3 * (a * d ^ 3) * (r * r)) with ((k' u + 2 * b * (r * d) + 3 * a * (r * d) ^ 2) * d) by ring.
          rewrite E3. ring.
        * replace (2 * (b * d ^ 2) + 2 * (3 * (a * d ^ 3)) * r) with ((2 * b + 6 * a * (r * d)) * (d * d)) by ring. nra.
    - intros [E1 E2]. exists ((U + V + 2 * uth A B U V) / 3 / d ^ 3), (- (U + uth A B U V) / d ^ 2).
      destruct (unit_fits A B U V) as [F1 F2]. set (th := uth A B U V) in *. clearbody th.
      repeat split.
      + rewrite <- F1. unfold U. field. exact Hd0.
      + apply (Rmult_eq_reg_r d); [|exact Hd0]. fold V. rewrite <- F2. unfold U. field. exact Hd0.
      + apply (Rmult_eq_reg_r d); [|exact Hd0]. rewrite Rmult_0_l, <- E1. unfold U. field. exact Hd0.
      + apply (Rmult_lt_reg_r (d * d)); [exact Dp|]. rewrite Rmult_0_l. eapply Rlt_le_trans; [exact E2|]. apply Req_le. field. exact Hd0.
  Qed.

  Lemma lowest_disc c : lowest k k' u v c -> 0 < uth A B U V * uth A B U V - U * V.
  Proof. intro H. apply lowest_unit in H. destruct H as [H1 H2]. exact (unit_disc A B U V _ H1 H2). Qed.

  Lemma lowest_is c : 0 < uth A B U V * uth A B U V - U * V -> uq A B U V <> 0 -> (lowest k k' u v c <-> c = c0).
  Proof.
    intros H1 H2. pose proof d0 as Hd0. destruct (unit_root A B U V H1 H2) as [R1 R2].
    assert (G : 0 < uga A B U V) by (apply sqrt_lt_R0; exact H1). split.
    - intro H. apply lowest_unit in H. destruct H as [L1 L2].
      assert (E : (c - u) / d = up A B U V / uq A B U V) by (apply (unit_unique A B U V); try assumption; rewrite R2; lra).
      unfold c0. rewrite <- E. field. exact Hd0.
    - intros ->. apply lowest_unit. cbv zeta. replace ((c0 - u) / d) with (up A B U V / uq A B U V) by (unfold c0; field; repeat split; first [exact H2|exact Hd0]).
      split; [exact R1|rewrite R2; lra].
  Qed.

  Lemma scale_max (th : R) : k' u <> 0 -> 0 < Rmax (Rmax (Rabs th) (Rabs (k' u))) (Rabs (k' v)).
  Proof. intro H. eapply Rlt_le_trans; [|apply Rmax_l]. eapply Rlt_le_trans; [|apply Rmax_r]. apply Rabs_pos_lt. exact H. Qed.

  Lemma th_scaled : (k u - k v) * 3 / d + k' u + k' v = uth A B U V / d.
  Proof. unfold uth, A, B, U, V. field. exact d0. Qed.

  Lemma ga_scaled (s th : R) : 0 < s -> th = uth A B U V / d ->
    s * sqrt (Rmax 0 (th / s * (th / s) - k' u / s * (k' v / s))) = sqrt (Rmax 0 (uth A B U V * uth A B U V - U * V)) / Rabs d.
  Proof.
    intros Hs ->. pose proof d0 as Hd0. assert (Hp : 0 < Rabs d) by now apply Rabs_pos_lt. set (th := uth A B U V).
    assert (Hsd : 0 < s * Rabs d) by nra. assert (Ed : Rabs d * Rabs d = d * d) by (rewrite <- Rabs_mult; apply Rabs_right, Rle_ge, Rle_0_sqr).
    assert (E : th / d / s * (th / d / s) - k' u / s * (k' v / s) = (th * th - U * V) * / ((s * Rabs d) * (s * Rabs d))).
    { unfold U, V. replace (s * Rabs d * (s * Rabs d)) with (s * s * (d * d)) by (rewrite <- Ed; ring). field. repeat split; first [exact Hd0|lra]. }
    rewrite E. set (w := th * th - U * V). assert (Hi : 0 < / (s * Rabs d * (s * Rabs d))) by (apply Rinv_0_lt_compat; nra).
    assert (Em : Rmax 0 (w * / (s * Rabs d * (s * Rabs d))) = Rmax 0 w * / (s * Rabs d * (s * Rabs d))).
    { destruct (Rle_dec 0 w) as [L|L]; [rewrite !Rmax_right by nra; reflexivity|rewrite !Rmax_left by nra; ring]. }
    rewrite Em, sqrt_mult_alt by apply Rmax_l. rewrite sqrt_inv, sqrt_square by lra. field. repeat split; lra.
  Qed.

  Lemma cubic_scaled : k' u <> 0 -> 0 < uth A B U V * uth A B U V - U * V -> uq A B U V <> 0 ->
    (cubic_minimizer (N := Rnum) u (k u) (k' u) v (k v) (k' v) : R) = c0.
  Proof.
    intros Hu H1 Hq. pose proof d0 as Hd0. unfold cubic_minimizer. cbv zeta. rewrite max3_R. un. fold d.
    set (th := (k u - k v) * 3 / d + k' u + k' v). assert (Eth : th = uth A B U V / d) by (unfold th; apply th_scaled).
    set (s := Rmax (Rmax (Rabs th) (Rabs (k' u))) (Rabs (k' v))). assert (Hs : 0 < s) by (apply scale_max; exact Hu).
    assert (Eg : s * sqrt (th / s * (th / s) - k' u / s * (k' v / s)) = uga A B U V / Rabs d).
    { pose proof (ga_scaled s th Hs Eth) as G. rewrite (Rmax_right 0 (uth A B U V * _ - _)) in G by lra. fold (uga A B U V) in G. rewrite <- G.
      f_equal. f_equal. rewrite Rmax_right; [reflexivity|].
      replace (th / s * (th / s) - k' u / s * (k' v / s)) with ((uth A B U V * uth A B U V - U * V) * (/ (s * d) * / (s * d))) by (rewrite Eth; unfold U, V; field; repeat split; first [exact Hd0|lra]).
      apply Rmult_le_pos; [lra|]. apply Rle_0_sqr. }
    rewrite Eg.
    assert (Es : (if Rltb v u then - (uga A B U V / Rabs d) else uga A B U V / Rabs d) = uga A B U V / d).
    { destruct (Rltb v u) eqn:E; [apply Rltb_t in E|apply Rltb_f in E].
      - rewrite Rabs_left by (unfold d; lra). field. exact Hd0.
      - rewrite Rabs_right by (unfold d; lra). reflexivity. }
    rewrite Es, Eth. unfold c0. f_equal. f_equal. unfold up, uq in *. unfold U, V in *. 
    set (ga := uga A B (k' u * d) (k' v * d)) in *. set (t := uth A B (k' u * d) (k' v * d)) in *. clearbody ga t. field.
    repeat split; first [exact Hd0|exact Hq|intro Z; apply Hq; rewrite <- Z; ring].
  Qed.

  Lemma cubic2_scaled (xmin xmax : R) : U < V -> U < 0 ->
    (cubic_minimizer2 (N := Rnum) u (k u) (k' u) v (k v) (k' v) xmin xmax : R) =
    if Rlt_dec 0 (uth A B U V * uth A B U V - U * V) then
      if Rlt_dec 0 ((c0 - v) * d) then c0 else if Rlt_dec (uth A B U V / d) 0 then xmax else xmin
    else if Rlt_dec (uth A B U V / d) 0 then xmax else xmin.
  Proof.
    intros HUV HU. pose proof d0 as Hd0. assert (Hu : k' u <> 0) by (intro Z; unfold U in HU; rewrite Z in HU; lra).
    unfold cubic_minimizer2. cbv zeta. rewrite max3_R, max2_R. unfold nnonzero, nzero. un. fold d.
    set (th := (k u - k v) * 3 / d + k' u + k' v). assert (Eth : th = uth A B U V / d) by (unfold th; apply th_scaled).
    set (s := Rmax (Rmax (Rabs th) (Rabs (k' u))) (Rabs (k' v))). assert (Hs : 0 < s) by (apply scale_max; exact Hu).
    rewrite (ga_scaled s th Hs Eth).
    set (ga := sqrt (Rmax 0 (uth A B U V * uth A B U V - U * V))).
    assert (Hga : 0 <= ga) by apply sqrt_pos.
    assert (Es : (if Rltb u v then - (ga / Rabs d) else ga / Rabs d) = - ga / d).
    { destruct (Rltb u v) eqn:E; [apply Rltb_t in E|apply Rltb_f in E].
      - rewrite Rabs_right by (unfold d; lra). field. exact Hd0.
      - rewrite Rabs_left by (unfold d; lra). field. exact Hd0. }
    rewrite Es. 
    assert (Er : (- ga / d - k' v + th) / (- ga / d - k' v + - ga / d + k' u) = (ga + V - uth A B U V) / (2 * ga + V - U)).
    { rewrite Eth. unfold U, V. assert (2 * ga + k' v * d - k' u * d <> 0) by (fold U V; lra). 
      set (t := uth A B (k' u * d) (k' v * d)) in *. clearbody t ga. field. repeat split; first [exact Hd0|lra|intro Z; apply H; rewrite <- (Ropp_involutive 0), Ropp_0, <- Z; ring]. }
    rewrite Er. set (r := (ga + V - uth A B U V) / (2 * ga + V - U)).
    assert (Esg : Rltb (th / s) 0 = if Rlt_dec (uth A B U V / d) 0 then true else false).
    { rewrite <- Eth. assert (Hi : 0 < / s) by now apply Rinv_0_lt_compat. destruct (Rlt_dec th 0) as [L|L].
      - apply Rltb_t. unfold Rdiv. nra.
      - apply Rltb_f. unfold Rdiv. nra. }
    rewrite Esg.
    destruct (Rlt_dec 0 (uth A B U V * uth A B U V - U * V)) as [P|P].
    - assert (Ega : ga = uga A B U V) by (unfold ga, uga; rewrite Rmax_right by lra; reflexivity).
      assert (Gp : 0 < ga) by (rewrite Ega; apply sqrt_lt_R0; exact P).
      assert (Ez : Reqb (- ga / d) 0 = false).
      { apply Reqb_f. intro Z. apply (f_equal (fun w => w * d)) in Z. replace (- ga / d * d) with (- ga) in Z by (field; exact Hd0). lra. }
      rewrite Ez. cbn [negb]. rewrite andb_true_r.
      assert (Ec : v - r * d = c0).
      { unfold c0, r, up, uq, d. rewrite Ega in *. set (g := uga A B U V) in *. set (t := uth A B U V). clearbody g t. field. lra. }
      assert (Eb : (c0 - v) * d = - r * (d * d)) by (rewrite <- Ec; ring).
      assert (Dp : 0 < d * d) by (destruct (Rdichotomy _ _ Hd0); nra).
      destruct (Rlt_dec 0 ((c0 - v) * d)) as [L|L].
      + assert (E : Rltb r 0 = true) by (apply Rltb_t; nra). rewrite E. exact Ec.
      + assert (E : Rltb r 0 = false) by (apply Rltb_f; nra). rewrite E. destruct Rlt_dec; reflexivity.
    - assert (Ega : ga = 0) by (unfold ga; rewrite Rmax_left by lra; apply sqrt_0).
      assert (Ez : Reqb (- ga / d) 0 = true) by (apply Reqb_t; rewrite Ega; field; exact Hd0). rewrite Ez. cbn [negb]. rewrite andb_false_r.
      destruct Rlt_dec; reflexivity.
  Qed.

  Lemma ahead_is (xmin xmax c : R) : U < V -> U < 0 ->
    (ahead k k' u v xmin xmax c <-> c = (cubic_minimizer2 (N := Rnum) u (k u) (k' u) v (k v) (k' v) xmin xmax : R)).
  Proof.
    intros HUV HU. pose proof d0 as Hd0. rewrite cubic2_scaled by assumption.
    assert (Eth : forall (a b : R), (if Rlt_dec (k' u + k' v) (3 * ((k v - k u) / (v - u))) then a else b) = (if Rlt_dec (uth A B U V / d) 0 then a else b)).
    { intros a b. rewrite <- th_scaled. fold d. assert (E : (k u - k v) * 3 / d = - (3 * ((k v - k u) / d))) by (field; exact Hd0).
      destruct Rlt_dec as [L|L]; destruct Rlt_dec as [L'|L']; try reflexivity; exfalso; lra. }
    unfold ahead. rewrite Eth. clear Eth.
    assert (Hq : 0 < uth A B U V * uth A B U V - U * V -> uq A B U V <> 0).
    { intro P. assert (0 < uga A B U V) by (apply sqrt_lt_R0; exact P). unfold uq. lra. }
    unfold beyond. fold d. destruct (Rlt_dec 0 (uth A B U V * uth A B U V - U * V)) as [P|P].
    - pose proof (fun c => lowest_is c P (Hq P)) as L. destruct (Rlt_dec 0 ((c0 - v) * d)) as [G|G]; split.
      + intros [[H1 _]|[H1 _]]; [now apply L|]. exfalso. apply (H1 c0); [now apply L|exact G].
      + intros ->. left. split; [now apply L|exact G].
      + intros [[H1 H2]|[_ H2]]; [|exact H2]. exfalso. apply L in H1. rewrite H1 in H2. exact (G H2).
      + intros ->. right. split; [|reflexivity]. intros e He. apply L in He. rewrite He. exact G.
    - split.
      + intros [[H1 _]|[_ H2]]; [|exact H2]. exfalso. apply P. exact (lowest_disc c H1).
      + intros ->. right. split; [|reflexivity]. intros e He. exfalso. apply P. exact (lowest_disc e He).
  Qed.

  Lemma secant_is q : k' u <> k' v -> (secant k' u v q <-> q = (quard_minimizer2 (N := Rnum) u (k' u) v (k' v) : R)).
  Proof.
    intro H. pose proof d0 as Hd0. unfold quard_minimizer2. cbv zeta. un. unfold secant. fold d. split.
    - intros (b & B0 & E1 & E2). assert (Eb : b = (k' v - k' u) / d) by (rewrite <- E1; field; exact Hd0).
      assert (Eq : q = u - k' u / b) by (apply (Rmult_eq_reg_l b); [|exact B0]; replace (b * (u - k' u / b)) with (b * u - k' u) by (field; exact B0); lra).
      rewrite Eq, Eb. unfold d. field. repeat split; lra.
    - intros ->. exists ((k' v - k' u) / d). repeat split.
      + intro Z. apply H. apply (f_equal (fun w => w * d)) in Z. replace ((k' v - k' u) / d * d) with (k' v - k' u) in Z by (field; exact Hd0). lra.
      + field. exact Hd0.
      + unfold d. field. repeat split; lra.
  Qed.

  Lemma vertex_is q : U < 0 -> k u < k v -> (vertex k k' u v q <-> q = (quard_minimizer (N := Rnum) u (k u) (k' u) v (k v) : R)).
  Proof.
    intros H1 H2. pose proof d0 as Hd0. unfold quard_minimizer. cbv zeta. un. unfold vertex. fold d.
    assert (Dp : 0 < d * d) by (destruct (Rdichotomy _ _ Hd0); nra).
    assert (N1 : k u - k v + k' u * d <> 0) by (fold U; lra).
    set (q0 := u + k' u / ((k u - k v) / d + k' u) / 2 * d).
    set (b0 := (k v - k u - k' u * d) / d ^ 2).
    assert (Q0 : k' u + 2 * b0 * (q0 - u) = 0) by (unfold q0, b0; field; repeat split; assumption).
    assert (B0 : 0 < b0) by (apply Rdiv_lt_0_compat; [fold U; lra|nra]). split.
    - intros (b & E1 & E2 & E3). assert (Eb : b = b0) by (unfold b0; rewrite <- E1; field; exact Hd0). rewrite Eb in E2. nra.
    - intros ->. exists b0. split; [unfold b0; field; exact Hd0|]. split; [exact Q0|exact B0].
  Qed.

  Lemma vertex_range : U < 0 -> k u < k v -> exists r, 0 < r < 1 / 2 /\ (quard_minimizer (N := Rnum) u (k u) (k' u) v (k v) : R) = u + r * d.
  Proof.
    intros H1 H2. pose proof d0 as Hd0. unfold quard_minimizer. cbv zeta. un. fold d.
    exists (U / (A - B + U) / 2). split.
    - unfold A, B. assert (0 < k v - k u - U) by lra. assert (E : U / (k u - k v + U) = - U / (k v - k u - U)) by (field; lra). rewrite E.
      assert (0 < - U / (k v - k u - U)) by (apply Rdiv_lt_0_compat; lra).
      assert (- U / (k v - k u - U) < 1) by (apply (Rmult_lt_reg_r (k v - k u - U)); [lra|]; unfold Rdiv; rewrite Rmult_assoc, Rinv_l by lra; lra). lra.
    - assert (k u - k v + k' u * d <> 0) by (fold U; lra). f_equal. unfold U, A, B. field. repeat split; assumption.
  Qed.

  Lemma secant_between : U < 0 -> 0 < V -> exists r, 0 < r < 1 /\ (quard_minimizer2 (N := Rnum) u (k' u) v (k' v) : R) = u + r * d.
  Proof.
    intros H1 H2. pose proof d0 as Hd0. unfold quard_minimizer2. cbv zeta. un. exists (- U / (V - U)). split.
    - assert (0 < - U / (V - U)) by (apply Rdiv_lt_0_compat; lra).
      assert (- U / (V - U) < 1) by (apply (Rmult_lt_reg_r (V - U)); [lra|]; unfold Rdiv; rewrite Rmult_assoc, Rinv_l by lra; lra). lra.
    - assert (k' v - k' u <> 0) by (intro Z; assert ((k' v - k' u) * d = 0) by (rewrite Z; ring); unfold U, V in *; lra).
      unfold U, V, d in *. field. repeat split; lra.
  Qed.

  Lemma secant_beyond : U < V -> V < 0 -> exists r, 0 < r /\ (quard_minimizer2 (N := Rnum) u (k' u) v (k' v) : R) = v + r * d.
  Proof.
    intros H1 H2. pose proof d0 as Hd0. unfold quard_minimizer2. cbv zeta. un. exists (- V / (V - U)). split.
    - apply Rdiv_lt_0_compat; lra.
    - assert (k' v - k' u <> 0) by (intro Z; assert ((k' v - k' u) * d = 0) by (rewrite Z; ring); unfold U, V in *; lra).
      unfold U, V, d in *. field. repeat split; lra.
  Qed.

  (** The interpolant dips between u and v. *)
  Lemma dips_all : dips A B U V -> (forall c, lowest k k' u v c <-> c = (cubic_minimizer (N := Rnum) u (k u) (k' u) v (k v) (k' v) : R)) /\
    exists r, 0 < r < 1 /\ (cubic_minimizer (N := Rnum) u (k u) (k' u) v (k v) (k' v) : R) = u + r * d.
  Proof.
    intro H. pose proof (dips_disc _ _ _ _ H) as D. pose proof (dips_q _ _ _ _ H) as Q. pose proof (dips_range _ _ _ _ H) as G.
    assert (Hu : k' u <> 0) by (intro Z; destruct H as [H _]; unfold U in H; rewrite Z in H; lra).
    rewrite cubic_scaled by (try assumption; lra). split; [intro c; apply lowest_is; [exact D|lra]|]. eexists. split; [exact G|reflexivity].
  Qed.
End Scale.
