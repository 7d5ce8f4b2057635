(** The optimizer on quadratic objectives (C105). *)
From Coq Require Import String ZArith List Bool Arith Reals Lra Lia.
From Verif Require Import Prelude Num Spec_Rescale Proofs_Rescale Model_Lbfgs Proofs_Poisson Spec_Lbfgs Spec_LbfgsQuad
  Proofs_PoissonOpt Proofs_Lbfgs Proofs_LbfgsTrace Proofs_LbfgsVec Proofs_LbfgsReal Proofs_LbfgsTop Proofs_LbfgsDir Proofs_LbfgsDescent
  Proofs_LbfgsCurv Proofs_LbfgsMain Proofs_LbfgsOpts Proofs_LbfgsQuad1 Proofs_LbfgsQuad2.
Import ListNotations.
Local Open Scope R_scope.

(** ** A quadratic function on a line *)
Section Lines.
  Variable n : nat.
  Variable H : nat -> nat -> R.
  Hypothesis Hsym : forall i j, H i j = H j i.

  Lemma form_l (x d w v : list R) t : (forall i, (i < n)%nat -> entry w i = entry x i + t * entry d i) ->
    form n H w v = form n H x v + t * form n H d v.
  Proof.
    intro E. unfold form. rewrite <- Sum_scal, <- Sum_plus. apply Sum_ext. intros i Hi.
    rewrite <- Sum_scal, <- Sum_plus. apply Sum_ext. intros j Hj. rewrite (E i Hi). ring.
  Qed.
  Lemma form_sym (u v : list R) : form n H u v = form n H v u.
  Proof.
    unfold form. rewrite Sum_swap. apply Sum_ext. intros i Hi. apply Sum_ext. intros j Hj. rewrite (Hsym j i). ring.
  Qed.
  Lemma form_dot (x d : list R) : form n H d x = Sum n (fun i => Sum n (fun j => H i j * entry x j) * entry d i).
  Proof. unfold form. apply Sum_ext. intros i Hi. rewrite <- Sum_scal_r. apply Sum_ext. intros j Hj. ring. Qed.
End Lines.

Lemma quadratic_line n F G (x d : list R) : quadratic n F G -> length x = n -> length d = n ->
  (exists i, (i < n)%nat /\ entry d i <> 0) ->
  exists a, 0 < a /\ forall t w, at_step n x d t w ->
    F w = par (F x) (dot n (G x) d) a t /\ dot n (G w) d = slope (dot n (G x) d) a t.
Proof.
  intros (H & b & c & Hs & Hp & HF) Hx Hd Hnz. exists (form n H d d). split; [now apply Hp|].
  intros t w [Hw E]. destruct (HF x Hx) as [F1 G1]. destruct (HF w Hw) as [F2 G2].
  assert (D : forall u, length u = n -> (forall i, (i < n)%nat -> entry (G u) i = Sum n (fun j => H i j * entry u j) - b i) ->
     dot n (G u) d = form n H d u - Sum n (fun i => b i * entry d i)).
  { intros u Hu Gu. unfold dot. rewrite form_dot, <- Sum_minus. apply Sum_ext. intros i Hi. rewrite (Gu i Hi). ring. }
  rewrite (D w Hw G2), (D x Hx G1). rewrite (form_sym n H Hs d w), (form_sym n H Hs d x).
  rewrite F1, F2. unfold par, slope.
  assert (B : Sum n (fun i => b i * entry w i) = Sum n (fun i => b i * entry x i) + t * Sum n (fun i => b i * entry d i)).
  { rewrite <- Sum_scal, <- Sum_plus. apply Sum_ext. intros i Hi. rewrite (E i Hi). ring. }
  assert (W : form n H w w = form n H x x + 2 * t * form n H x d + t * t * form n H d d).
  { rewrite (form_l n H x d w w t E), (form_sym n H Hs x w), (form_sym n H Hs d w).
    rewrite (form_l n H x d w x t E), (form_l n H x d w d t E). rewrite (form_sym n H Hs d x). ring. }
  split.
  - rewrite W, B. field.
  - rewrite (form_l n H x d w d t E). ring.
Qed.

Lemma par_lowest c0 c1 a t : 0 < a -> par c0 c1 a (- c1 / a) <= par c0 c1 a t.
Proof.
  intro Ha. assert (E : par c0 c1 a t - par c0 c1 a (- c1 / a) = a * (t - - c1 / a) * (t - - c1 / a) / 2).
  { unfold par. field. lra. }
  assert (0 <= a * (t - - c1 / a) * (t - - c1 / a)); [|lra].
  rewrite Rmult_assoc. apply Rmult_le_pos; [lra|apply Rle_0_sqr].
Qed.

Lemma dot_nonzero n (g d : list R) : dot n g d < 0 -> exists i, (i < n)%nat /\ entry d i <> 0.
Proof.
  intro H. destruct (Nat.eq_dec 0 n) as [<-|Hn]; [unfold dot in H; rewrite Sum_0 in H; lra|].
  assert (K : forall m, Sum m (fun i => entry g i * entry d i) < 0 -> exists i, (i < m)%nat /\ entry d i <> 0).
  { clear. induction m as [|m IH]; intro H; [rewrite Sum_0 in H; lra|]. rewrite Sum_S in H.
    destruct (Req_dec (entry d m) 0) as [E|E].
    - rewrite E, Rmult_0_r, Rplus_0_r in H. destruct (IH H) as (i & Hi & Hd). exists i. split; [lia|exact Hd].
    - exists m. split; [lia|exact E]. }
  exact (K n H).
Qed.

Lemma min_short (h T g : R) : ~ T <= Rmin h (Rmin T g) -> Rmin h (Rmin T g) = Rmin h g.
Proof.
  destruct (Rle_dec T g) as [D|D].
  - rewrite (Rmin_left T g D). intro L. destruct (Rle_dec h T) as [E|E].
    + rewrite !Rmin_left; lra.
    + rewrite Rmin_right in L by lra. lra.
  - rewrite (Rmin_right T g) by lra. reflexivity.
Qed.

Lemma last_indep {A} (l : list A) a u v : last (a :: l) u = last (a :: l) v.
Proof. revert a. induction l as [|c l IH]; intro a; [reflexivity|]. exact (IH c). Qed.

(** ** The search *)
Lemma loop_more {St} (P : params Rnum) (f : objective Rnum St) j : forall fuel xp s finit dginit dgtest v r,
  morethuente_loop P f fuel xp s finit dginit dgtest v = Some r ->
  morethuente_loop P f (fuel + j) xp s finit dginit dgtest v = Some r.
Proof.
  induction fuel as [|fuel IH]; intros xp s finit dginit dgtest v r H; [discriminate|].
  cbn [morethuente_loop Nat.add] in *. destruct (mt_round P f xp s finit dginit dgtest v); [now apply IH|exact H].
Qed.

Section Quadratic.
  Context {St : Type}.
  Variables (n : nat) (z : nat -> bool) (O : options Rnum).
  Variable f : objective Rnum St.
  Variable progress : option (observer Rnum St).
  Variables (F : list R -> R) (G : list R -> list R) (b e : nat).
  Hypothesis Hf : computes n z f F G.
  Let P := to_params O MoreThuente.
  Hypothesis Hck : checked P n b e.
  Hypothesis H0 : (o_c O : R) = 0.
  Hypothesis HQ : quadratic n F G.
  Hypothesis HO : sensible O.
  Let Hmax : 0 < (o_max_step O : R) := proj2 (proj2 (proj2 (proj2 (proj2 HO)))).

  Lemma plain : owl P = false.
  Proof. exact (not_owl n O MoreThuente b e Hck H0). Qed.
  Lemma gtol_curved : curved O MoreThuente.
  Proof. exact (proj1 (proj2 (proj2 HO))). Qed.

  Section One.
    Variable s : state Rnum St.
    Variable t0 : R.
    Hypothesis Hi : inv n z P F G b e s.
    Hypothesis Hdesc : dot n (G (pt_x (l_pt s))) (l_d s) < 0.
    Hypothesis Hst : (l_step s : R) = t0.
    Hypothesis Ht0 : 0 < t0.
    Hypothesis Hlt : (o_min_step O : R) <= t0.
    Let x := pt_x (l_pt s).
    Let d := l_d s.
    Let dg := dot n (G x) d.

    Lemma lenx : length x = n.
    Proof. apply (inv_x _ _ _ _ _ _ _ _ Hi). Qed.
    Lemma lend : length d = n.
    Proof. apply (inv_d _ _ _ _ _ _ _ _ Hi). Qed.
    Lemma fval : pt_f (l_pt s) = F x.
    Proof.
      rewrite (inv_f _ _ _ _ _ _ _ _ Hi). unfold F1. change (p_c P) with (o_c O). rewrite H0. unfold x.
      rewrite Rmult_0_l. apply Rplus_0_r.
    Qed.
    Lemma gval : vecdot (N := Rnum) (pt_g (l_pt s)) (l_d s) = dg.
    Proof.
      pose proof (inv_gf _ _ _ _ _ _ _ _ Hi) as [Hg _]. rewrite (vecdot_dot n); [|exact Hg|exact lend].
      rewrite (inv_g _ _ _ _ _ _ _ _ Hi). reflexivity.
    Qed.

    Lemma at_vecadd t : at_step n x d t (vecadd (N := Rnum) x d t).
    Proof.
      split; [apply (length_vecadd n); [exact lenx|exact lend]|]. intros i Hin.
      apply (entry_vecadd n); [exact lenx|exact lend|exact Hin].
    Qed.

    Variable a : R.
    Hypothesis Ha : 0 < a.
    Hypothesis Hline : forall t w, at_step n x d t w -> F w = par (F x) dg a t /\ dot n (G w) d = slope dg a t.

    Lemma evals_line : forall st g (t : R),
      let pt := call_eval f st (vecadd (N := Rnum) x d t) g in
      pt_f pt = par (F x) dg a t /\ vecdot (N := Rnum) (pt_g pt) d = slope dg a t.
    Proof.
      intros st g t. cbv zeta.
      assert (Hw : fine n z (vecadd (N := Rnum) x d t)).
      { apply fine_vecadd; [apply (inv_x _ _ _ _ _ _ _ _ Hi)|apply (inv_d _ _ _ _ _ _ _ _ Hi)]. }
      destruct (eval_at n z f F G Hf st _ g Hw) as (E1 & E2 & E3 & E4).
      destruct (Hline t _ (at_vecadd t)) as [L1 L2]. split; [rewrite E3; exact L1|].
      rewrite E2. destruct E4 as [E4 _]. rewrite (vecdot_dot n); [exact L2|exact E4|exact lend].
    Qed.

    Lemma lowest_at y t : at_step n x d t y -> t = - dg / a -> lowest n F x y.
    Proof.
      intros Hy Et u w Hw Ew. assert (Aw : at_step n x d (u * t) w).
      { split; [exact Hw|]. intros i Hin. rewrite (Ew i Hin). rewrite (proj2 Hy i Hin). ring. }
      rewrite (proj1 (Hline _ _ Hy)), (proj1 (Hline _ _ Aw)). rewrite Et at 1. now apply par_lowest.
    Qed.

    Let v0 := mkMt (N := Rnum) (mkInterval (N := Rnum) 0 (pt_f (l_pt s)) dg 0 (pt_f (l_pt s)) dg (l_step s) false) true 0
      (o_max_step O - o_min_step O) (2 * (o_max_step O - o_min_step O)) (pt_st (l_pt s)) (pt_g (l_pt s)) 0.
    Lemma search_loop fuel : run_line_search P f fuel b e s =
      morethuente_loop P f fuel x d (F x) dg (p_ftol P * dg) v0.
    Proof.
      unfold run_line_search. rewrite plain.
      change (p_linesearch P) with MoreThuente. unfold line_search_morethuente. cbv zeta.
      assert (E1 : nleb (l_step s) nzero = false) by (unfold nzero; rn; apply Rleb_f; rewrite Hst; exact Ht0).
      rewrite E1. pose proof gval as Eg. rr. rewrite Eg.
      assert (E2 : nltb (n := Rnum) nzero dg = false) by (unfold nzero; rn; apply Rltb_f; apply Rlt_le; exact Hdesc).
      rewrite E2. unfold v0. rewrite fval. reflexivity.
    Qed.
    Lemma v0_fresh : fresh P (F x) dg t0 v0.
    Proof. unfold fresh, v0. cbn [mt_iv mt_stage1 mt_count mt_prev_width]. rewrite fval, Hst. repeat split. Qed.

    Lemma found fuel r : run_line_search P f fuel b e s = Some r -> (0 <= s_ret r)%Z ->
      quadratic_step O n F G t0 x
        (mkReport (pt_x (s_pt r)) (pt_g (s_pt r)) (pt_f (s_pt r)) 0 0 (s_step r) 0 (s_ret r)).
    Proof.
      intros E Hr. pose proof E as E'. rewrite search_loop in E'.
      destruct HO as (O1 & O2 & O3 & O4 & O5 & O6).
      assert (Ff : 0 <= (p_ftol P : R)) by exact (kf_ftol n O MoreThuente b e Hck).
      pose proof (loop_fresh P f x d (F x) dg a t0 Hdesc Ha evals_line O4 Hmax
        (conj Ff O1) O2 Ht0 Hlt fuel v0 r v0_fresh E' Hr) as Out.
      pose proof (kf_ls n O MoreThuente b e Hck) as HM.
      apply search_end in E; [|exact HM]. destruct E as (k & _ & _ & E). destruct E as [E|(_ & _ & E)]; [lia|].
      unfold accepted in E. cbv zeta in E. rewrite plain in E. destruct E as (_ & _ & (st & g & E1) & _).
      set (t := s_step r : R) in *.
      assert (Hyf : fine n z (vecadd (N := Rnum) x d t)).
      { apply fine_vecadd; [apply (inv_x _ _ _ _ _ _ _ _ Hi)|apply (inv_d _ _ _ _ _ _ _ _ Hi)]. }
      assert (Ey : pt_x (s_pt r) = vecadd (N := Rnum) x d t).
      { rewrite E1. apply (eval_at n z f F G Hf st _ g Hyf). }
      unfold quadratic_step. cbv zeta. cbn [r_x r_ls r_step]. rewrite Ey. pose proof (at_vecadd t) as Ay.
      set (y := vecadd (N := Rnum) x d t) in *.
      assert (Al : forall v, length v = n -> along n v x y = t * dot n v d).
      { intros v Hv. apply along_move; first [exact Hv|exact lenx|exact lend]. }
      destruct (eval_at n z f F G Hf st y g Hyf) as (_ & _ & _ & [Lg _]).
      assert (Lx : length (G x) = n).
      { destruct (inv_gf _ _ _ _ _ _ _ _ Hi) as [L _]. rewrite (inv_g _ _ _ _ _ _ _ _ Hi) in L. exact L. }
      destruct (Hline t y Ay) as [_ Sy].
      assert (Low : t = - dg / a -> lowest n F x y) by (apply lowest_at; exact Ay).
      destruct Out as [[R1 R2]|[[R1 R2]|(m & R1 & R2 & R3)]].
      - left. split; [exact R1|exact R2].
      - right. destruct R2 as [R2|R2].
        + right. left. split; [lia|]. apply Low. exact R2.
        + left. split; [exact R1|]. rewrite !Al by assumption. rewrite Sy. change (t = (1 - o_ftol O) * (- dg / a)) in R2.
          assert (Es : slope dg a t = o_ftol O * dg) by (rewrite R2; unfold slope; field; lra). rewrite Es. unfold dg. ring.
      - right. right. rewrite R2. rewrite Nat2Z.id. change (t = Rmin (o_max_step O) (Rmin (- dg / a) (growth t0 m))) in R3.
        destruct (Rle_dec (- dg / a) t) as [L|L].
        + left. split; [lia|]. apply Low.
          assert (t <= - dg / a); [|lra]. rewrite R3.
          apply Rle_trans with (Rmin (- dg / a) (growth t0 m)); [apply Rmin_r|apply Rmin_l].
        + right. split; [lia|]. split.
          * rewrite R3 in L. rewrite R3. exact (min_short _ _ _ L).
          * rewrite Al by assumption. rewrite Sy.
            assert (0 <= t).
            { rewrite R3.
              apply Rmin_glb; [lra|]. apply Rmin_glb; [apply Rlt_le; apply (T_pos dg a Hdesc Ha)|].
              apply Rle_trans with t0; [lra|]. apply growth_pos; [exact Ht0|lia]. }
            assert (slope dg a t < 0) by (apply (low_slope dg a Ha); lra). nra.
    Qed.

    Lemma failed fuel r : run_line_search P f fuel b e s = Some r -> (s_ret r < 0)%Z -> (3 <= o_max_linesearch O)%Z ->
      (o_xtol O : R) < 1 -> out_of_reach O n F G t0 x.
    Proof.
      intros E Hr HM Hxt. rewrite search_loop in E. set (K := (Z.to_nat (o_max_linesearch O) - 2)%nat).
      destruct HO as (O1 & O2 & O3 & O4 & O5 & O6).
      assert (Ff : 0 <= (p_ftol P : R)) by exact (kf_ftol n O MoreThuente b e Hck).
      exists d, (- dg / a), (vecadd (N := Rnum) x d (- dg / a)). pose proof (at_vecadd (- dg / a)) as Aw.
      split; [exact lend|]. split; [exact Hdesc|]. split; [exact Aw|]. split; [now apply (lowest_at _ (- dg / a))|].
      split; [apply (T_pos dg a Hdesc Ha)|].
      set (T := - dg / a). 
      destruct (Rle_dec ((1 - o_ftol O) * T) (o_min_step O)) as [D1|D1]; [left; exact D1|].
      destruct (Rle_dec (o_max_step O) T) as [D2|D2]; [right; left; exact D2|].
      destruct (Rlt_dec (o_max_step O) t0) as [D3|D3]; [right; right; left; exact D3|].
      destruct (Rlt_dec (grown t0 (Z.to_nat (o_max_linesearch O) - 1)) T) as [D4|D4]; [right; right; right; exact D4|].
      exfalso. replace (Z.to_nat (o_max_linesearch O) - 1)%nat with (S K) in D4 by (unfold K; lia).
      apply Rnot_lt_le in D4.
      destruct (succeed_fresh P f x d (F x) dg a t0 Hdesc Ha evals_line O4 Hmax
        (conj Ff O1) O2 Ht0 Hlt (fuel + S K) K v0 v0_fresh D4) as (r' & E' & Hr').
      - unfold K; lia.
      - split; [apply Rnot_le_lt; exact D1|]. split; [apply Rnot_le_lt; exact D2|]. split; [apply Rnot_lt_le; exact D3|].
        split; [exact Hxt|]. change (p_max_linesearch P) with (o_max_linesearch O). unfold K. lia.
      - lia.
      - apply (loop_more P f (S K)) in E. rr. rewrite E' in E. injection E as ->. lia.
    Qed.
  End One.

  (** ** The run *)
  Definition rep (r : search Rnum St) : report Rnum :=
    mkReport (N := Rnum) (pt_x (s_pt r)) (pt_g (s_pt r)) (pt_f (s_pt r)) 0 0 (s_step r) 0 (s_ret r).

  Lemma one_search s t t0 fuel r : curv n z O MoreThuente F G b e s t -> (l_step s : R) = t0 -> (o_min_step O : R) <= t0 ->
    run_line_search P f fuel b e s = Some r ->
    ((0 <= s_ret r)%Z -> quadratic_step O n F G t0 (pt_x (l_pt s)) (rep r)) /\
    ((s_ret r < 0)%Z -> (3 <= o_max_linesearch O)%Z -> (o_xtol O : R) < 1 -> out_of_reach O n F G t0 (pt_x (l_pt s))).
  Proof.
    intros C Hst Hlt E. pose proof (cu_inv _ _ _ _ _ _ _ _ _ _ C) as Ci. pose proof (cu_step _ _ _ _ _ _ _ _ _ _ C) as Cs.
    pose proof (curv_descent n z O MoreThuente F G b e Hck H0 s t C) as D. rewrite Hst in Cs.
    destruct (quadratic_line n F G (pt_x (l_pt s)) (l_d s) HQ) as (a & Ha & Hline).
    - apply (inv_x _ _ _ _ _ _ _ _ Ci).
    - apply (inv_d _ _ _ _ _ _ _ _ Ci).
    - exact (dot_nonzero _ _ _ D).
    - split.
      + intro Hr. exact (found s t0 Ci D Hst Cs Hlt a Ha Hline fuel r E Hr).
      + intros Hr HM Hx. exact (failed s t0 Ci D Hst Cs Hlt a Ha Hline fuel r E Hr HM Hx).
  Qed.

  Lemma run_quadratic s t t0 l en : curv n z O MoreThuente F G b e s t -> (l_step s : R) = t0 -> (o_min_step O : R) <= t0 ->
    run P f progress b e s l en ->
    quadratic_steps O n F G t0 (pt_x (l_pt s)) (map rep l) /\
    (never_stops progress -> (3 <= o_max_linesearch O)%Z -> (o_xtol O : R) < 1 ->
     forall st x code, en = Done st x code ->
       code = LBFGS_SUCCESS \/ code = LBFGS_STOP \/ code = LBFGSERR_MAXIMUMITERATION \/
       x = last (map (fun r => pt_x (s_pt r)) l) (pt_x (l_pt s)) /\ out_of_reach O n F G (match l with [] => t0 | _ => 1 end) x).
  Proof.
    intros C Hst Hlt H. revert t t0 C Hst Hlt.
    induction H as [fuel s r E Hr | fuel s r en E Hr Ea | fuel s r s' l en E Hr Ea H IH]; intros t t0 C Hst Hlt.
    - split; [exact Logic.I|]. intros _ HM Hx st x code [= _ <- _]. right. right. right. split; [reflexivity|].
      exact (proj2 (one_search s t t0 fuel r C Hst Hlt E) Hr HM Hx).
    - split; [split; [exact (proj1 (one_search s t t0 fuel r C Hst Hlt E) Hr)|exact Logic.I]|].
      intros Hn _ _ st x code ->. unfold after_step in Ea. cbv zeta in Ea.
      match type of Ea with context [call_progress progress ?a ?q] =>
        assert (E0 : snd (call_progress progress a q) = 0%Z);
        [unfold call_progress; destruct progress as [h|]; [|reflexivity]; cbn [snd]; specialize (Hn h a q eq_refl);
         destruct (snd (h a q)); congruence|] end.
      rewrite E0 in Ea. cbn [Z.eqb negb] in Ea.
      repeat match type of Ea with (if ?q then _ else _) = _ => destruct q end; try discriminate Ea; injection Ea as _ _ <-; auto.
    - destruct (curv_next n z O MoreThuente f progress F G b e Hf Hck H0 gtol_curved fuel s t r s' C E Hr Ea) as [Ex C'].
      assert (Es' : (l_step s' : R) = 1).
      { apply after_step_next in Ea. destruct Ea as (st & pg & _ & _ & -> & _). reflexivity. }
      destruct (IH _ 1 C' Es' (proj1 (proj2 (proj2 (proj2 (proj2 HO)))))) as [I1 I2].
      split.
      + split; [exact (proj1 (one_search s t t0 fuel r C Hst Hlt E) Hr)|]. rewrite Ex in I1. exact I1.
      + intros Hn HM Hx st x code Een. destruct (I2 Hn HM Hx st x code Een) as [I|[I|[I|[I3 I4]]]]; auto.
        right. right. right. rewrite Ex in I3. split.
        * rewrite I3. clear. cbn [map]. destruct l; [reflexivity|]. exact (last_indep _ _ _ _).
        * destruct l; exact I4.
  Qed.
End Quadratic.

(** ** Calls of fmin_lbfgs *)
Lemma first_step_norm {St} n z (O : options Rnum) (f : objective Rnum St) F G b e st (x0 : list R) :
  computes n z f F G -> checked (to_params O MoreThuente) n b e -> (o_c O : R) = 0 -> length x0 = n -> vanishes z x0 ->
  (l_step (init_state (to_params O MoreThuente) f b e st x0) : R) = 1 / norm n (G x0).
Proof.
  intros Hf Hck H0 Hx Hz. set (P := to_params O MoreThuente). set (s := init_state P f b e st x0).
  assert (Hi : inv n z P F G b e s).
  { apply init_inv; [exact Hf|exact (kf_c n O MoreThuente b e Hck)|split; assumption]. }
  assert (Ex : pt_x (l_pt s) = x0).
  { destruct (eval_at n z f F G Hf st x0 (repeat nzero (length x0)) (conj Hx Hz)) as (E & _). exact E. }
  pose proof (inv_g _ _ _ _ _ _ _ _ Hi) as Eg. rewrite Ex in Eg.
  destruct (inv_gf _ _ _ _ _ _ _ _ Hi) as [Ig _].
  assert (Ed : l_d s = vecncpy (N := Rnum) (pt_g (l_pt s))).
  { pose proof (h_d _ _ _ _ _ _ (init_hist O MoreThuente f b e st x0)) as Ed. fold P s in Ed. rewrite Ed. cbn [differences]. rewrite firstn_nil. unfold dir_of.
    fold P. rewrite (not_owl n O MoreThuente b e Hck H0 : owl P = false). reflexivity. }
  assert (Es : l_step s = vec2norminv (N := Rnum) (l_d s)) by reflexivity. rewrite Es, Ed. unfold vec2norminv, none.
  assert (Hl : length (vecncpy (N := Rnum) (pt_g (l_pt s))) = n) by now apply length_vecncpy.
  rewrite (vec2norm_norm n _ Hl). rn. change (1 / norm n (vecncpy (N := Rnum) (pt_g (l_pt s))) = 1 / norm n (G x0)).
  assert (En : norm n (vecncpy (N := Rnum) (pt_g (l_pt s))) = norm n (pt_g (l_pt s))).
  { unfold norm, dot. f_equal. apply Sum_ext. intros i Hi'. rewrite !(entry_vecncpy n) by assumption. ring. }
  rewrite En, Eg. reflexivity.
Qed.

Lemma steps_log {St} n (O : options Rnum) F G : forall log (l : list (search Rnum (St * list (report Rnum)))),
  Forall2 describes log l -> forall t0 x, quadratic_steps O n F G t0 x (map rep l) -> quadratic_steps O n F G t0 x log.
Proof.
  intros log l H. induction H as [|q r log l Hq H IH]; intros t0 x; [auto|]. cbn [map quadratic_steps].
  destruct Hq as (Q1 & _ & _ & Q4 & Q5). intros [A B]. split.
  - revert A. unfold quadratic_step, rep. cbn [r_x r_ls r_step]. rr. rewrite Q1, Q4, Q5. auto.
  - apply IH. rr. rewrite Q1. exact B.
Qed.

Lemma write_never_stops {N : NumOps} {St} (progress : option (observer N St)) : never_stops progress -> never_stops (Some (write_log progress)).
Proof.
  intros H h st q [= <-]. unfold write_log. destruct progress as [g|]; cbn [snd]; [|exact Logic.I].
  exact (H g (fst st) q eq_refl).
Qed.

Section Calls.
  Context {St : Type}.
  Variables (n : nat) (z : nat -> bool) (O : options Rnum).
  Variable f : objective Rnum St.
  Variable progress : option (observer Rnum St).
  Variables (F : list R -> R) (G : list R -> list R).
  Variables (fuel lsfuel : nat) (st : St) (x0 : list R).
  Hypothesis Hf : computes n z f F G.
  Hypothesis Hx : length x0 = n.
  Hypothesis Hz : vanishes z x0.
  Hypothesis Hs : searches O MoreThuente.
  Hypothesis HQ : quadratic n F G.
  Hypothesis HO : sensible O.
  Hypothesis Hlt : o_min_step O * norm n (G x0) <= 1.
  Let t0 := 1 / norm n (G x0).

  Lemma no_l1 : (o_c O : R) = 0.
  Proof. destruct Hs as [[_ H]|[H _]]; [discriminate|exact H]. Qed.

  Lemma quadratic_call st' log out : recorded O f progress fuel lsfuel st x0 = Some (st', log, out) ->
    quadratic_steps O n F G t0 x0 log /\
    (documented O MoreThuente n -> never_stops progress -> (3 <= o_max_linesearch O)%Z -> (o_xtol O : R) < 1 -> gave_up out ->
     out_of_reach O n F G (match log with [] => t0 | _ => 1 end) (last (map r_x log) x0)).
  Proof.
    intros H. pose proof no_l1 as Hc. unfold recorded in H. rewrite (fmin_unfold O MoreThuente) in H by exact Hs.
    apply minimize_start in H. destruct H as [(code & Ec & H & Ho)|(b & e & Hck & H)].
    { injection H as _ ->. split; [exact Logic.I|]. intros Hd. exfalso. rewrite <- Hx in Hd.
      apply (checked_documented O MoreThuente _ Hs) in Hd. destruct Hd as (b & e & C). apply check_ok in C. rr. congruence. }
    rr. rewrite Hx in Hck. destruct H as [(_ & H & Ho)|(Hm & H)].
    { injection H as _ ->. split; [exact Logic.I|]. intros _ _ _ _ [->|(x & k & -> & _)]; discriminate Ho. }
    cbv zeta in H. set (P := to_params O MoreThuente) in *. set (s := init_state P (keep_log f) b e (st, []) x0) in *.
    assert (Hsn : snd (pt_st (l_pt s)) = []) by reflexivity.
    pose proof (keep_log_computes n z f F G Hf) as Hf'.
    assert (Hs' : pt_x (l_pt s) = x0).
    { destruct (eval_at n z (keep_log f) F G Hf' (st, []) x0 (repeat nzero (length x0)) (conj Hx Hz)) as (E & _). exact E. }
    destruct H as [(_ & H & Ho)|(Ev & l & en & Hr & H & Ho)].
    { rewrite <- H in Hsn. cbn [snd] in Hsn. subst log. split; [exact Logic.I|].
      intros _ _ _ _ [->|(x & k & -> & _)]; discriminate Ho. }
    assert (Eo : owl P = false) by exact (not_owl n O MoreThuente b e Hck Hc). rewrite Eo in Ev.
    pose proof (init_curv n z O MoreThuente (keep_log f) F G b e Hf' Hck Hc (st, []) x0 Hx Hz Ev) as C. fold P s in C.
    pose proof (first_step_norm n z O (keep_log f) F G b e (st, []) x0 Hf' Hck Hc Hx Hz) as Est. fold P s in Est.
    assert (Hn : 0 < norm n (G x0)).
    { pose proof (cu_inv _ _ _ _ _ _ _ _ _ _ C) as Ci. destruct (inv_x _ _ _ _ _ _ _ _ Ci) as [Ix _]. destruct (inv_gf _ _ _ _ _ _ _ _ Ci) as [Ig _].
      pose proof (gradient_nonzero n O MoreThuente b e Hck _ _ Ix Ig Ev) as Q. rewrite (inv_g _ _ _ _ _ _ _ _ Ci), Hs' in Q. exact Q. }
    assert (Hlt' : (o_min_step O : R) <= 1 / norm n (G x0)).
    { apply (Rmult_le_reg_r (norm n (G x0))); [exact Hn|]. unfold Rdiv. rewrite Rmult_1_l, Rinv_l by lra. exact Hlt. }
    destruct (run_quadratic n z O (keep_log f) (Some (write_log progress)) F G b e Hf' Hck Hc HQ HO s _ _ l en C Est Hlt' Hr) as [R0 R0'].
    destruct (run_log P f progress b e s l en (kf_ls n O MoreThuente b e Hck) Hr) as (reps & R1 & R2 & R3).
    rewrite Hsn in R1. cbn [app] in R1. rewrite <- H in R1. cbn [snd] in R1. subst reps.
    rewrite Hs' in R0, R0'. split; [exact (steps_log n O F G log l R2 _ _ R0)|].
    intros _ Hns HM Hxt Hg. destruct en as [st1 x1 code|]; [|subst out; destruct Hg as [Hg|(x & k & Hg & _)]; discriminate Hg].
    assert (Em : map r_x log = map (fun r => pt_x (s_pt r)) l).
    { clear - R2. induction R2 as [|q r log l Hq H IH]; [reflexivity|]. cbn [map]. f_equal; [apply Hq|exact IH]. }
    destruct (R0' (write_never_stops progress Hns) HM Hxt st1 x1 code eq_refl) as [K|[K|[K|[K1 K2]]]].
    - exfalso. subst code out. destruct Hg as [Hg|(x & k & Hg & _)]; discriminate Hg.
    - exfalso. subst code out. destruct Hg as [Hg|(x & k & Hg & _)]; discriminate Hg.
    - exfalso. subst code out. destruct Hg as [Hg|(x & k & Hg & Hk)]; [discriminate Hg|]. injection Hg as _ <-. now apply Hk.
    - rr. rewrite Em. rewrite <- K1. destruct R2; exact K2.
  Qed.
End Calls.
