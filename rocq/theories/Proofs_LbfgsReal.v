(** The optimizer over the reals: what every accepted step satisfies. *)
From Coq Require Import ZArith List Bool Arith Reals Lra Lia.
From Verif Require Import Prelude Num Spec_Rescale Proofs_Rescale Model_Lbfgs Proofs_Poisson Spec_Lbfgs
  Proofs_Lbfgs Proofs_LbfgsTrace Proofs_LbfgsVec.
Import ListNotations.
Local Open Scope R_scope.

Ltac rnin H := cbn [nadd nsub nmul ndiv nopp nabs nofZ nleb nltb neqb nexp nln nsqrt nneginf Rnum carrier] in H.
Ltac req := match goal with |- ?a = ?b => change (@eq R a b) end.

(** ** Steps are positive *)
Section Steps.
  Context {St : Type}.
  Variable P : params Rnum.
  Variable f : objective Rnum St.
  Let M := p_max_linesearch P.

  Lemma bt_loop_pos fuel : forall xp s finit dginit dgtest st g (stp : R) count r, 0 < stp ->
    backtracking_loop P f fuel xp s finit dginit dgtest st g stp count = Some r -> 0 < (s_step r : R).
  Proof.
    induction fuel as [|fuel IH]; intros xp s finit dginit dgtest st g stp count r Hs H; [discriminate|].
    cbn [backtracking_loop] in H.
    match type of H with match ?v with Some _ => _ | None => _ end = _ => destruct v as [w|] eqn:Ev end.
    - assert (Hw : 0 < (w : R)).
      { assert (H1 : 0 < (half (N := Rnum) : R)) by (change (0 < 1 / 2); lra).
        assert (H2 : 0 < (inc (N := Rnum) : R)) by (change (0 < 21 / 10); lra).
        repeat match type of Ev with
          | (if ?c then _ else _) = _ => destruct c
          | match ?c with MoreThuente => _ | _ => _ end = _ => destruct c
          end; try discriminate Ev; injection Ev as <-; assumption. }
      destruct (nltb stp (p_min_step P)); [injection H as <-; exact Hs|].
      destruct (nltb (p_max_step P) stp); [injection H as <-; exact Hs|].
      destruct (Z.leb (p_max_linesearch P) (count + 1)); [injection H as <-; exact Hs|].
      apply IH in H; [exact H|]. apply (Rmult_lt_0_compat stp w); assumption.
    - injection H as <-. exact Hs.
  Qed.

  Lemma owl_loop_pos fuel : forall b e xp s gp wp finit st g (stp : R) count r, 0 < stp ->
    owlqn_loop P f fuel b e xp s gp wp finit st g stp count = Some r -> 0 < (s_step r : R).
  Proof.
    induction fuel as [|fuel IH]; intros b e xp s gp wp finit st g stp count r Hs H; [discriminate|].
    cbn [owlqn_loop] in H.
    match type of H with (if ?c then _ else _) = _ => destruct c end; [injection H as <-; exact Hs|].
    destruct (nltb stp (p_min_step P)); [injection H as <-; exact Hs|].
    destruct (nltb (p_max_step P) stp); [injection H as <-; exact Hs|].
    destruct (Z.leb (p_max_linesearch P) (count + 1)); [injection H as <-; exact Hs|].
    apply IH in H; [exact H|]. apply (Rmult_lt_0_compat stp (half (N := Rnum))); [assumption|]. change (0 < 1 / 2); lra.
  Qed.

  Lemma mt_step_range (v : mt_vars Rnum St) : (p_min_step P : R) <= p_max_step P ->
    (i_brackt (mt_iv v) && (mt_outside (mt_iv v) (mt_step P v) || negb (mt_uinfo v =? 0)%Z))%bool = false ->
    (p_min_step P : R) <= mt_step P v <= p_max_step P.
  Proof.
    intros Hm H. unfold mt_step in *. cbv zeta in *.
    set (stp := if nltb (i_t (mt_iv v)) (p_min_step P) then p_min_step P else i_t (mt_iv v)) in *.
    set (stp' := if nltb (p_max_step P) stp then p_max_step P else stp) in *.
    assert (Hr : (p_min_step P : R) <= stp' <= p_max_step P).
    { assert ((p_min_step P : R) <= stp).
      { unfold stp. rn. destruct (Rltb (i_t (mt_iv v)) (p_min_step P)) eqn:E; [apply Rle_refl|apply Rltb_f in E; exact E]. }
      unfold stp'. rn. destruct (Rltb (p_max_step P) stp) eqn:E; [split; [exact Hm|apply Rle_refl]|].
      apply Rltb_f in E. split; assumption. }
    match type of H with context [if ?c then i_x _ else _] => destruct c eqn:E end; [|exact Hr]. exfalso.
    assert (Hb : i_brackt (mt_iv v) = true).
    { destruct (i_brackt (mt_iv v)); [reflexivity|]. cbn in E. discriminate. }
    rewrite Hb in H. cbn [andb] in H. apply orb_false_elim in H. destruct H as [H _].
    unfold mt_outside, mt_stmin, mt_stmax, min2, max2 in H. rewrite Hb in H. rnin H.
    set (x := i_x (mt_iv v)) in *. set (y := i_y (mt_iv v)) in *. rr.
    apply orb_false_elim in H. destruct H as [H1 H2].
    destruct (Rleb x y) eqn:E1; apply Rleb_f in H1; [lra|].
    destruct (Rleb y x) eqn:E2; apply Rleb_f in H2; [lra|]. apply Rleb_f in E1, E2. lra.
  Qed.

  Lemma mt_loop_range fuel : forall xp s finit dginit dgtest v r, (p_min_step P : R) <= p_max_step P ->
    (0 <= mt_count v < M)%Z ->
    morethuente_loop P f fuel xp s finit dginit dgtest v = Some r -> (0 <= s_ret r)%Z ->
    (p_min_step P : R) <= s_step r <= p_max_step P.
  Proof.
    induction fuel as [|fuel IH]; intros xp s finit dginit dgtest v r Hm Hc H Hr; [discriminate|].
    cbn [morethuente_loop] in H. destruct (mt_round P f xp s finit dginit dgtest v) as [v'|r'] eqn:E.
    - apply mt_round_next in E. cbv zeta in E. destruct E as (E1 & E2 & _).
      set (pt := call_eval f (mt_st v) (vecadd xp s (mt_step P v)) (mt_g v)) in *.
      destruct (mt_next_vars P finit dginit dgtest v (mt_step P v) pt (vecdot (pt_g pt) s)) as (F1 & _).
      rewrite <- E1 in F1. apply IH in H; auto. fold M in E2. lia.
    - injection H as <-. apply mt_round_end in E; [|exact Hc]. destruct E as (E1 & E2 & E3). rewrite E1.
      destruct E3 as [(_ & _ & _ & E3)|E3]; [|apply mt_error_neg in E3; lia]. now apply mt_step_range.
  Qed.

  (** Accepted steps are positive; with More-Thuente they lie in [min_step, max_step]. *)
  Lemma search_step fuel b e s r : (0 < M)%Z -> (p_min_step P : R) <= p_max_step P ->
    run_line_search P f fuel b e s = Some r -> (0 <= s_ret r)%Z ->
    if owl P then 0 < (s_step r : R)
    else match p_linesearch P with
         | MoreThuente => (p_min_step P : R) <= s_step r <= p_max_step P
         | _ => 0 < (s_step r : R)
         end.
  Proof.
    intros HM Hm H Hr. unfold run_line_search in H.
    assert (Bt : line_search_backtracking P f fuel (l_pt s) (l_d s) (l_step s) = Some r -> 0 < (s_step r : R)).
    { unfold line_search_backtracking. unfold nzero. rn. destruct (Rleb (l_step s) 0) eqn:Es; [intros [= <-]; exact (False_ind _ (Hr eq_refl))|].
      cbv zeta. destruct (nltb _ _); [intros [= <-]; exact (False_ind _ (Hr eq_refl))|]. apply bt_loop_pos. now apply Rleb_f. }
    destruct (owl P).
    - unfold line_search_owlqn in H. unfold nzero in H. rnin H. destruct (Rleb (l_step s) 0) eqn:Es; [injection H as <-; exact (False_ind _ (Hr eq_refl))|].
      apply owl_loop_pos in H; [exact H|]. now apply Rleb_f.
    - destruct (p_linesearch P); try exact (Bt H).
      unfold line_search_morethuente in H. destruct (nleb _ _); [injection H as <-; exact (False_ind _ (Hr eq_refl))|].
      cbv zeta in H. destruct (nltb _ _); [injection H as <-; exact (False_ind _ (Hr eq_refl))|].
      eapply mt_loop_range; [exact Hm| |exact H|exact Hr]. cbn. lia.
  Qed.
End Steps.

Section Run.
  Context {St : Type}.
  Variables (n : nat) (z : nat -> bool) (P : params Rnum).
  Variable f : objective Rnum St.
  Variable progress : option (observer Rnum St).
  Variables (F : list R -> R) (G : list R -> list R) (b e : nat).
  Hypothesis Hf : computes n z f F G.
  Hypothesis Hc : 0 <= (p_c P : R).
  Hypothesis Hmin : 0 <= (p_min_step P : R).
  Hypothesis Hmax : (p_min_step P : R) <= p_max_step P.
  Hypothesis HM : (0 < p_max_linesearch P)%Z.

  Let c : R := p_c P.
  Let m := Z.to_nat (p_m P).
  Definition F1 (x : list R) : R := F x + c * l1 b e x.
  Definition pgrad (x : list R) : list R := owlqn_pseudo_gradient (N := Rnum) x (G x) c b e.

  Lemma owl_t : owl P = true -> 0 < c.
  Proof. unfold owl, nnonzero, nzero. rn. destruct (Reqb (p_c P) 0) eqn:E; [discriminate|]. apply Reqb_f in E. unfold c. lra. Qed.
  Lemma owl_f : owl P = false -> c = 0.
  Proof. unfold owl, nnonzero, nzero. rn. destruct (Reqb (p_c P) 0) eqn:E; [|discriminate]. apply Reqb_t in E. auto. Qed.

  Lemma eval_at st (x : list R) g : fine n z x ->
    let q := call_eval f st x g in pt_x q = x /\ pt_g q = G x /\ pt_f q = F x /\ fine n z (G x).
  Proof.
    intros [Hl Hv]. destruct (Hf st x g Hl Hv) as (H1 & H2 & H3). unfold call_eval. cbv zeta.
    rewrite H1. cbn. repeat split; auto.
  Qed.

  Record inv (s : state Rnum St) : Prop := mkInv {
    inv_x : fine n z (pt_x (l_pt s));
    inv_g : pt_g (l_pt s) = G (pt_x (l_pt s));
    inv_gf : fine n z (pt_g (l_pt s));
    inv_f : pt_f (l_pt s) = F1 (pt_x (l_pt s));
    inv_pg : owl P = true -> l_pg s = pgrad (pt_x (l_pt s));
    inv_d : fine n z (l_d s);
    inv_dir : owl P = true -> forall i, (i < n)%nat -> in_range b e i = true ->
              entry (l_d s) i * entry (l_pg s) i < 0 \/ entry (l_d s) i = 0;
    inv_lm : length (l_lm s) = m;
    inv_corr : Forall (fine_corr n z) (l_lm s);
    inv_end : (0 < m)%nat -> (l_end s < m)%nat
  }.

  Lemma fine_pgrad x : owl P = true -> fine n z x -> fine n z (G x) -> fine n z (pgrad x).
  Proof. intros Ho Hx Hg. apply fine_pseudo; auto. now apply owl_t. Qed.

  Lemma init_inv st x0 : fine n z x0 -> inv (init_state P f b e st x0).
  Proof.
    intros Hx. unfold init_state. cbv zeta. set (g0 := repeat _ _). destruct (eval_at st x0 g0 Hx) as (E1 & E2 & E3 & E4).
    set (q := call_eval f st x0 g0) in *. rr.
    constructor; cbn [l_pt l_pg l_d l_lm l_end pt_x pt_g pt_f]; rewrite ?E1, ?E2, ?E3; auto.
    - destruct (owl P) eqn:Eo.
      + unfold F1. rn. rewrite x1norm_l1. unfold c. apply f_equal, Rmult_comm.
      + unfold F1. rewrite (owl_f Eo). req. lra.
    - intros Ho. rewrite Ho. reflexivity.
    - destruct (owl P) eqn:Eo; apply fine_vecncpy; [now apply fine_pgrad|exact E4].
    - intros Ho i Hi _. rewrite Ho. pose proof (fine_pgrad x0 Ho Hx E4) as [Hl _]. fold c. change (owlqn_pseudo_gradient x0 (G x0) c b e) with (pgrad x0). 
      rewrite (entry_vecncpy n) by assumption. rr. nra.
    - apply repeat_length.
    - apply Forall_forall. intros it Hit. apply repeat_spec in Hit. subst it. destruct Hx as [Hx _]. rr. rewrite Hx.
      split; cbn [blank c_s c_y]; apply fine_zeros.
  Qed.

  Definition wp_of (x pg : list R) : list R := map2 (fun a g => if Reqb a 0 then - g else a) x pg.

  (** What an accepted step from [x] to [y] satisfies. *)
  Definition owl_step (x y : list R) : Prop :=
    F1 y <= F1 x + p_ftol P * along n (pgrad x) x y /\
    forall i, (i < n)%nat -> in_range b e i = true ->
      0 <= entry x i * entry y i /\ entry (pgrad x) i * (entry y i - entry x i) <= 0 /\
      (entry x i = 0 -> entry y i <> 0 -> entry y i * entry (pgrad x) i < 0).
  Definition plain_step (alg : algorithm) (x y : list R) : Prop :=
    along n (G x) x y <= 0 /\
    F y <= F x + p_ftol P * along n (G x) x y /\
    match alg with
    | Armijo => True
    | Wolfe => curvature n G (p_wolfe P) x y
    | StrongWolfe => strong_curvature n G (p_wolfe P) x y
    | MoreThuente => strong_curvature n G (p_gtol P) x y
    end.

  Lemma along_move v (x d : list R) (t : R) : length v = n -> length x = n -> length d = n ->
    along n v x (vecadd (N := Rnum) x d t) = t * dot n v d.
  Proof.
    intros Hv Hx Hd. unfold along, dot. rewrite <- Sum_scal. apply Sum_ext. intros i Hi.
    rewrite (entry_vecadd n) by assumption. ring.
  Qed.
  Lemma along_vecdiff (v x y : list R) : length v = n -> length x = n -> length y = n ->
    vecdot (N := Rnum) (vecdiff (N := Rnum) y x) v = along n v x y.
  Proof.
    intros Hv Hx Hy. rewrite (vecdot_dot n); [|now apply length_vecdiff|exact Hv]. unfold dot, along. apply Sum_ext. intros i Hi.
    rewrite (entry_vecdiff n) by assumption. ring.
  Qed.

  Lemma step_ok fuel s r : inv s -> run_line_search P f fuel b e s = Some r -> (0 <= s_ret r)%Z ->
    let x := pt_x (l_pt s) in let y := pt_x (s_pt r) in
    fine n z y /\ pt_g (s_pt r) = G y /\ fine n z (G y) /\ pt_f (s_pt r) = F1 y /\
    if owl P then owl_step x y else plain_step (p_linesearch P) x y.
  Proof.
    intros Hi E Hr. pose proof (search_step P f fuel b e s r HM Hmax E Hr) as Hs.
    apply search_end in E; [|exact HM]. destruct E as (k & _ & _ & E). destruct E as [E|(_ & _ & E)]; [lia|].
    unfold accepted in E. cbv zeta in E. destruct E as [_ E].
    destruct Hi as [Ix Ig Igf If Ipg Id Idir Ilm Icorr Iend].
    set (x := pt_x (l_pt s)) in *. destruct (owl P) eqn:Eo.
    - specialize (Ipg eq_refl). specialize (Idir eq_refl). pose proof (owl_t Eo) as Hc0.
      assert (Hpgf : fine n z (pgrad x)) by (apply fine_pgrad; auto; now rewrite <- Ig).
      destruct E as [E1 E2]. destruct E1 as (st & g & E1).
      change (map2 (fun x0 g0 : Rnum => if neqb x0 nzero then nopp g0 else x0) x (l_pg s)) with (wp_of x (l_pg s)) in E1.
      rewrite Ipg in *. set (wp := wp_of x (pgrad x)) in *.
      assert (Hwl : length wp = n) by (apply length_map2n; [apply Ix|apply Hpgf]).
      set (t := s_step r) in *. set (y0 := vecadd x (l_d s) t) in *.
      assert (Hy0 : fine n z y0) by (apply fine_vecadd; assumption).
      set (y := owlqn_project y0 wp b e) in *.
      assert (Hy : fine n z y) by (apply fine_project; assumption).
      destruct (eval_at st y g Hy) as (Q1 & Q2 & Q3 & Q4). cbv zeta in E1. 
      assert (Ey : pt_x (s_pt r) = y) by (rewrite E1; exact Q1).
      assert (Eg : pt_g (s_pt r) = G y) by (rewrite E1; exact Q2).
      assert (Ef : pt_f (s_pt r) = F1 y).
      { rewrite E1. cbn [pt_f]. rewrite Q1, Q3, x1norm_l1. unfold F1. rn. apply f_equal, Rmult_comm. }
      cbv zeta. unfold owl_ok in E2. rewrite Ey, Eg, Ef in *. rewrite If in E2.
      split; [exact Hy|]. split; [reflexivity|]. split; [exact Q4|]. split; [reflexivity|].
      rnin E2. apply Rleb_t in E2. destruct Hpgf as [Hpl _]. destruct Hy as [Hyl _]. destruct Ix as [Hxl _]. destruct Id as [Hdl _].
      rewrite along_vecdiff in E2 by assumption. split; [exact E2|]. intros i Hi Hin.
      destruct Hy0 as [Hy0l _].
      assert (Ei : entry y i = if Rleb (entry y0 i * entry wp i) 0 then 0 else entry y0 i).
      { unfold y. rewrite (entry_project n) by assumption. rewrite Hin. reflexivity. }
      assert (E0 : entry y0 i = entry x i + t * entry (l_d s) i) by (apply (entry_vecadd n); assumption).
      assert (Ew : entry wp i = if Reqb (entry x i) 0 then - entry (pgrad x) i else entry x i).
      { unfold wp, wp_of. rewrite (entry_map2n _ n) by assumption. reflexivity. }
      specialize (Idir i Hi Hin). rr. change (0 < t) in Hs.
      assert (Hd : t * entry (l_d s) i * entry (pgrad x) i <= 0).
      { rewrite Rmult_assoc. destruct Idir as [Hd|Hd]; [|rewrite Hd; nra]. nra. }
      rewrite Ei, Ew, E0 in *. set (xi := entry x i) in *. set (di := entry (l_d s) i) in *. set (pi := entry (pgrad x) i) in *.
      clearbody xi di pi. clear - Hs Hd Idir.
      destruct (Reqb xi 0) eqn:Ex; [apply Reqb_t in Ex|apply Reqb_f in Ex].
      + destruct (Rleb ((xi + t * di) * - pi) 0) eqn:El; [apply Rleb_t in El|apply Rleb_f in El]; subst xi.
        * repeat split; intros; nra.
        * repeat split; intros; nra.
      + destruct (Rleb ((xi + t * di) * xi) 0) eqn:El; [apply Rleb_t in El|apply Rleb_f in El].
        * assert (H1 : 0 < xi * xi) by nra. assert (H2 : t * di * xi < 0) by nra.
          split; [lra|]. split; [|intros; contradiction].
          (* -xi has the sign of di *)
          destruct (Rtotal_order xi 0) as [Hx|[Hx|Hx]]; [|contradiction|].
          -- assert (0 < t * di) by nra. assert (pi <= 0) by nra. nra.
          -- assert (t * di < 0) by nra. assert (0 <= pi) by nra. nra.
        * repeat split; intros; try contradiction; nra.
    - pose proof (owl_f Eo) as Hc0. destruct E as (E0 & E1 & E2). destruct E1 as (st & g & E1).
      set (t := s_step r) in *. set (y := vecadd x (l_d s) t) in *.
      assert (Hy : fine n z y) by (apply fine_vecadd; assumption).
      destruct (eval_at st y g Hy) as (Q1 & Q2 & Q3 & Q4).
      assert (Ey : pt_x (s_pt r) = y) by (rewrite E1; exact Q1).
      assert (Eg : pt_g (s_pt r) = G y) by (rewrite E1; exact Q2).
      assert (Ef : pt_f (s_pt r) = F y) by (rewrite E1; exact Q3).
      assert (EF : forall u, F1 u = F u) by (intros; unfold F1; rewrite Hc0; lra).
      cbv zeta. rewrite Ey, Eg, Ef. split; [exact Hy|]. split; [reflexivity|]. split; [exact Q4|]. split; [now rewrite EF|].
      assert (Ht : 0 <= (t : R)).
      { destruct (p_linesearch P); try (left; exact Hs). apply (Rle_trans _ (p_min_step P)); [exact Hmin|apply Hs]. }
      destruct Ix as [Hxl _]. destruct Id as [Hdl _]. destruct Q4 as [Hgl _]. destruct Igf as [Hg0 _]. rewrite Ig in *.
      rewrite (vecdot_dot n) in E0 by assumption. unfold nzero in E0. rnin E0. apply Rltb_f in E0. change (dot n (G x) (l_d s) <= 0) in E0.
      unfold plain_step, curvature, strong_curvature. rewrite !(along_move _ x (l_d s) t) by assumption. fold y.
      assert (Hbt : p_linesearch P <> MoreThuente -> bt_ok P (pt_f (l_pt s)) (vecdot (G x) (l_d s))
                 (nmul (p_ftol P) (vecdot (G x) (l_d s))) (l_d s) r).
      { destruct (p_linesearch P); intros; try assumption. contradiction. }
      unfold bt_ok, mt_ok in Hbt, E2. rewrite Eg, Ef, If, EF in Hbt, E2.
      rewrite !(vecdot_dot n) in Hbt, E2 by assumption. rnin Hbt. rnin E2. fold t in Hbt. fold t in E2. rr.
      set (D0 := dot n (G x) (l_d s)) in *. set (D1 := dot n (G y) (l_d s)) in *.
      split; [nra|]. destruct (p_linesearch P) eqn:El.
      + destruct E2 as [E2 E3]. apply Rleb_t in E2, E3. split; [nra|].
        rewrite !Rabs_mult, (Rabs_right t) by lra. rewrite (Rabs_left1 D0) by lra. nra.
      + destruct (Hbt ltac:(discriminate)) as (H1 & H2 & H3). apply Rltb_f in H1. split; [nra|exact Logic.I].
      + destruct (Hbt ltac:(discriminate)) as (H1 & H2 & H3). apply Rltb_f in H1. specialize (H2 ltac:(discriminate)). apply Rltb_f in H2.
        split; [nra|]. nra.
      + destruct (Hbt ltac:(discriminate)) as (H1 & H2 & H3). apply Rltb_f in H1. specialize (H2 ltac:(discriminate)). apply Rltb_f in H2.
        specialize (H3 ltac:(discriminate) ltac:(discriminate)). apply Rltb_f in H3. 
        split; [nra|]. rewrite !Rabs_mult, (Rabs_right t) by lra. rewrite (Rabs_left1 D0) by lra.
        assert (Rabs D1 <= p_wolfe P * - D0) by (apply Rabs_le; lra). nra.
  Qed.

  Lemma next_inv s (pt : point Rnum St) pg : inv s -> (0 < m)%nat ->
    fine n z (pt_x pt) -> pt_g pt = G (pt_x pt) -> fine n z (pt_g pt) -> pt_f pt = F1 (pt_x pt) ->
    (owl P = true -> pg = pgrad (pt_x pt)) -> inv (next_state P b e s pt pg).
  Proof.
    intros Hi Hm Hx Hg Hgf HF Hpg. unfold next_state. cbv zeta. fold m.
    destruct Hi as [Ix Ig Igf If Ipg Id Idir Ilm Icorr Iend].
    set (it := mkCorr _ _ _ _). set (lm := lset (l_end s) it (l_lm s)).
    set (d0 := if owl P then vecncpy pg else vecncpy (pt_g pt)).
    set (bound := if Nat.leb m (l_k s) then m else l_k s). set (end' := Nat.modulo (l_end s + 1) m).
    assert (Hlm : length lm = m) by (unfold lm; now rewrite length_lset).
    assert (Hcf : Forall (fine_corr n z) lm).
    { apply Forall_lset; [exact Icorr|]. split; apply fine_vecdiff; assumption. }
    assert (Hpgf : owl P = true -> fine n z pg).
    { intros Ho. rewrite (Hpg Ho). apply fine_pgrad; auto. now rewrite <- Hg. }
    assert (Hd0 : fine n z d0) by (unfold d0; destruct (owl P) eqn:Eo; apply fine_vecncpy; auto).
    assert (He' : (end' < m)%nat) by (apply Nat.mod_upper_bound; lia).
    destruct (first_loop_fine n z m Hm bound end' lm d0 Hlm Hcf Hd0) as (L1 & L2 & L3 & L4). cbv zeta in *.
    set (q := first_loop m bound end' lm d0) in *. specialize (L4 He').
    match goal with |- context [vecscale (snd q) ?t] => set (sc := t) end.
    assert (Hd1 : fine n z (second_loop m bound (fst (fst q)) (snd (fst q)) (vecscale (snd q) sc))).
    { apply second_loop_fine; auto. now apply fine_vecscale. }
    set (d1 := second_loop m bound (fst (fst q)) (snd (fst q)) (vecscale (snd q) sc)) in *.
    constructor; cbn [l_pt l_pg l_d l_lm l_end pt_x pt_g pt_f]; auto.
    - destruct (owl P) eqn:Eo; [|exact Hd1]. apply fine_constrain; [exact Hd1|]. now apply Hpgf.
    - intros Ho i Hi Hin. rewrite Ho. pose proof (Hpgf Ho) as [Hpl _]. destruct Hd1 as [Hdl _].
      rewrite (entry_constrain n) by assumption. rewrite Hin. cbn [andb].
      destruct (Rleb 0 (entry d1 i * entry pg i)) eqn:E; [right; reflexivity|left; now apply Rleb_f].
  Qed.

  Definition sound_point (r : search Rnum St) : Prop :=
    fine n z (pt_x (s_pt r)) /\ pt_g (s_pt r) = G (pt_x (s_pt r)) /\ pt_f (s_pt r) = F1 (pt_x (s_pt r)).
  Definition step_rel (x y : list R) : Prop := if owl P then owl_step x y else plain_step (p_linesearch P) x y.

  Lemma run_sound s l en : inv s -> run P f progress b e s l en ->
    Forall sound_point l /\
    chain step_rel (pt_x (l_pt s)) (map (fun r => pt_x (s_pt r)) l) /\
    forall st x code, en = Done st x code -> x = last (map (fun r => pt_x (s_pt r)) l) (pt_x (l_pt s)).
  Proof.
    intros Hi H. induction H as [fuel s r E Hr | fuel s r en E Hr Ea | fuel s r s' l en E Hr Ea H IH].
    - split; [constructor|]. split; [exact Logic.I|]. intros st x code [= _ <- _]. reflexivity.
    - destruct (step_ok fuel s r Hi E Hr) as (H1 & H2 & H3 & H4 & H5).
      split; [constructor; [repeat split; auto; apply H1|constructor]|]. split; [split; [exact H5|exact Logic.I]|].
      intros st x code Ee. apply after_step_exit in Ea. destruct Ea as (gn & _ & _ & Ea). cbn. eauto.
    - destruct (step_ok fuel s r Hi E Hr) as (H1 & H2 & H3 & H4 & H5).
      apply after_step_next in Ea. destruct Ea as (st & pg & _ & Epg & -> & _ & Hm & _).
      assert (Hi' : inv (next_state P b e s (mkPoint st (pt_x (s_pt r)) (pt_g (s_pt r)) (pt_f (s_pt r))) pg)).
      { apply next_inv; cbn [pt_x pt_g pt_f]; auto; [unfold m; lia|now rewrite H2|]. intros Ho. rewrite Epg, Ho, H2. reflexivity. }
      specialize (IH Hi'). cbn [next_state l_pt pt_x] in IH. destruct IH as (I1 & I2 & I3).
      split; [constructor; [repeat split; auto; apply H1|exact I1]|]. split; [split; [exact H5|exact I2]|].
      intros st' x code Ee. rewrite (I3 _ _ _ Ee). cbn [map].
      destruct (map (fun r0 => pt_x (s_pt r0)) l) eqn:El; [reflexivity|]. cbn [last].
      clear. revert l0. induction l1 as [|a l1 IH]; intros; cbn [last]; auto.
  Qed.
End Run.
