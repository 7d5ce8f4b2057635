(** Proofs about features without information (C124). *)
From Coq Require Import ZArith String List Bool Arith Lia Reals Lra Psatz.
From Verif Require Import Prelude F64 Num Model_Intersection Model_Fit Model_Scores Model_Refit Model_Rescale Model_Poisson Model_Linear Model_Estimation Model_Selection
  Proofs_Intersection Spec_Rescale Proofs_Rescale Spec_Poisson Proofs_Poisson Proofs_PoissonOpt Spec_Linear Proofs_Linear
  Proofs_LinearUnits Spec_Estimation Proofs_Estimation Proofs_Estimation2 Proofs_Estimation3 Spec_Units Spec_Flat.
Import ListNotations.
Local Open Scope R_scope.

(** ** A minimizer does not use a flat feature *)
Lemma minimizer_flat has k p X y lam mix c b j v : 0 < lam -> 0 < mix <= 1 -> (j < p)%nat ->
  (forall i, (i < k)%nat -> mat X i j = v) -> (has = false -> v = 0) ->
  net_minimizer has k p X y lam mix c b -> entry c j = 0.
Proof.
  intros Hl Hm Hj Hv H0 (Lc & Hb & H). assert (Hj' : (j < length c)%nat) by lia.
  assert (Lu : length (upd c j 0) = p) by (rewrite length_upd by exact Hj'; exact Lc).
  specialize (H (upd c j 0) (b + v * entry c j) Lu ltac:(intro E; rewrite (Hb E), (H0 E); ring)).
  assert (He : forall i, (i < k)%nat -> eta p X (upd c j 0) (b + v * entry c j) i = eta p X c b i).
  { intros i Hi. unfold eta. rewrite (Sum_ext p _ (fun q => if Nat.eqb q j then 0 else mat X i q * entry c q)).
    - rewrite (Sum_at p j (fun q => mat X i q * entry c q) 0 Hj), (Hv i Hi). ring.
    - intros q _. rewrite entry_upd by exact Hj'. destruct (Nat.eqb q j); ring. }
  unfold net in H. rewrite (Sum_ext k (fun i => (entry y i - eta p X (upd c j 0) (b + v * entry c j) i) * (entry y i - eta p X (upd c j 0) (b + v * entry c j) i))
    (fun i => (entry y i - eta p X c b i) * (entry y i - eta p X c b i))) in H by (intros i Hi; now rewrite He).
  unfold penalty in H.
  rewrite (Sum_ext p (fun q => Rabs (entry (upd c j 0) q)) (fun q => if Nat.eqb q j then 0 else Rabs (entry c q))) in H
    by (intros q _; rewrite entry_upd by exact Hj'; destruct (Nat.eqb q j); [apply Rabs_R0|reflexivity]).
  rewrite (Sum_ext p (fun q => entry (upd c j 0) q * entry (upd c j 0) q) (fun q => if Nat.eqb q j then 0 else entry c q * entry c q)) in H
    by (intros q _; rewrite entry_upd by exact Hj'; destruct (Nat.eqb q j); ring).
  rewrite (Sum_at p j (fun q => Rabs (entry c q)) 0 Hj), (Sum_at p j (fun q => entry c q * entry c q) 0 Hj) in H.
  assert (P : lam * (mix * Rabs (entry c j) + (1 - mix) / 2 * (entry c j * entry c j)) <= 0) by lra.
  destruct (Req_EM_T (entry c j) 0) as [E|E]; [exact E|exfalso].
  pose proof (Rabs_pos_lt _ E) as A. pose proof (Rmult_lt_0_compat _ _ (proj1 Hm) A) as B. pose proof (Rle_0_sqr (entry c j)) as C. unfold Rsqr in C.
  pose proof (Rmult_le_pos ((1 - mix) / 2) _ ltac:(lra) C) as G. pose proof (Rmult_lt_0_compat lam _ Hl (Rplus_lt_le_0_compat _ _ B G)). lra.
Qed.

(** ** Penalties are positive *)
Lemma pow10_pos (x : R) : 0 < pow10 (N := Rnum) x.
Proof. unfold pow10. cbn. apply exp_pos. Qed.
Lemma grid_pos has p X y (mix eps : R) num g : alpha_grid (N := Rnum) has p X y mix eps num = Ok g -> forall lam : R, In lam g -> 0 < lam.
Proof.
  unfold alpha_grid. destruct (neqb mix nzero); [discriminate|]. destruct (nleb _ resolution); intro E; injection E as <-; intros lam H.
  - apply repeat_spec in H. rewrite H. unfold resolution, none. cbn [ndiv nofZ Rnum]. apply Rdiv_lt_0_compat; apply IZR_lt; lia.
  - apply in_rev in H. unfold logspace in H. apply in_map_iff in H as (x & <- & _). apply pow10_pos.
Qed.

(** ** Supports *)
Lemma count_le_filter {A} (f g : A -> bool) l : (forall a, In a l -> g a = false -> f a = false) -> (count f l <= length (filter g l))%nat.
Proof.
  induction l as [|a l IH]; intro H; [apply Nat.le_refl|]. cbn [count filter]. specialize (IH (fun b Hb => H b (or_intror Hb))).
  destruct (g a) eqn:E; cbn [length]; [destruct (f a); lia|]. rewrite (H a (or_introl eq_refl) E). lia.
Qed.
Lemma count_map {A B} (f : A -> B) (q : B -> bool) l : count q (map f l) = count (fun a => q (f a)) l.
Proof. induction l as [|a l IH]; [reflexivity|]. cbn [map count]. now rewrite IH. Qed.

Lemma select_flat has (informative : Model_Fit.split -> bool) p X (y : list R) ts (net : solver_net (N := Rnum)) qs sel j : (j < p)%nat ->
  (forall t, In t ts -> (Z.of_nat (length (filter informative sel)) < t)%Z) ->
  (forall sp, In sp sel -> informative sp = false -> flat has X (fst sp) j) ->
  (forall sp q, In sp sel -> informative sp = false -> In q qs -> exists lam mix, 0 < lam /\ 0 < mix <= 1 /\
     net_solution has (length (fst sp)) p (samples X (fst sp)) (part_y y (fst sp)) lam mix
       (apply_params (N := Rnum) net (samples X (fst sp)) (part_y y (fst sp)) q)) ->
  forall mask, In mask (selection_module (N := Rnum) net p ts qs sel X y) -> length mask = p /\ nth j mask false = false.
Proof.
  intros Hj Ht Hf Hsol mask Hm. unfold selection_module in Hm. apply (proj1 (usort_rows_in _ _)) in Hm. apply in_flat_map in Hm as (t & Ht' & Hm).
  unfold stable_rows in Hm. apply in_map_iff in Hm as (r & <- & Hr). split; [now rewrite map_length, seq_length|].
  rewrite (nth_indep _ false ((fun j => (t <=? Z.of_nat (count (fun b => nnonzero (N := Rnum) (nth j (nth r b []) nzero)) (map (selection_sweep (N := Rnum) net X y qs) sel)))%Z) 0%nat))
    by (rewrite map_length, seq_length; exact Hj).
  rewrite (map_nth (fun j => (t <=? Z.of_nat (count (fun b => nnonzero (N := Rnum) (nth j (nth r b []) nzero)) (map (selection_sweep (N := Rnum) net X y qs) sel)))%Z)), seq_nth by exact Hj.
  apply Z.leb_gt. cbn [Nat.add]. refine (Z.le_lt_trans _ _ _ _ (Ht t Ht')). apply Nat2Z.inj_le. rewrite count_map. apply count_le_filter.
  intros sp Hsp Hi. apply in_seq in Hr. destruct Hr as [_ Hr]. cbn [Nat.add] in Hr. set (q0 := RegAlpha (L := R) (A := R) 0).
  destruct (Hf sp Hsp Hi) as (v & Hv & H0).
  destruct (Hsol sp (nth r qs q0) Hsp Hi (nth_In _ _ Hr)) as (lam & mix & Hl & Hmix & b & HS).
  unfold selection_sweep.
  assert (E : nth r (map (apply_params (N := Rnum) net (matrix_rows X (fst sp)) (take_rows y (fst sp))) qs) []
    = apply_params (N := Rnum) net (samples X (fst sp)) (part_y y (fst sp)) (nth r qs q0)).
  { rewrite (nth_indep _ [] (apply_params (N := Rnum) net (matrix_rows X (fst sp)) (take_rows y (fst sp)) q0)) by (rewrite map_length; exact Hr).
    rewrite map_nth. rewrite part_y_take. reflexivity. }
  rr. rewrite E. 
  assert (Ez : entry (apply_params (N := Rnum) net (samples X (fst sp)) (part_y y (fst sp)) (nth r qs q0)) j = 0).
  { refine (minimizer_flat has _ p _ _ lam mix _ b j v Hl Hmix Hj _ H0 HS). intros i Hi'. rewrite <- (Hv (nth i (fst sp) 0%nat)) by now apply nth_In.
    unfold mat, samples. rewrite (nth_indep _ [] (nth 0 X [])) by (rewrite map_length; exact Hi'). now rewrite (map_nth (fun i => nth i X [])). }
  unfold entry in Ez. unfold nnonzero, nzero. cbn [neqb nofZ Rnum]. rr. rewrite Ez. unfold Reqb. destruct (Req_EM_T 0 0); [reflexivity|easy].
Qed.

(** ** Standardization *)
Lemma flat_pre standardize has n p X y rows j : matrix n p X -> length y = n -> (0 < n)%nat -> (j < p)%nat -> (forall i, In i rows -> (i < n)%nat) ->
  flat has X rows j -> flat has (fst (linear_pre (N := Rnum) standardize has p X y)) rows j.
Proof.
  intros HX Ly Hn Hj Hr (v & Hv & H0). destruct standardize.
  - exists ((v - (if has then average n (col n X j) else 0)) / column_scale (N := Rnum) (col n X j)). split.
    + intros i Hi. rewrite (pre_X has n p X y HX Hn i j (Hr i Hi) Hj), (Hv i Hi). reflexivity.
    + intros ->. rewrite (H0 eq_refl). unfold Rdiv. ring.
  - exists v. split; [|exact H0]. intros i Hi. rewrite <- (Hv i Hi). unfold linear_pre. cbn [fst]. unfold base_transform. cbn [fst]. now rewrite map_id.
Qed.

(** ** Coefficients *)
Lemma mapM_in {A B} (f : A -> result B) l out : mapM f l = Ok out -> forall b, In b out -> exists a, In a l /\ f a = Ok b.
Proof.
  revert out. induction l as [|x l IH]; cbn; intros out H b Hb; [injection H as <-; destruct Hb|].
  destruct (f x) as [v|] eqn:E; cbn [bind] in H; [|discriminate]. destruct (mapM f l) as [vs|]; cbn [bind] in H; [|discriminate]. injection H as <-.
  destruct Hb as [<-|Hb]; [exists x; split; [now left|exact E]|]. destruct (IH vs eq_refl b Hb) as (a & Ha & Ea). exists a. split; [now right|exact Ea].
Qed.
Lemma mapM_length {A B} (f : A -> result B) l out : mapM f l = Ok out -> length out = length l.
Proof.
  revert out. induction l as [|x l IH]; cbn; intros out H; [now injection H as <-|].
  destruct (f x) as [v|]; cbn [bind] in H; [|discriminate]. destruct (mapM f l) as [vs|]; cbn [bind] in H; [|discriminate]. injection H as <-. cbn. now rewrite (IH vs eq_refl).
Qed.
Lemma estimate_flat ols metric target p X y sp mask e j : (j < p)%nat -> nth j mask false = false ->
  estimate_support (N := Rnum) ols metric target p X y sp mask = Ok e -> entry (fst e) j = 0.
Proof.
  intros Hj Hm. unfold estimate_support. destruct (existsb (fun b => b) mask).
  - destruct (linear_score _ _ _ _ _ _ _) as [s|]; cbn [bind]; [|discriminate]. intro E. injection E as <-. cbn [fst]. now apply spread_outside.
  - destruct (linear_score _ _ _ _ _ _ _) as [s|]; cbn [bind]; [|discriminate]. intro E. injection E as <-. cbn [fst]. apply (entry_zeros p j).
Qed.
Lemma module_flat ols metric target p has X y supports splits c b j : (j < p)%nat -> splits <> [] ->
  (forall mask, In mask supports -> nth j mask false = false) ->
  estimation_module (N := Rnum) ols metric target p has X y supports splits = Ok (c, b) -> entry c j = 0.
Proof.
  intros Hj Hs Hm. unfold estimation_module.
  destruct (mapM _ splits) as [best|] eqn:E; cbn [bind]; [|discriminate]. intro E2. injection E2 as <- _.
  unfold bagged. refine (eq_trans (entry_mapseq (fun j => median (N := Rnum) (map (fun e => nth j e nzero) best)) p j Hj) _).
  assert (A : map (fun e : list R => nth j e (nzero (N := Rnum))) best = repeat 0 (length best)).
  { pose proof (mapM_in _ _ _ E) as M. clear E. induction best as [|e l IH]; [reflexivity|]. cbn [map length repeat]. f_equal; [|apply IH; intros x Hx; apply M; now right].
    destruct (M e (or_introl eq_refl)) as (sp & _ & Ee). destruct (mapM (estimate_support (N := Rnum) ols metric target p X y sp) supports) as [out|] eqn:Eo; cbn [bind] in Ee; [|discriminate].
    unfold best_estimate in Ee. destruct (argmax _) as [k|]; cbn [rmap] in Ee; [|discriminate]. injection Ee as <-.
    destruct (le_lt_dec (length (map fst out)) k) as [G|G]; [rewrite (nth_overflow _ _ G); destruct j; reflexivity|].
    pose proof (nth_In _ ([] : list R) G) as I. apply in_map_iff in I as (e' & Ee' & He'). rr. rewrite <- Ee'.
    destruct (mapM_in _ _ _ Eo e' He') as (mask & Hmask & Em). exact (estimate_flat ols metric target p X y sp mask e' j Hj (Hm mask Hmask) Em). }
  rr. rewrite A. apply median_repeat. rewrite (mapM_length _ _ _ E). destruct splits; [easy|cbn; lia].
Qed.
Lemma post_flat standardize has n p X ym ys (c : list R) b j : matrix n p X -> (0 < n)%nat -> (j < p)%nat -> length c = p -> entry c j = 0 ->
  entry (fst (linear_post (N := Rnum) standardize has (fit_scaler (columns p X)) ym ys c b)) j = 0.
Proof.
  intros HX Hn Hj Lc Hc. rewrite (scaler_value n p X HX). unfold linear_post, base_post. destruct standardize; [|exact Hc]. cbn [fst scale_].
  assert (L : length (map2 Rdiv c (scales n p X)) = p) by (rewrite map2_length, Lc, length_scales; apply Nat.min_id).
  refine (eq_trans (entry_mapn (fun v : R => v * ys) p (map2 Rdiv c (scales n p X)) j L Hj) _).
  rewrite (entry_map2n Rdiv p c (scales n p X) j Lc (length_scales n p X) Hj). rewrite Hc. unfold Rdiv. ring.
Qed.

Lemma fit_flat standardize has metric target n p X (y : list R) ols select splits c b j : matrix n p X -> (0 < n)%nat -> (j < p)%nat -> splits <> [] ->
  (let D := linear_pre (N := Rnum) standardize has p X y in forall mask, In mask (select (fst D) (snd D)) -> nth j mask false = false) ->
  regressor_fit (N := Rnum) standardize has metric target p ols select splits X y = Ok (c, b) -> entry c j = 0.
Proof.
  intros HX Hn Hj Hs Hm. unfold regressor_fit. set (D := linear_pre _ _ _ _ _) in *. destruct (constant_response (snd D)); cbn [bind].
  - intro E. injection E as E. refine (eq_trans (f_equal (fun q => entry (fst q) j) (eq_sym E)) _). apply (post_flat standardize has n p X _ _ _ _ j HX Hn Hj); [apply repeat_length|apply (entry_zeros p j)].
  - destruct (estimation_module _ _ _ _ _ _ _ _ _) as [[c0 b0]|] eqn:Em; cbn [bind]; [|discriminate]. intro E. injection E as E.
    refine (eq_trans (f_equal (fun q => entry (fst q) j) (eq_sym E)) _). apply (post_flat standardize has n p X _ _ _ _ j HX Hn Hj); cbn [fst].
    + unfold estimation_module in Em. destruct (mapM _ splits); cbn [bind] in Em; [|discriminate]. injection Em as <- _. unfold bagged. now rewrite map_length, seq_length.
    + exact (module_flat ols metric target p has _ _ _ splits c0 b0 j Hj Hs Hm Em).
Qed.

Lemma pairs_in (alphas : list R) gs q : In q (pairs (L := R) alphas gs) -> exists a g lam, q = RegPair lam a /\ In (a, g) (combine alphas gs) /\ In lam g.
Proof.
  unfold pairs. intro H. apply in_flat_map in H as ((a & g) & Hag & Hq). cbn [fst snd] in Hq. apply in_map_iff in Hq as (lam & <- & Hl). now exists a, g, lam.
Qed.
Lemma mapM_combine {A B} (f : A -> result B) l out : mapM f l = Ok out -> forall a b, In (a, b) (combine l out) -> In a l /\ f a = Ok b.
Proof.
  revert out. induction l as [|x l IH]; cbn; intros out H a b Hab; [destruct Hab|].
  destruct (f x) as [v|] eqn:E; cbn [bind] in H; [|discriminate]. destruct (mapM f l) as [vs|]; cbn [bind] in H; [|discriminate]. injection H as <-.
  destruct Hab as [Hab|Hab]; [injection Hab as <- <-; split; [now left|exact E]|]. destruct (IH vs eq_refl a b Hab) as [H1 H2]. split; [now right|exact H2].
Qed.

(** ** UoI_Lasso and UoI_ElasticNet *)
Section Flat.
  Variables (standardize has : bool) (metric : string) (target n p : nat) (X : list (list R)) (y : list R).
  Variables (eps : R) (num : nat) (ts : list Z) (net : solver_net (N := Rnum)) (ols : solver_ls (N := Rnum)) (sel est : list Model_Fit.split).
  Variables (informative : Model_Fit.split -> bool) (j : nat).
  Hypothesis HX : matrix n p X.
  Hypothesis Ly : length y = n.
  Hypothesis Hn : (0 < n)%nat.
  Hypothesis Hj : (j < p)%nat.
  Hypothesis Hest : est <> [].
  Hypothesis Hflat : forall sp, In sp sel -> informative sp = false -> (forall i, In i (fst sp) -> (i < n)%nat) /\ flat has X (fst sp) j.
  Hypothesis Ht : forall t, In t ts -> (Z.of_nat (length (filter informative sel)) < t)%Z.
  Let D := linear_pre (N := Rnum) standardize has p X y.

  Lemma lasso_flat :
    (forall sp (lam : R) g, In sp sel -> informative sp = false -> lasso_grid (N := Rnum) has p (fst D) (snd D) eps num = Ok g -> In lam g ->
       let Xr := samples (fst D) (fst sp) in let yr := part_y (snd D) (fst sp) in
       net_solution has (length (fst sp)) p Xr yr lam 1 (net Xr yr lam 1)) ->
    (forall mask, In mask (lasso_select (N := Rnum) has p eps num net ts sel (fst D) (snd D)) -> nth j mask false = false) /\
    forall c b, lasso_fit (N := Rnum) standardize has eps num ts metric target p net ols sel est X y = Ok (c, b) -> entry c j = 0.
  Proof.
    intro Hsol.
    assert (M : forall mask, In mask (lasso_select (N := Rnum) has p eps num net ts sel (fst D) (snd D)) -> nth j mask false = false).
    { intros mask Hm. unfold lasso_select in Hm. destruct (lasso_grid (N := Rnum) has p (fst D) (snd D) eps num) as [g|] eqn:Eg; cbn [rmap select_with] in Hm; [|destruct Hm].
      refine (proj2 (select_flat has informative p (fst D) (snd D) ts net (map RegAlpha g) sel j Hj Ht _ _ mask Hm)).
      - intros sp Hsp Hi. destruct (Hflat sp Hsp Hi) as [Hr F]. exact (flat_pre standardize has n p X y (fst sp) j HX Ly Hn Hj Hr F).
      - intros sp q Hsp Hi Hq. apply in_map_iff in Hq as (lam & <- & Hl). exists lam, 1. split; [exact (grid_pos has p _ _ 1 eps num g Eg lam Hl)|].
        split; [lra|]. exact (Hsol sp lam g Hsp Hi eq_refl Hl). }
    split; [exact M|]. intros c b E. exact (fit_flat standardize has metric target n p X y ols _ est c b j HX Hn Hj Hest M E).
  Qed.

  Variable alphas : list R.
  Hypothesis Ha : forall a, In a alphas -> 0 < a <= 1.
  Lemma elastic_flat :
    (forall sp (lam mix : R) g, In sp sel -> informative sp = false -> elastic_reg_params (N := Rnum) has p (fst D) (snd D) eps num alphas = Ok g -> In (RegPair lam mix) g ->
       let Xr := samples (fst D) (fst sp) in let yr := part_y (snd D) (fst sp) in
       net_solution has (length (fst sp)) p Xr yr lam mix (net Xr yr lam mix)) ->
    (forall mask, In mask (elastic_select (N := Rnum) has p eps num alphas net ts sel (fst D) (snd D)) -> nth j mask false = false) /\
    forall c b, elastic_fit (N := Rnum) standardize has eps num alphas ts metric target p net ols sel est X y = Ok (c, b) -> entry c j = 0.
  Proof.
    intro Hsol.
    assert (M : forall mask, In mask (elastic_select (N := Rnum) has p eps num alphas net ts sel (fst D) (snd D)) -> nth j mask false = false).
    { intros mask Hm. unfold elastic_select in Hm. destruct (elastic_reg_params (N := Rnum) has p (fst D) (snd D) eps num alphas) as [g|] eqn:Eg; cbn [rmap select_with] in Hm; [|destruct Hm].
      refine (proj2 (select_flat has informative p (fst D) (snd D) ts net g sel j Hj Ht _ _ mask Hm)).
      - intros sp Hsp Hi. destruct (Hflat sp Hsp Hi) as [Hr F]. exact (flat_pre standardize has n p X y (fst sp) j HX Ly Hn Hj Hr F).
      - intros sp q Hsp Hi Hq. unfold elastic_reg_params in Eg. destruct (mapM (fun a : Rnum => alpha_grid (N := Rnum) has p (fst D) (snd D) a eps num) alphas) as [gs|] eqn:Em; cbn [rmap] in Eg; [|discriminate]. injection Eg as <-.
        destruct (pairs_in alphas gs q Hq) as (a & gr & lam & -> & Hag & Hl).
        destruct (mapM_combine _ _ _ Em a gr Hag) as [Hina Ea]. exists lam, a.
        split; [exact (grid_pos has p _ _ a eps num gr Ea lam Hl)|]. split; [exact (Ha a Hina)|]. exact (Hsol sp lam a _ Hsp Hi eq_refl Hq). }
    split; [exact M|]. intros c b E. exact (fit_flat standardize has metric target n p X y ols _ est c b j HX Hn Hj Hest M E).
  Qed.
End Flat.
