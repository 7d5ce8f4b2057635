(** Proofs about copies of a feature (C132). *)
From Coq Require Import ZArith String List Bool Arith Lia Reals Lra Psatz.
From Verif Require Import Prelude F64 Num Model_Intersection Model_Fit Model_Scores Model_Refit Model_Rescale Model_Poisson Model_Linear Model_Estimation Model_Selection
  Proofs_Intersection Spec_Rescale Proofs_Rescale Spec_Poisson Proofs_Poisson Spec_Linear Proofs_Linear
  Proofs_LinearUnits Spec_Estimation Proofs_Estimation Proofs_Estimation2 Proofs_Estimation3 Spec_Choice Proofs_Choice Spec_Units Spec_Flat Proofs_Flat Proofs_FlatCount Spec_Copies.
Import ListNotations.
Local Open Scope R_scope.

(** ** Two coefficients replaced *)
Definition put (c : list R) (j k : nat) (a b : R) : list R := upd (upd c j a) k b.

Section Put.
  Variables (p : nat) (c : list R) (j k : nat) (a b : R).
  Hypothesis Lc : length c = p.
  Hypothesis Hj : (j < p)%nat.
  Hypothesis Hk : (k < p)%nat.
  Hypothesis Hjk : j <> k.
  Lemma length_put : length (put c j k a b) = p.
  Proof. unfold put. rewrite length_upd; rewrite length_upd; lia. Qed.
  Lemma entry_put q : entry (put c j k a b) q = if Nat.eqb q k then b else if Nat.eqb q j then a else entry c q.
  Proof. unfold put. rewrite entry_upd by (rewrite length_upd; lia). destruct (Nat.eqb q k); [reflexivity|]. apply entry_upd. lia. Qed.
  Lemma Sum_put (g : nat -> R -> R) : Sum p (fun q => g q (entry (put c j k a b) q)) = Sum p (fun q => g q (entry c q)) - g j (entry c j) - g k (entry c k) + g j a + g k b.
  Proof.
    rewrite (Sum_ext p _ (fun q => if Nat.eqb q k then g k b else (fun q => if Nat.eqb q j then g j a else g q (entry c q)) q)).
    - rewrite (Sum_at p k (fun q => if Nat.eqb q j then g j a else g q (entry c q)) (g k b) Hk).
      rewrite (Sum_at p j (fun q => g q (entry c q)) (g j a) Hj). destruct (Nat.eqb_spec k j); [lia|]. ring.
    - intros q _. rewrite entry_put. destruct (Nat.eqb_spec q k) as [->|]; [reflexivity|]. destruct (Nat.eqb_spec q j) as [->|]; reflexivity.
  Qed.
  Lemma eta_put X (b0 : R) i : mat X i j = mat X i k -> a + b = entry c j + entry c k -> eta p X (put c j k a b) b0 i = eta p X c b0 i.
  Proof.
    intros E S0. unfold eta. rewrite (Sum_put (fun q v => mat X i q * v)). rewrite E.
    replace b with (entry c j + entry c k - a) by lra. ring.
  Qed.
End Put.

Section Solutions.
  Variables (has : bool) (n p : nat) (X : list (list R)) (y : list R) (lam : R) (j k : nat).
  Hypothesis Hj : (j < p)%nat.
  Hypothesis Hk : (k < p)%nat.
  Hypothesis Hjk : j <> k.
  Hypothesis HC : copies n X j k.

  Lemma net_put mix c (a b b0 : R) : length c = p -> a + b = entry c j + entry c k ->
    net n p X y lam mix (put c j k a b) b0 = net n p X y lam mix c b0
      + lam * (mix * (Rabs a + Rabs b - Rabs (entry c j) - Rabs (entry c k)) + (1 - mix) / 2 * (a * a + b * b - entry c j * entry c j - entry c k * entry c k)).
  Proof.
    intros Lc S0. unfold net, penalty. rewrite (Sum_put p c j k a b Lc Hj Hk Hjk (fun _ v => Rabs v)), (Sum_put p c j k a b Lc Hj Hk Hjk (fun _ v => v * v)).
    rewrite (Sum_ext n (fun i => (entry y i - eta p X (put c j k a b) b0 i) * (entry y i - eta p X (put c j k a b) b0 i)) (fun i => (entry y i - eta p X c b0 i) * (entry y i - eta p X c b0 i))).
    - ring.
    - intros i Hi. rewrite (eta_put p c j k a b Lc Hj Hk Hjk X b0 i (HC i Hi) S0). reflexivity.
  Qed.

  (** With some ridge penalty the copies share the coefficient. *)
  Lemma ridge_copies mix c : 0 < lam -> 0 <= mix < 1 -> net_solution has n p X y lam mix c -> entry c j = entry c k.
  Proof.
    intros Hl Hm (b & Lc & Hb & H). set (m := (entry c j + entry c k) / 2).
    specialize (H (put c j k m m) b (length_put p c j k m m Lc Hj Hk Hjk) Hb). rewrite (net_put mix c m m b Lc ltac:(unfold m; lra)) in H.
    assert (A : Rabs m + Rabs m <= Rabs (entry c j) + Rabs (entry c k)).
    { pose proof (Rabs_triang (entry c j) (entry c k)) as T. replace (entry c j + entry c k) with (2 * m) in T by (unfold m; lra). rewrite Rabs_mult, (Rabs_pos_eq 2) in T by lra. lra. }
    assert (Q : m * m + m * m - entry c j * entry c j - entry c k * entry c k = - ((entry c j - entry c k) * (entry c j - entry c k)) / 2) by (unfold m; field).
    rewrite Q in H. set (d := entry c j - entry c k) in *. destruct (Req_dec d 0) as [E|E]; [unfold d in E; lra|exfalso].
    assert (D : 0 < d * d) by (pose proof (Rsqr_pos_lt d E) as P; exact P).
    assert (U : mix * (Rabs m + Rabs m - Rabs (entry c j) - Rabs (entry c k)) <= 0) by nra.
    assert (V : (1 - mix) / 2 * (- (d * d) / 2) < 0) by nra.
    assert (W : lam * (mix * (Rabs m + Rabs m - Rabs (entry c j) - Rabs (entry c k)) + (1 - mix) / 2 * (- (d * d) / 2)) < 0) by nra. lra.
  Qed.

  (** The Lasso does not care which copy it uses. *)
  Lemma lasso_copies c : 0 < lam -> net_solution has n p X y lam 1 c -> net_solution has n p X y lam 1 (put c j k (entry c j + entry c k) 0).
  Proof.
    intros Hl (b & Lc & Hb & H). exists b. split; [exact (length_put p c j k _ _ Lc Hj Hk Hjk)|]. split; [exact Hb|]. intros c' b' Lc' Hb'.
    apply Rle_trans with (2 := H c' b' Lc' Hb'). rewrite (net_put 1 c (entry c j + entry c k) 0 b Lc ltac:(ring)). rewrite Rabs_R0. pose proof (Rabs_triang (entry c j) (entry c k)).
    replace ((1 - 1) / 2) with 0 by field. rewrite Rmult_0_l. nra.
  Qed.
End Solutions.

(** ** Samples and preprocessing *)
Lemma copies_samples n X j k rows : copies n X j k -> (forall i, In i rows -> (i < n)%nat) -> copies (length rows) (samples X rows) j k.
Proof.
  intros H Hr i Hi. unfold mat, samples. rewrite (nth_indep _ [] (nth 0 X [])) by (rewrite map_length; exact Hi). rewrite (map_nth (fun i => nth i X [])).
  apply H, Hr, nth_In. exact Hi.
Qed.
Lemma copies_pre standardize has n p X y j k : matrix n p X -> length y = n -> (0 < n)%nat -> (j < p)%nat -> (k < p)%nat -> copies n X j k ->
  copies n (fst (linear_pre (N := Rnum) standardize has p X y)) j k.
Proof.
  intros HX Ly Hn Hj Hk H i Hi. destruct standardize.
  - rewrite (pre_X has n p X y HX Hn i j Hi Hj), (pre_X has n p X y HX Hn i k Hi Hk), (H i Hi).
    assert (E : col n X j = col n X k) by (unfold col; apply map_ext_in; intros r Hr; apply in_seq in Hr; apply H; lia). now rewrite E.
  - unfold linear_pre. cbn [fst]. unfold base_transform. cbn [fst]. rewrite map_id. now apply H.
Qed.

(** ** Supports *)
Lemma select_same p X (y : list R) ts (net : solver_net (N := Rnum)) qs sel j k : (j < p)%nat -> (k < p)%nat ->
  (forall sp q, In sp sel -> In q qs ->
     let c := apply_params (N := Rnum) net (samples X (fst sp)) (part_y y (fst sp)) q in entry c j = entry c k) ->
  forall mask, In mask (selection_module (N := Rnum) net p ts qs sel X y) -> nth j mask false = nth k mask false.
Proof.
  intros Hj Hk Hsol mask Hm. unfold selection_module in Hm. apply (proj1 (usort_rows_in _ _)) in Hm. apply in_flat_map in Hm as (t & Ht' & Hm).
  unfold stable_rows in Hm. apply in_map_iff in Hm as (r & <- & Hr). apply in_seq in Hr. destruct Hr as [_ Hr]. cbn [Nat.add] in Hr.
  set (f := fun j => (t <=? Z.of_nat (count (fun b => nnonzero (N := Rnum) (nth j (nth r b []) nzero)) (map (selection_sweep (N := Rnum) net X y qs) sel)))%Z).
  assert (N0 : forall q, (q < p)%nat -> nth q (map f (seq 0 p)) false = f q).
  { intros q Hq. rewrite (nth_indep _ false (f 0%nat)) by (rewrite map_length, seq_length; exact Hq). rewrite map_nth, seq_nth by exact Hq. reflexivity. }
  refine (eq_trans (N0 j Hj) (eq_trans _ (eq_sym (N0 k Hk)))). unfold f. do 2 f_equal. rewrite !count_map. apply count_ext. intros sp Hsp.
  set (q0 := RegAlpha (L := R) (A := R) 0). pose proof (Hsol sp (nth r qs q0) Hsp (nth_In _ _ Hr)) as Ez. cbv zeta in Ez.
  unfold selection_sweep.
  assert (E : nth r (map (apply_params (N := Rnum) net (matrix_rows X (fst sp)) (take_rows y (fst sp))) qs) []
    = apply_params (N := Rnum) net (samples X (fst sp)) (part_y y (fst sp)) (nth r qs q0)).
  { rewrite (nth_indep _ [] (apply_params (N := Rnum) net (matrix_rows X (fst sp)) (take_rows y (fst sp)) q0)) by (rewrite map_length; exact Hr).
    rewrite map_nth. rewrite part_y_take. reflexivity. }
  rr. rewrite E. unfold entry in Ez. change (nzero (N := Rnum)) with 0. rr. now rewrite Ez.
Qed.

Lemma elastic_copies standardize has n p X (y : list R) eps num alphas ts (net : solver_net (N := Rnum)) sel j k :
  matrix n p X -> length y = n -> (0 < n)%nat -> (j < p)%nat -> (k < p)%nat -> j <> k -> copies n X j k ->
  (forall a, In a alphas -> 0 < a < 1) ->
  let D := linear_pre (N := Rnum) standardize has p X y in
  (forall sp (lam mix : R) g, In sp sel -> elastic_reg_params (N := Rnum) has p (fst D) (snd D) eps num alphas = Ok g -> In (RegPair lam mix) g ->
     let Xr := samples (fst D) (fst sp) in let yr := part_y (snd D) (fst sp) in
     (forall i, In i (fst sp) -> (i < n)%nat) /\ net_solution has (length (fst sp)) p Xr yr lam mix (net Xr yr lam mix)) ->
  forall mask, In mask (elastic_select (N := Rnum) has p eps num alphas net ts sel (fst D) (snd D)) -> nth j mask false = nth k mask false.
Proof.
  intros HX Ly Hn Hj Hk Hjk HC Ha D Hsol mask Hm. pose proof (copies_pre standardize has n p X y j k HX Ly Hn Hj Hk HC) as HD. fold D in HD.
  unfold elastic_select in Hm. destruct (elastic_reg_params (N := Rnum) has p (fst D) (snd D) eps num alphas) as [g|] eqn:Eg; cbn [rmap select_with] in Hm; [|destruct Hm].
  refine (select_same p (fst D) (snd D) ts net g sel j k Hj Hk _ mask Hm). intros sp q Hsp Hq.
  unfold elastic_reg_params in Eg. destruct (mapM (fun a : Rnum => alpha_grid (N := Rnum) has p (fst D) (snd D) a eps num) alphas) as [gs|] eqn:Em; cbn [rmap] in Eg; [|discriminate]. injection Eg as <-.
  destruct (pairs_in alphas gs q Hq) as (a & gr & lam & -> & Hag & Hl). destruct (mapM_combine _ _ _ Em a gr Hag) as [Hina Ea]. cbn [apply_params].
  destruct (Hsol sp lam a _ Hsp eq_refl Hq) as [Hr S0]. pose proof (Ha a Hina).
  exact (ridge_copies has _ p _ _ lam j k Hj Hk Hjk (copies_samples n _ j k (fst sp) HD Hr) a _ (grid_pos has p _ _ a eps num gr Ea lam Hl) ltac:(lra) S0).
Qed.

(** ** A solver that takes the first copy for one training response and the second for others *)
Definition same_numbers (u v : list R) : bool := if list_eq_dec Req_EM_T u v then true else false.
Definition wavering (j k : nat) (y1 : list R) (net : solver_net (N := Rnum)) : solver_net (N := Rnum) := fun X y lam mix =>
  let c := net X y lam mix in
  if same_numbers y y1 then put c j k (entry c j + entry c k) 0 else put c k j (entry c k + entry c j) 0.

Lemma filter_at_most {A} (f : A -> bool) l : (length (filter f l) <= length l)%nat.
Proof. induction l as [|x l IH]; cbn [filter length]; [lia|]. destruct (f x); cbn [length]; lia. Qed.
Lemma filter_less {A} (f : A -> bool) l a : In a l -> f a = false -> (length (filter f l) < length l)%nat.
Proof.
  induction l as [|x l IH]; intros Ha Hf; [destruct Ha|]. cbn [filter length]. destruct Ha as [->|Ha].
  - rewrite Hf. pose proof (filter_at_most f l). lia.
  - specialize (IH Ha Hf). destruct (f x); cbn [length]; lia.
Qed.

Lemma lasso_wavering standardize has metric target n p X (y : list R) eps num ts (net : solver_net (N := Rnum)) (ols : solver_ls (N := Rnum)) sel est j k :
  matrix n p X -> length y = n -> (0 < n)%nat -> (j < p)%nat -> (k < p)%nat -> j <> k -> copies n X j k -> est <> [] ->
  let D := linear_pre (N := Rnum) standardize has p X y in
  let solves (s : solver_net (N := Rnum)) := forall sp (lam : R) (g : list R), In sp sel -> lasso_grid (N := Rnum) has p (fst D) (snd D) eps num = Ok g -> In lam g ->
     let Xr := samples (fst D) (fst sp) in let yr := part_y (snd D) (fst sp) in
     net_solution has (length (fst sp)) p Xr yr lam 1 (s Xr yr lam 1) in
  (forall sp, In sp sel -> forall i, In i (fst sp) -> (i < n)%nat) -> solves net ->
  (forall t, In t ts -> t = Z.of_nat (length sel)) ->
  (exists sp sp', In sp sel /\ In sp' sel /\ part_y (snd D) (fst sp) <> part_y (snd D) (fst sp')) ->
  exists net' : solver_net (N := Rnum), solves net' /\
    (forall mask, In mask (lasso_select (N := Rnum) has p eps num net' ts sel (fst D) (snd D)) -> nth j mask false = false /\ nth k mask false = false) /\
    forall c b, lasso_fit (N := Rnum) standardize has eps num ts metric target p net' ols sel est X y = Ok (c, b) -> entry c j = 0 /\ entry c k = 0.
Proof.
  intros HX Ly Hn Hj Hk Hjk HC Hest D solves Hr Hs Ht (s1 & s2 & H1 & H2 & Hne). pose proof (copies_pre standardize has n p X y j k HX Ly Hn Hj Hk HC) as HD. fold D in HD.
  set (y1 := part_y (snd D) (fst s1)). set (net' := wavering j k y1 net).
  assert (S' : solves net').
  { intros sp lam g Hsp Eg Hl Xr yr. pose proof (Hs sp lam g Hsp Eg Hl) as S0. cbv zeta in S0. fold Xr yr in S0. pose proof (grid_pos has p _ _ 1 eps num g Eg lam Hl) as Pl.
    pose proof (copies_samples n _ j k (fst sp) HD (Hr sp Hsp)) as C1. assert (C2 : copies (length (fst sp)) Xr k j) by (intros i Hi; symmetry; now apply C1).
    unfold net', wavering. destruct (same_numbers yr y1).
    - exact (lasso_copies has _ p _ _ lam j k Hj Hk Hjk C1 _ Pl S0).
    - exact (lasso_copies has _ p _ _ lam k j Hk Hj (not_eq_sym Hjk) C2 _ Pl S0). }
  exists net'. split; [exact S'|].
  set (first := fun sp : Model_Fit.split => same_numbers (part_y (snd D) (fst sp)) y1).
  assert (F1 : first s1 = true) by (unfold first, same_numbers, y1; destruct (list_eq_dec _ _ _); [reflexivity|easy]).
  assert (F2 : first s2 = false) by (unfold first, same_numbers, y1; destruct (list_eq_dec _ _ _) as [E|]; [symmetry in E; now elim Hne|reflexivity]).
  assert (M : forall mask, In mask (lasso_select (N := Rnum) has p eps num net' ts sel (fst D) (snd D)) -> nth j mask false = false /\ nth k mask false = false).
  { intros mask Hm. unfold lasso_select in Hm. destruct (lasso_grid (N := Rnum) has p (fst D) (snd D) eps num) as [g|] eqn:Eg; cbn [rmap select_with] in Hm; [|destruct Hm]. split.
    - refine (select_zero first p (fst D) (snd D) ts net' (map RegAlpha g) sel j Hj _ _ mask Hm).
      + intros t Hti. rewrite (Ht t Hti). apply Nat2Z.inj_lt. exact (filter_less first sel s2 H2 F2).
      + intros sp q Hsp Hi Hq. apply in_map_iff in Hq as (lam & <- & Hl). cbn [apply_params]. destruct (Hs sp lam g Hsp eq_refl Hl) as (b & Lc & _).
        unfold net', wavering. unfold first in Hi. rewrite Hi. change (none (N := Rnum)) with 1. rewrite (entry_put p) by (assumption || exact (not_eq_sym Hjk)).
        now rewrite Nat.eqb_refl.
    - refine (select_zero (fun sp => negb (first sp)) p (fst D) (snd D) ts net' (map RegAlpha g) sel k Hk _ _ mask Hm).
      + intros t Hti. rewrite (Ht t Hti). apply Nat2Z.inj_lt. apply (filter_less _ sel s1 H1). now rewrite F1.
      + intros sp q Hsp Hi Hq. apply in_map_iff in Hq as (lam & <- & Hl). cbn [apply_params]. destruct (Hs sp lam g Hsp eq_refl Hl) as (b & Lc & _).
        unfold net', wavering. apply negb_false_iff in Hi. unfold first in Hi. rewrite Hi. change (none (N := Rnum)) with 1. rewrite (entry_put p) by (assumption || exact (not_eq_sym Hjk)).
        now rewrite Nat.eqb_refl. }
  split; [exact M|]. intros c b E. unfold lasso_fit in E. split.
  - exact (fit_flat standardize has metric target n p X y ols _ est c b j HX Hn Hj Hest (fun mask Hm => proj1 (M mask Hm)) E).
  - exact (fit_flat standardize has metric target n p X y ols _ est c b k HX Hn Hk Hest (fun mask Hm => proj2 (M mask Hm)) E).
Qed.
