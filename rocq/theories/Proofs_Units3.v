(** Proofs about the units of the response (C123): the whole fit. *)
From Coq Require Import ZArith String List Bool Arith Lia Reals Lra Psatz Permutation Sorted.
From Verif Require Import Prelude F64 Num Model_Intersection Proofs_Intersection Model_Fit Model_Scores Model_Refit Model_Rescale Model_Poisson Model_Linear Model_Estimation Model_Selection
  Spec_Rescale Proofs_Rescale Spec_Poisson Proofs_Poisson Proofs_PoissonOpt Spec_Linear Proofs_Linear
  Proofs_LinearUnits Spec_Estimation Proofs_Estimation Proofs_Estimation2 Proofs_Estimation3 Proofs_Estimation4 Spec_Choice Proofs_Choice Spec_Units Proofs_Units Proofs_Units2.
Import ListNotations.
Local Open Scope R_scope.

Lemma uinsert_cons {A} (cmp : A -> A -> comparison) x l : uinsert cmp x l <> [].
Proof. destruct l as [|y l]; cbn; [discriminate|]. destruct (cmp x y); discriminate. Qed.
Lemma module_length {net p ts params splits X y} mask : In mask (selection_module (N := Rnum) net p ts params splits X y) -> length mask = p.
Proof.
  intro H. apply usort_rows_in, in_flat_map in H as (z & _ & H). apply in_map_iff in H as (r & <- & _). now rewrite map_length, seq_length.
Qed.
Lemma module_cons {net p ts params splits X y} : ts <> [] -> params <> [] -> selection_module (N := Rnum) net p ts params splits X y <> [].
Proof.
  intros Ht Hp. unfold selection_module. destruct ts as [|z ts]; [easy|]. destruct params as [|q params]; [easy|]. cbn [flat_map length stable_rows seq map app].
  apply uinsert_cons.
Qed.

Section Fit.
  Variables (has : bool) (metric : string) (target n p : nat) (X : list (list R)) (y : list R) (s t : R).
  Hypothesis Hs : s <> 0.
  Hypothesis Ht : has = false -> t = 0.
  Hypothesis HX : matrix n p X.
  Hypothesis Ly : length y = n.
  Hypothesis Hmetric : In metric ["r2"; "BIC"; "AIC"; "AICc"]%string.
  Hypothesis Hvar : exists i j, (i < n)%nat /\ (j < n)%nat /\ entry y i <> entry y j.
  Variable ols : solver_ls (N := Rnum).
  Notation y2 := (converted s t y).

  Lemma n_pos : (0 < n)%nat. Proof. destruct Hvar as (i & _ & H & _). lia. Qed.
  Lemma not_constant (v : list R) : length v = n -> (exists i j, (i < n)%nat /\ (j < n)%nat /\ entry v i <> entry v j) -> constant_response (N := Rnum) v = false.
  Proof.
    intros L (i & j & Hi & Hj & D). destruct (constant_response (N := Rnum) v) eqn:C; [|reflexivity]. exfalso.
    apply (constant_spec v) in C as (a & Ha); [|lia]. apply D. rewrite !Ha by lia. reflexivity.
  Qed.
  Lemma varies2 : exists i j, (i < n)%nat /\ (j < n)%nat /\ entry y2 i <> entry y2 j.
  Proof.
    destruct Hvar as (i & j & Hi & Hj & D). exists i, j. split; [exact Hi|]. split; [exact Hj|]. rewrite !entry_converted by lia. intro E. apply D.
    apply (Rmult_eq_reg_l s); [lra|exact Hs].
  Qed.
  Lemma intercept2 c : length c = p -> linear_intercept (N := Rnum) has p X y2 (map (Rmult s) c) = s * linear_intercept (N := Rnum) has p X y c + t.
  Proof.
    intro L. destruct (Bool.bool_dec has true) as [E|E]; [|apply not_true_is_false in E].
    - rewrite E. rewrite (linear_intercept_value n p X y c HX n_pos Ly L).
      rewrite (linear_intercept_value n p X y2 (map (Rmult s) c) HX n_pos (eq_trans (length_converted s t y) Ly) (eq_trans (map_length _ _) L)).
      rewrite average_converted by (try exact Ly; exact n_pos).
      rewrite (Sum_ext p _ (fun j => s * (average n (map (fun r => entry r j) X) * entry c j))) by (intros j _; rewrite entry_scaled; ring).
      rewrite Sum_scal. rr. ring.
    - rewrite (Ht E), E. unfold linear_intercept, nzero. cbn [nofZ Rnum]. rr. ring.
  Qed.

  Lemma regressor_converted select splits : splits <> [] -> select X y2 = select X y -> select X y <> [] ->
    (forall mask, In mask (select X y) -> length mask = p) ->
    (forall sp, In sp splits ->
       let Xr mask := part X (fst sp) mask in let yr := part_y y (fst sp) in
       let rows := scored target sp in
       (forall r, In r (fst sp) -> (r < n)%nat) /\ fst sp <> [] /\ (forall r, In r rows -> (r < n)%nat) /\ rows <> [] /\
       (metric = "r2"%string -> (2 <= length rows)%nat /\ distance2 (part_y y rows) (average (length rows) (part_y y rows)) <> 0) /\
       forall mask, In mask (select X y) ->
         (existsb (fun b => b) mask = true ->
            only_least_squares has (count (fun b => b) mask) (Xr mask) yr (ols (Xr mask) yr) /\
            least_squares has (count (fun b => b) mask) (Xr mask) (converted s t yr) (ols (Xr mask) (converted s t yr))) /\
         (metric <> "r2"%string -> 0 < model_error X y (fst sp) rows mask (ols (Xr mask) yr))) ->
    exists c b, regressor_fit (N := Rnum) false has metric target p ols select splits X y = Ok (c, b) /\
      regressor_fit (N := Rnum) false has metric target p ols select splits X y2 = Ok (map (Rmult s) c, s * b + t).
  Proof.
    intros Hsp Esel Hsup Hlen Hok. set (supports := select X y) in *.
    destruct (mapM_best (fun sp => let* out := mapM (estimate_support (N := Rnum) ols metric target p X y sp) supports in best_estimate out)
                        (fun sp => let* out := mapM (estimate_support (N := Rnum) ols metric target p X y2 sp) supports in best_estimate out) s splits) as (best & E & E2 & L).
    { intros sp Hin. destruct (Hok sp Hin) as (H1 & H2 & H3 & H4 & H5 & H6). cbv zeta in *.
      destruct (mapM_carry (estimate_support (N := Rnum) ols metric target p X y sp) (estimate_support (N := Rnum) ols metric target p X y2 sp) s (shift s metric target sp) supports) as (out & F & F2 & Lo).
      { intros mask Hm. destruct (H6 mask Hm) as [H7 H8].
        apply (both_estimates has n p X y s t Hs Ht HX Ly ols metric target sp Hmetric H1 H2 H3 H4 H5 mask (Hlen mask Hm)); [|exact H8].
        rewrite (part2_train n y s t Ly sp H1). exact H7. }
      rr. rewrite F, F2. cbn [bind]. rewrite best_carried.
      assert (Hne : map snd out <> []) by (destruct out; [destruct supports; [easy|discriminate]|discriminate]).
      unfold best_estimate. destruct (argmax_spec (map snd out) Hne) as (m & Em & _). rr. rewrite Em. cbn [rmap]. eexists. split; reflexivity. }
    assert (Hb : best <> []) by (destruct best; [destruct splits; [easy|discriminate]|discriminate]).
    assert (Lc : length (bagged (N := Rnum) p best) = p) by (unfold bagged; now rewrite map_length, seq_length).
    exists (bagged (N := Rnum) p best), (linear_intercept (N := Rnum) has p X y (bagged (N := Rnum) p best)). split.
    - unfold regressor_fit, linear_pre. cbn [fst snd]. unfold base_transform. rewrite ?map_id. rr. rewrite (not_constant y Ly Hvar).
      unfold estimation_module. fold supports. rr. rewrite E. cbn [bind fst snd]. reflexivity.
    - unfold regressor_fit, linear_pre. cbn [fst snd]. unfold base_transform. rewrite ?map_id. rr.
      rewrite (not_constant y2 (eq_trans (length_converted s t y) Ly) varies2). rewrite Esel.
      unfold estimation_module. rr. rewrite E2. cbn [bind fst snd]. rr. rewrite bagged_scaled by exact Hb. rewrite intercept2 by exact Lc. reflexivity.
  Qed.
End Fit.

Lemma lasso_converted has metric target n p X (y : list R) s t eps num ts (net : solver_net (N := Rnum)) (ols : solver_ls (N := Rnum)) sel est :
  matrix n p X -> length y = n -> (0 < p)%nat -> s <> 0 -> (has = false -> t = 0) -> 0 < eps -> (0 < num)%nat -> ts <> [] -> est <> [] ->
  In metric ["r2"; "BIC"; "AIC"; "AICc"]%string ->
  (exists i j, (i < n)%nat /\ (j < n)%nat /\ entry y i <> entry y j) ->
  / 10 ^ 15 < alpha_max (N := Rnum) has p X y 1 -> / 10 ^ 15 < Rabs s * alpha_max (N := Rnum) has p X y 1 ->
  (forall sp (lam : R) (g : list R), In sp sel -> lasso_grid (N := Rnum) has p X y eps num = Ok g -> In lam g ->
     let Xr := samples X (fst sp) in let yr := part_y y (fst sp) in let k := length (fst sp) in
     (forall i, In i (fst sp) -> (i < n)%nat) /\
     clear_features has k p Xr yr lam 1 /\
     net_solution has k p Xr yr lam 1 (net Xr yr lam 1) /\
     net_solution has k p Xr (converted s t yr) (Rabs s * lam) 1 (net Xr (converted s t yr) (Rabs s * lam) 1)) ->
  let supports := lasso_select (N := Rnum) has p eps num net ts sel X y in
  (forall sp, In sp est ->
     let Xr mask := part X (fst sp) mask in let yr := part_y y (fst sp) in
     let rows := scored target sp in
     (forall r, In r (fst sp) -> (r < n)%nat) /\ fst sp <> [] /\ (forall r, In r rows -> (r < n)%nat) /\ rows <> [] /\
     (metric = "r2"%string -> (2 <= length rows)%nat /\ distance2 (part_y y rows) (average (length rows) (part_y y rows)) <> 0) /\
     forall mask, In mask supports ->
       (existsb (fun b => b) mask = true ->
          only_least_squares has (count (fun b => b) mask) (Xr mask) yr (ols (Xr mask) yr) /\
          least_squares has (count (fun b => b) mask) (Xr mask) (converted s t yr) (ols (Xr mask) (converted s t yr))) /\
       (metric <> "r2"%string -> 0 < model_error X y (fst sp) rows mask (ols (Xr mask) yr))) ->
  lasso_select (N := Rnum) has p eps num net ts sel X (converted s t y) = supports /\
  exists c b,
    lasso_fit (N := Rnum) false has eps num ts metric target p net ols sel est X y = Ok (c, b) /\
    lasso_fit (N := Rnum) false has eps num ts metric target p net ols sel est X (converted s t y) = Ok (map (Rmult s) c, s * b + t).
Proof.
  intros HX Ly Hp Hs Ht He Hn Hts Hest Hm Hvar H1 H2 Hsol supports Hok.
  assert (Hn0 : (0 < n)%nat) by (destruct Hvar as (i & _ & H & _); lia).
  pose proof (select_converted s t Hs has n p X y eps num ts net sel HX Hn0 Ly Hp Ht He H1 H2 Hsol) as Es.
  split; [exact Es|].
  destruct (grid_converted s t has n p X y eps num HX Hn0 Ly Hp Ht He H1 H2) as (g & Eg & _).
  destruct (alpha_grid_value has p X y 1 eps num R1_neq_R0 He H1) as (g' & Eg' & Lg & _).
  assert (g' = g) by (pose proof (eq_trans (eq_sym Eg') Eg) as Q; now injection Q). subst g'.
  assert (ES : supports = selection_module (N := Rnum) net p ts (map RegAlpha g) sel X y) by (unfold supports, lasso_select; rewrite Eg; reflexivity).
  apply (regressor_converted has metric target n p X y s t Hs Ht HX Ly Hm Hvar ols); [exact Hest|exact Es| | |exact Hok].
  - fold supports. rewrite ES. apply module_cons; [exact Hts|]. destruct g; [cbn in Lg; lia|discriminate].
  - intros mask Hmask. fold supports in Hmask. rewrite ES in Hmask. exact (module_length mask Hmask).
Qed.
