(** C127: what the estimation module of UoI_Poisson chooses (real numbers). *)
From Coq Require Import ZArith String List Bool Arith Lia Reals Lra.
From Verif Require Import Prelude F64 Num Model_Intersection Model_Fit Model_Refit Model_Rescale Model_Poisson Model_Linear Model_Estimation Model_Selection Model_CountFit
  Spec_Rescale Spec_Poisson Spec_Linear Spec_Estimation Spec_Choice Spec_CountFit Spec_CountChoice Proofs_LinearUnits Proofs_CountFit3 Proofs_CountChoice.
Import ListNotations.
Local Open Scope R_scope.

(** For each estimation bootstrap, UoI_Poisson keeps the fit of a support whose mean
    log-likelihood on the scored samples is highest ('log'), or whose information criterion,
    as in the textbooks, is lowest ('AIC', 'AICc', 'BIC'; parameters are the features and
    the intercept, if that is not zero).  coef_ is the median over the bootstraps, in the
    units of the features.  The only thing the solvers have to do is to return one
    coefficient for each feature they are given. *)
Theorem C127_choice : forall standardize has eps num alphas ts metric target n p X y (sel_lm est_lm : solver_glm (N := Rnum)) sel est,
  matrix n p X -> length y = n -> In metric ["log"; "BIC"; "AIC"; "AICc"]%string -> (0 < num)%nat -> alphas <> [] -> ts <> [] -> est <> [] ->
  (exists i j, (i < n)%nat /\ (j < n)%nat /\ entry y i <> entry y j) ->
  let Xs := map (centering_transform (N := Rnum) standardize (fit_scaler (columns p X))) X in
  let supports := count_select (N := Rnum) p eps num alphas sel_lm ts sel Xs y in
  let fit_of sp mask := est_lm (part Xs (fst sp) mask) (part_y y (fst sp)) 0 1 in
  let price_of sp mask := count_cost metric (length (scored target sp)) (count_parameters y (fst sp) mask (fit_of sp mask))
                            (count_merit Xs y (fst sp) (scored target sp) mask (fit_of sp mask)) in
  (forall sp, In sp est ->
     (forall r, In r (fst sp) -> (r < n)%nat) /\ fst sp <> [] /\ (forall r, In r (scored target sp) -> (r < n)%nat) /\ scored target sp <> [] /\
     0 < average (length (fst sp)) (part_y y (fst sp)) /\
     forall mask, In mask supports -> existsb (fun b => b) mask = true -> length (fst (fit_of sp mask)) = count (fun b => b) mask) ->
  exists best c b,
    count_fit (N := Rnum) standardize has eps num alphas ts metric target p sel_lm est_lm sel est X y = Ok (c, b) /\
    Forall2 (fun sp e => exists mask, In mask supports /\ estimate_of p mask (fit_of sp mask) e /\
      forall mask', In mask' supports -> price_of sp mask <= price_of sp mask') est best /\
    length c = p /\
    forall j, (j < p)%nat -> median_of (map (fun e => entry e j) best) (entry c j * if standardize then column_scale (N := Rnum) (col n X j) else 1).
Proof. exact count_choice. Qed.
Print Assumptions C127_choice.

(** Two crossed binary features; the choice is between no feature and the first one. *)
Example C127_ex : forall metric, In metric ["log"; "BIC"; "AIC"; "AICc"]%string -> exists best c b,
  count_fit (N := Rnum) false true (1 / 2) 2 [1] [1%Z] metric 0 2 crossed_lm crossed_lm [crossed_split] [crossed_split] crossed crossed_y = Ok (c, b) /\
  Forall2 (fun sp e => exists mask, In mask [[false; false]; [true; false]] /\
    estimate_of 2 mask (crossed_lm (part crossed (fst sp) mask) (part_y crossed_y (fst sp)) 0 1) e) [crossed_split] best.
Proof.
  intros metric Hm.
  destruct (C127_choice false true (1 / 2) 2 [1] [1%Z] metric 0 4 2 crossed crossed_y crossed_lm crossed_lm [crossed_split] [crossed_split]
    crossed_matrix eq_refl Hm ltac:(lia) ltac:(discriminate) ltac:(discriminate) ltac:(discriminate)) as (best & c & b & E & F & _).
  - exists 0%nat, 1%nat. split; [lia|]. split; [lia|]. unfold entry, crossed_y. cbn. lra.
  - intros sp [<-|[]]. unfold centering_transform. rewrite map_id. split; [intros r Hr; cbn in Hr; lia|]. split; [discriminate|].
    split; [intros r Hr; cbn in Hr; lia|]. split; [discriminate|]. split; [unfold average, Sum, entry; cbn; lra|].
    rewrite crossed_support. intros mask [<-|[<-|[]]] H; [discriminate|reflexivity].
  - unfold centering_transform in F. rewrite map_id in F. rewrite crossed_support in F. exists best, c, b. split; [exact E|].
    inversion F as [|sp e l l' (mask & A & B & _) G]; subst. constructor; [exists mask; split; [exact A|exact B]|]. inversion G. constructor.
Qed.
