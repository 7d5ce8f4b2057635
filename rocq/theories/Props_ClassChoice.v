(** C129: the support that UoI_L1Logistic keeps for two classes. *)
From Coq Require Import ZArith String List Bool Arith Lia Reals Lra.
From Verif Require Import Prelude Num Model_Intersection Model_Fit Model_Refit Model_Rescale Model_Poisson Model_Linear Model_Estimation Model_Selection Model_ClassFit
  Spec_Rescale Spec_Poisson Proofs_Poisson Spec_Linear Spec_Estimation Spec_Choice Spec_Units Spec_ClassFit Spec_ClassChoice
  Proofs_ClassFit4 Proofs_ClassFit5 Proofs_ClassChoice Proofs_ClassChoice2.
From Verif Require Model_Logistic Model_Labels Spec_Logistic.
Import ListNotations.
Local Open Scope R_scope.

(** In each estimation bootstrap the estimate of the first support of least cost is kept, and
    the coefficients are the medians of these estimates. *)
Theorem C129_choice : forall standardize has n p X (y : list Model_Labels.label) eps num (Cs : list R) ts clip metric target
    (sel_lm : solver_C (N := Rnum)) (est_lm : solver_ml (N := Rnum)) (refit : refitter (N := Rnum)) sel est,
  let z := Model_Labels.codes y in
  matrix n p X -> length z = n -> Forall (fun v => (v < 2)%nat) z -> In 0%nat z -> In 1%nat z ->
  In metric ["acc"; "log"; "BIC"; "AIC"; "AICc"]%string ->
  (metric <> "acc"%string -> Model_Labels.uoi_classes y = [Model_Labels.LInt 0; Model_Labels.LInt 1] /\ 0 < clip <= 1 / 2) ->
  ts <> [] -> Cs <> [] -> est <> [] ->
  let Xs := map (base_transform (N := Rnum) standardize has (fit_scaler (columns p X))) X in
  class_Cs (N := Rnum) has p eps num Xs z = Ok Cs ->
  let supports := class_select (N := Rnum) p sel_lm ts Cs sel Xs z in
  let fit_of sp mask := est_lm (part Xs (fst sp) mask) (part_y (map INR z) (fst sp)) in
  let cost_of sp mask := class_cost metric clip Xs z (fst sp) (scored target sp) mask (fit_of sp mask) in
  (forall sp, In sp est ->
     (forall r, In r (fst sp) -> (r < n)%nat) /\ fst sp <> [] /\ (forall r, In r (scored target sp) -> (r < n)%nat) /\ scored target sp <> [] /\
     forall mask, In mask supports -> existsb (fun b => b) mask = true -> length (fst (fit_of sp mask)) = count (fun b => b) mask) ->
  exists best c b,
    class_fit (N := Rnum) standardize has eps num ts clip metric target p sel_lm est_lm refit sel est X y = Ok (c, b) /\
    Forall2 (fun sp e => exists before mask after, supports = before ++ mask :: after /\ estimate_of p mask (fit_of sp mask) e /\
      (forall m, In m before -> cost_of sp mask < cost_of sp m) /\ forall m, In m supports -> cost_of sp mask <= cost_of sp m) est best /\
    length c = p /\
    forall j, (j < p)%nat -> median_of (map (fun e => entry e j) best) (entry c j * if standardize then column_scale (N := Rnum) (col n X j) else 1).
Proof. exact class_choice. Qed.
Print Assumptions C129_choice.

(** Twelve samples and the score 'log': the hypotheses hold, so there is a fit. *)
Example C129_choice_ex : exists c b,
  class_fit (N := Rnum) false true (1 / 2) 1 [1%Z; 2%Z] (1 / 100) "log" 1 2 group_sel group_est (exact_refit 2) [ten_split; ten_four] [ten_split] ten_X (map label ten_z) = Ok (c, b) /\ length c = 2%nat.
Proof.
  destruct ten_codes as [K _].
  destruct (C129_choice false true 12 2 ten_X (map label ten_z) (1 / 2) 1 [12] [1%Z; 2%Z] (1 / 100) "log" 1 group_sel group_est (exact_refit 2) [ten_split; ten_four] [ten_split]) as (best & c & b & E & _ & L & _).
  - exact ten_matrix.
  - now rewrite K.
  - rewrite K. exact ten_binary.
  - rewrite K. cbn. tauto.
  - rewrite K. cbn. tauto.
  - right. now left.
  - intros _. split; [reflexivity|lra].
  - discriminate.
  - discriminate.
  - discriminate.
  - rewrite K. exact ten_grid.
  - rewrite K. intros sp [<-|[]]. split; [intros i Hi; cbn in Hi; lia|]. split; [discriminate|]. split; [intros i Hi; cbn in Hi; lia|]. split; [discriminate|].
    change (map (base_transform (N := Rnum) false true (fit_scaler (columns 2 ten_X))) ten_X) with (map (fun x : list R => x) ten_X). rewrite map_id.
    pose proof ten_select as S0. change (carrier Rnum) with R in *. rewrite S0. intros mask [<-|[<-|[]]] Hm; [discriminate|]. now rewrite ten_est.
  - exists c, b. split; [exact E|exact L].
Qed.

(** With accuracies, ties go to the model without features: if in more than half of the
    estimation bootstraps no support predicts more of the scored samples correctly than the
    larger class does, all coefficients are 0. *)
Theorem C129_majority : forall standardize has n p X (y : list Model_Labels.label) eps num (Cs : list R) ts clip target
    (sel_lm : solver_C (N := Rnum)) (est_lm : solver_ml (N := Rnum)) (refit : refitter (N := Rnum)) sel est (marks : list bool),
  let z := Model_Labels.codes y in
  matrix n p X -> length z = n -> Forall (fun v => (v < 2)%nat) z -> In 0%nat z -> In 1%nat z ->
  ts <> [] -> Cs <> [] ->
  let Xs := map (base_transform (N := Rnum) standardize has (fit_scaler (columns p X))) X in
  class_Cs (N := Rnum) has p eps num Xs z = Ok Cs ->
  let supports := class_select (N := Rnum) p sel_lm ts Cs sel Xs z in
  let fit_of sp mask := est_lm (part Xs (fst sp) mask) (part_y (map INR z) (fst sp)) in
  let hits_of sp mask := hits Xs z (fst sp) (scored target sp) mask (fit_of sp mask) in
  (forall sp, In sp est ->
     (forall r, In r (fst sp) -> (r < n)%nat) /\ fst sp <> [] /\ (forall r, In r (scored target sp) -> (r < n)%nat) /\ scored target sp <> [] /\
     forall mask, In mask supports -> existsb (fun b => b) mask = true -> length (fst (fit_of sp mask)) = count (fun b => b) mask) ->
  In (repeat false p) supports ->
  Forall2 (fun sp (t : bool) => t = true -> forall mask, In mask supports -> (hits_of sp mask <= hits_of sp (repeat false p))%nat) est marks ->
  (length est < 2 * count (fun t => t) marks)%nat ->
  exists b, class_fit (N := Rnum) standardize has eps num ts clip "acc" target p sel_lm est_lm refit sel est X y = Ok (repeat 0 p, b).
Proof. exact class_majority. Qed.
Print Assumptions C129_majority.

(** The same data scored on a sample that both models predict correctly: the feature that is
    kept in C128_swap_ex is dropped. *)
Example C129_majority_ex : exists b,
  class_fit (N := Rnum) false true (1 / 2) 1 [1%Z; 2%Z] (1 / 100) "acc" 1 2 group_sel group_est (exact_refit 2) [ten_split; ten_four] [(fst ten_split, [1%nat])] ten_X (map label ten_z) = Ok ([0; 0], b).
Proof.
  destruct ten_codes as [K _].
  apply (C129_majority false true 12 2 ten_X (map label ten_z) (1 / 2) 1 [12] [1%Z; 2%Z] (1 / 100) 1 group_sel group_est (exact_refit 2) [ten_split; ten_four] [(fst ten_split, [1%nat])] [true]).
  - exact ten_matrix.
  - now rewrite K.
  - rewrite K. exact ten_binary.
  - rewrite K. cbn. tauto.
  - rewrite K. cbn. tauto.
  - discriminate.
  - discriminate.
  - rewrite K. exact ten_grid.
  - rewrite K. intros sp [<-|[]]. split; [intros i Hi; cbn in Hi; lia|]. split; [discriminate|]. split; [intros i Hi; cbn in Hi; lia|]. split; [discriminate|].
    change (map (base_transform (N := Rnum) false true (fit_scaler (columns 2 ten_X))) ten_X) with (map (fun x : list R => x) ten_X). rewrite map_id.
    pose proof ten_select as S0. change (carrier Rnum) with R in *. rewrite S0. intros mask [<-|[<-|[]]] Hm; [discriminate|]. cbn [fst]. now rewrite ten_est.
  - rewrite K. change (map (base_transform (N := Rnum) false true (fit_scaler (columns 2 ten_X))) ten_X) with (map (fun x : list R => x) ten_X). rewrite map_id.
    pose proof ten_select as S0. change (carrier Rnum) with R in *. rewrite S0. now left.
  - rewrite K. constructor; [|constructor]. intros _ mask _.
    match goal with |- (_ <= hits ?A ?B ?C ?D ?M ?F)%nat => assert (E : hits A B C D M F = 1%nat) end.
    { unfold hits, guess, chance. cbn [scored Nat.eqb snd fst length seq filter existsb repeat orb nth ten_z].
      assert (S1 : Spec_Logistic.share [1; 0; 0; 0; 0; 1; 1; 1; 0; 0]%nat = 4 / 10).
      { unfold Spec_Logistic.share. change (Spec_Logistic.count 1 [1; 0; 0; 0; 0; 1; 1; 1; 0; 0]%nat) with 4%nat. cbn [length INR]. field. }
      match goal with |- context [Spec_Logistic.share ?l] => change (Spec_Logistic.share l) with (Spec_Logistic.share [1; 0; 0; 0; 0; 1; 1; 1; 0; 0]%nat) end. rewrite S1. unfold clamp, Rmin, Rmax, Spec_Logistic.tiny.
      destruct (Rle_dec (4 / 10) _); [lra|]. destruct (Rle_dec (4 / 10) _); [|lra]. destruct (Rle_dec (1 / 2) (4 / 10)); [lra|]. reflexivity. }
    rewrite E. unfold hits. cbn [scored Nat.eqb snd length seq filter]. destruct (Nat.eqb _ _); cbn; lia.
  - cbn. lia.
Qed.
