(** What MaskedCoefLogisticRegression.fit minimizes for labelled data (C100). *)
From Coq Require Import String ZArith List Bool Arith Lia Reals Lra.
From Verif Require Import Prelude Num Model_Mpi Model_Lbfgs Model_Poisson Model_Fit Model_Scores Model_Logistic Model_LogisticFit Model_Labels
  Spec_Rescale Spec_Poisson Spec_Lbfgs Spec_Logistic Spec_LogisticFit Spec_Labels Proofs_Labels Proofs_LabelWeights Proofs_LogisticOpt Proofs_LogisticMulti.
Import ListNotations.
Local Open Scope R_scope.

Lemma signs_labels y a1 a2 : uoi_classes y = [a1; a2] ->
  signs (codes y) = map (fun l => if label_eqb l a2 then 1 else -1) y.
Proof.
  intro E. unfold signs, codes. rewrite map_map. apply map_ext_in. intros l Hl. unfold uoi_classes in E. rewrite E.
  assert (D := unique_NoDup y). rewrite E in D.
  assert (Hl' : In l [a1; a2]) by (rewrite <- E; now apply unique_In).
  assert (N : a1 <> a2) by (inversion D as [|? ? X]; intros ->; apply X; now left).
  unfold encode. cbn [label_index]. destruct Hl' as [<-|[<-|[]]].
  - rewrite label_eqb_refl. cbn. now rewrite (proj2 (label_eqb_neq a1 a2) N).
  - rewrite label_eqb_refl. rewrite (proj2 (label_eqb_neq a2 a1)) by congruence. reflexivity.
Qed.

Lemma masked_weights y multi cw (sw : option (list R)) w : (2 <= length (unique_labels y))%nat ->
  (multi = false -> length (unique_labels y) = 2%nat) ->
  Model_Labels.weights (N := Rnum) multi cw (codes y) sw = Ok w -> 
  weighted_by cw y sw w.
Proof.
  intros K Hm E.
  assert (A : weights_accepted multi cw (length (unique_labels y)) (length y) sw \/ ~ weights_accepted multi cw (length (unique_labels y)) (length y) sw).
  { unfold weights_accepted.
    assert (S1 : (forall s, sw = Some s -> length s = length y) \/ ~ (forall s, sw = Some s -> length s = length y)).
    { destruct sw as [s|]; [|left; discriminate]. destruct (Nat.eq_dec (length s) (length y)) as [X|X]; [left|right].
      - intros s' Y. now injection Y as <-.
      - intro Y. apply X. now apply Y. }
    assert (S2 : match cw with CWDict d => forall l, In l (map fst d) -> In l (numbers (length (unique_labels y))) | CWOther => multi = false | _ => True end
      \/ ~ match cw with CWDict d => forall l, In l (map fst d) -> In l (numbers (length (unique_labels y))) | CWOther => multi = false | _ => True end).
    { destruct cw; auto; [apply incl_dec|]. destruct multi; [right; discriminate|now left]. }
    tauto. }
  destruct A as [A|A].
  - destruct (weights_value y K multi cw sw Hm A) as (w' & E' & L & H).
    pose proof (eq_trans (eq_sym E) E') as X. injection X as <-. split; assumption.
  - pose proof (eq_trans (eq_sym E) (weights_bad y multi cw sw A)) as X. discriminate.
Qed.

Lemma masked_inv (N : NumOps) l2 has multinomial p (C tol : N) max_iter mi cw X y sw mask coef opt fuel lsfuel cl cf b it :
  masked_fit l2 has multinomial p (Num C) (Num tol) max_iter mi cw X y sw mask coef opt fuel lsfuel
    = Some (mkMasked cl (Fitted cf b it)) ->
  (2 <= length (unique_labels y))%nat /\ exists w, let k := length (unique_labels y) in let multi := multinomial || Nat.ltb 2 k in
    Model_Labels.weights multi cw (codes y) sw = Ok w /\
    (if multi then fit_multi l2 has k p C tol mi X (codes y) w mask coef opt fuel lsfuel
     else fit_binary l2 has p C tol mi X (codes y) w (option_map (@concat N) mask) (option_map (@concat N) coef) opt fuel lsfuel)
    = Some (Fitted cf b it).
Proof.
  unfold masked_fit. destruct (_ || _ || _); [discriminate|]. rewrite masked_numbers, numbers_length. cbv zeta.
  destruct (Nat.ltb_spec (length (unique_labels y)) 2) as [H|H]; [discriminate|]. intro E. split; [exact H|].
  destruct (Model_Labels.weights _ _ _ _) as [w|e]; [|discriminate]. exists w. split; [reflexivity|].
  destruct (if _ || _ then _ else _); cbn [option_map] in E; [|discriminate]. now injection E as _ ->.
Qed.

Lemma masked_l1_binary n p (has : bool) (C tol : R) max_iter mi cw X y (sw : option (list R)) mask coef opt fuel lsfuel cl c b a1 a2 :
  uoi_classes y = [a1; a2] -> matrix n p X -> length y = n ->
  match mask with Some m => zero_one p m | None => True end ->
  masked_fit (N := Rnum) false has false p (Num C) (Num tol) max_iter mi cw X y sw (option_map (fun m => [m]) mask) coef opt fuel lsfuel
    = Some (mkMasked cl (Fitted [c] [b] None)) ->
  exists w, weighted_by cw y sw w /\
    ((forall i, (i < n)%nat -> 0 <= entry w i) -> (exists j, (j < p)%nat /\ entry c j <> 0) ->
     let s := map (fun l => if label_eqb l a2 then 1 else -1) y in
     forall c' b', length c' = p -> obeys p mask c' -> (has = false -> b' = 0) ->
     l1_loss n p X s w (1 / C) c b - l1_loss n p X s w (1 / C) c' b'
     <= tol * Rmax 1 (norm (S p) (c ++ [b])) * distance (S p) (c ++ [b]) (c' ++ [b'])).
Proof.
  intros Ec HX Ly Hm E. apply masked_inv in E as (K & w & Ew & Ef).
  assert (K2 : length (unique_labels y) = 2%nat) by (unfold uoi_classes in Ec; now rewrite Ec).
  rewrite K2 in *. cbn [orb Nat.ltb Nat.leb] in Ew, Ef.
  destruct (masked_weights y false cw sw w ltac:(lia) (fun _ => K2) Ew) as (Lw & Hw). exists w. split; [split; assumption|]. rewrite Ly in *. intros Hnn Hc. cbv zeta. rewrite <- (signs_labels y a1 a2 Ec).
  assert (Em : option_map (@concat Rnum) (option_map (fun m : list Rnum => [m]) mask) = mask).
  { destruct mask as [m|]; [|reflexivity]. cbn. f_equal. apply app_nil_r. }
  assert (Hn0 : (0 < n)%nat) by (rewrite <- Ly; destruct y; [discriminate|cbn; lia]).
  refine (binary_gap n p has C tol mi X (codes y) w mask _ opt fuel lsfuel c b HX Hn0 _ Lw Hnn Hm _ Hc).
  - rewrite length_codes. exact Ly.
  - refine (eq_trans _ Ef). symmetry.
    exact (f_equal (fun m => fit_binary (N := Rnum) false has p C tol mi X (codes y) w m _ opt fuel lsfuel) Em).
Qed.

Lemma masked_l1_multi n p (has multinomial : bool) (C tol : R) max_iter mi cw X y (sw : option (list R)) mask coef opt fuel lsfuel cl cf b :
  let k := length (uoi_classes y) in
  (multinomial = true \/ (3 <= k)%nat) -> matrix n p X -> length y = n -> (0 < p)%nat ->
  mask_rows k p mask -> warm_rows k p (p + if has then 1 else 0) coef ->
  masked_fit (N := Rnum) false has multinomial p (Num C) (Num tol) max_iter mi cw X y sw mask coef opt fuel lsfuel
    = Some (mkMasked cl (Fitted cf b None)) ->
  exists w, weighted_by cw y sw w /\
    ((forall i, (i < n)%nat -> 0 <= entry w i) -> (exists c j, (c < k)%nat /\ (j < p)%nat /\ mat cf c j <> 0) ->
     forall cf' b', grid k p cf' -> length b' = k -> rows_obey k p mask cf' -> (has = false -> forall c, entry b' c = 0) ->
     l1_multi_loss n p k X (indicators k (codes y)) w (1 / C) cf b - l1_multi_loss n p k X (indicators k (codes y)) w (1 / C) cf' b'
     <= tol * Rmax 1 (norm (k * S p) (packed cf b)) * distance (k * S p) (packed cf b) (packed cf' b')).
Proof.
  intros k Hmul HX Ly Hp Hm Hws E. apply masked_inv in E as (K & w & Ew & Ef). fold (uoi_classes y) in K, Ew, Ef. fold k in K, Ew, Ef.
  assert (M : multinomial || Nat.ltb 2 k = true).
  { destruct Hmul as [->|H]; [reflexivity|]. apply orb_true_intro. right. apply Nat.ltb_lt. lia. }
  cbv zeta in Ew, Ef. rewrite M in Ew, Ef.
  destruct (masked_weights y true cw sw w K ltac:(discriminate) Ew) as (Lw & Hw). exists w. split; [split; assumption|]. rewrite Ly in *. intros Hnn Hc.
  assert (Hn0 : (0 < n)%nat) by (rewrite <- Ly; destruct y; [unfold k in K; cbn in K; lia|cbn; lia]).
  refine (multi_gap n k p has C tol mi X (codes y) w mask coef opt fuel lsfuel cf b HX Hn0 _ _ Lw Hnn Hp Hm Hws Ef Hc).
  - rewrite length_codes. exact Ly.
  - apply Forall_forall. intros c Hcc. now apply codes_lt.
Qed.
