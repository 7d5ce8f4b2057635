(** L2-penalized fits of labelled data (C100). *)
From Coq Require Import String ZArith List Bool Arith Lia Reals Lra.
From Verif Require Import Prelude Num Model_Mpi Model_Lbfgs Model_Poisson Model_Fit Model_Scores Model_Logistic Model_LogisticFit Model_Labels
  Spec_Rescale Spec_Poisson Spec_Lbfgs Spec_Logistic Spec_LogisticFit Spec_Labels Proofs_Labels Proofs_LabelWeights Proofs_LogisticL2 Proofs_LabelMain.
Import ListNotations.
Local Open Scope R_scope.

Lemma masked_result (N : NumOps) l2 has multinomial p (C tol : N) max_iter mi cw X y sw mask coef opt fuel lsfuel w r :
  ~ (bad_number (Num C) \/ bad_number max_iter \/ bad_number (Num tol)) -> 
  let k := length (unique_labels y) in let multi := multinomial || Nat.ltb 2 k in
  (2 <= k)%nat -> Model_Labels.weights multi cw (codes y) sw = Ok w ->
  (if multi then fit_multi l2 has k p C tol mi X (codes y) w mask coef opt fuel lsfuel
     else fit_binary l2 has p C tol mi X (codes y) w (option_map (@concat N) mask) (option_map (@concat N) coef) opt fuel lsfuel)
    = Some r ->
  masked_fit l2 has multinomial p (Num C) (Num tol) max_iter mi cw X y sw mask coef opt fuel lsfuel
    = Some (mkMasked (Some (numbers k)) r).
Proof.
  rewrite <- !rejected_bad. intros H k multi K W E. unfold masked_fit.
  assert (B : rejected (Num C) || rejected max_iter || rejected (Num tol) = false).
  { destruct (rejected (Num C)), (rejected max_iter), (rejected (Num tol)); cbn; auto; exfalso; apply H; auto. }
  rewrite B, masked_numbers, numbers_length. fold k. cbv zeta. fold multi. rewrite (proj2 (Nat.ltb_ge k 2) K), W, E. reflexivity.
Qed.

Lemma masked_l2_binary n p (has : bool) (C tol : R) max_iter mi cw X y (sw : option (list R)) (mask coef : option (list R))
    opt fuel lsfuel fr delta a1 a2 w :
  ~ (bad_number (N := Rnum) (Num C) \/ bad_number max_iter \/ bad_number (N := Rnum) (Num tol)) ->
  uoi_classes y = [a1; a2] -> matrix n p X -> length y = n -> some_one p mask ->
  let q := (p + if has then 1 else 0)%nat in
  match coef with Some c => length c = p \/ length c = q | None => True end ->
  free_entries has 1 p (fun _ j => exists m, mask = Some m /\ entry m j = 0) fr ->
  weights_accepted false cw 2 n sw -> weighted_by cw y sw w ->
  let s := map (fun l => if label_eqb l a2 then 1 else -1) y in
  minimizes_from opt (kept fr (map (start_entry (N := Rnum) q coef 0) (seq 0 q)))
    (fun x => logistic_loss n p X s w (1 / C) (firstn p (fill fr x)) (entry (fill fr x) p)) delta ->
  exists c b,
    masked_fit (N := Rnum) true has false p (Num C) (Num tol) max_iter mi cw X y sw (option_map (fun m => [m]) mask)
      (option_map (fun m => [m]) coef) opt fuel lsfuel = Some (mkMasked (Some (numbers 2)) (Fitted [c] [b] None)) /\
    length c = p /\ obeys p mask c /\ (has = false -> b = 0) /\
    forall c' b', length c' = p -> obeys p mask c' -> (has = false -> b' = 0) ->
      logistic_loss n p X s w (1 / C) c b <= logistic_loss n p X s w (1 / C) c' b' + delta.
Proof.
  intros Hb Ec HX Ly So q Hc Hfr Hacc Hwb s Hmin. unfold s in *. rewrite <- (signs_labels y a1 a2 Ec) in *.
  assert (K2 : length (unique_labels y) = 2%nat) by (unfold uoi_classes in Ec; now rewrite Ec).
  pose proof (proj1 Hwb) as Lw. rewrite Ly in Lw.
  assert (Ew : Model_Labels.weights (N := Rnum) false cw (codes y) sw = Ok w).
  { apply weights_are; [lia|auto| |exact Hwb]. rewrite K2, Ly. exact Hacc. }
  assert (Hn0 : (0 < n)%nat) by (rewrite <- Ly; destruct y; [discriminate|cbn; lia]).
  assert (Lcs : length (codes y) = n) by (rewrite length_codes; exact Ly).
  destruct (binary_l2 n p has C tol mi X (codes y) w mask coef opt fuel lsfuel fr delta HX Hn0 Lcs Lw So Hc Hfr Hmin)
    as (c & b & Ef & R1 & R2 & R3 & R4).
  exists c, b. split; [|auto].
  assert (Em : forall v : option (list R), option_map (@concat Rnum) (option_map (fun m : list Rnum => [m]) v) = v).
  { intros [m|]; [|reflexivity]. cbn. f_equal. apply app_nil_r. }
  pose proof (masked_result Rnum true has false p C tol max_iter mi cw X y sw (option_map (fun m => [m]) mask)
      (option_map (fun m => [m]) coef) opt fuel lsfuel w (Fitted [c] [b] None) Hb) as G.
  cbv zeta in G. rewrite K2 in G. cbn [orb Nat.ltb Nat.leb] in G. apply G; [lia|exact Ew|].
  refine (eq_trans _ Ef).
  exact (f_equal2 (fun m v => fit_binary (N := Rnum) true has p C tol mi X (codes y) w m v opt fuel lsfuel) (Em mask) (Em coef)).
Qed.

Lemma masked_l2_multi n p (has multinomial : bool) (C tol : R) max_iter mi cw X y (sw : option (list R)) mask coef opt fuel lsfuel fr delta w :
  ~ (bad_number (N := Rnum) (Num C) \/ bad_number max_iter \/ bad_number (N := Rnum) (Num tol)) ->
  let k := length (uoi_classes y) in
  (2 <= k)%nat -> (multinomial = true \/ (3 <= k)%nat) -> matrix n p X -> length y = n -> (0 < p)%nat -> some_one_of k p mask ->
  let q := (p + if has then 1 else 0)%nat in
  warm_rows k p q coef ->
  free_entries has k p (fun c j => exists m, mask = Some m /\ mat m c j = 0) fr ->
  weights_accepted true cw k n sw -> weighted_by cw y sw w ->
  minimizes_from opt (kept fr (starts q k coef (multi_intercept (N := Rnum) k (codes y))))
    (fun x => multi_loss n p q k X (indicators k (codes y)) w (1 / C) (fill fr x)) delta ->
  exists cf b,
    masked_fit (N := Rnum) true has multinomial p (Num C) (Num tol) max_iter mi cw X y sw mask coef opt fuel lsfuel
      = Some (mkMasked (Some (numbers k)) (Fitted cf b None)) /\
    grid k p cf /\ length b = k /\ rows_obey k p mask cf /\ (has = false -> forall c, (c < k)%nat -> entry b c = 0) /\
    forall cf' b', grid k p cf' -> length b' = k -> rows_obey k p mask cf' -> (has = false -> forall c, (c < k)%nat -> entry b' c = 0) ->
      multi_loss n p (S p) k X (indicators k (codes y)) w (1 / C) (packed cf b)
        <= multi_loss n p (S p) k X (indicators k (codes y)) w (1 / C) (packed cf' b') + delta.
Proof.
  intros Hb k K Hmul HX Ly Hp So q Hws Hfr Hacc Hwb Hmin.
  pose proof (proj1 Hwb) as Lw. rewrite Ly in Lw.
  assert (Ew : Model_Labels.weights (N := Rnum) true cw (codes y) sw = Ok w).
  { apply weights_are; [exact K|discriminate| |exact Hwb]. rewrite Ly. exact Hacc. }
  assert (Hn0 : (0 < n)%nat) by (rewrite <- Ly; destruct y; [unfold k in K; cbn in K; lia|cbn; lia]).
  assert (Lcs : length (codes y) = n) by (rewrite length_codes; exact Ly).
  assert (Hlt : Forall (fun v => (v < k)%nat) (codes y)) by (apply Forall_forall; intros c Hc; now apply codes_lt).
  destruct (multi_l2 n k p has C tol mi X (codes y) w mask coef opt fuel lsfuel fr delta HX Hn0 Lcs Hlt Lw Hp So Hws Hfr Hmin)
    as (cf & b & Ef & R1).
  exists cf, b. split; [|exact R1].
  assert (M : multinomial || Nat.ltb 2 k = true).
  { destruct Hmul as [->|H]; [reflexivity|]. apply orb_true_intro. right. apply Nat.ltb_lt. lia. }
  pose proof (masked_result Rnum true has multinomial p C tol max_iter mi cw X y sw mask coef opt fuel lsfuel w (Fitted cf b None) Hb) as G.
  cbv zeta in G. change (length (unique_labels y)) with k in G. rewrite M in G. exact (G K Ew Ef).
Qed.
