(** Predictions of PycLasso with real numbers (C68). *)
From Coq Require Import String List Bool Arith Reals Lia.
From Verif Require Import Prelude Num Model_Pyc Spec_Pyc Proofs_Pyc Spec_Rescale Proofs_Rescale
  Proofs_Multinomial.
Import ListNotations.

Lemma predicted_entry (X coef : list (list R)) (ic : list R) p i k :
  Forall (fun x => length x = p) X -> Forall (fun c => length c = p) coef ->
  i < length X -> k < length coef -> k < length ic ->
  entry (nth i (map (fun x => map2 (@nadd Rnum) (map (ndot (N := Rnum) x) coef) ic) X) []) k
  = (Sum p (fun j => entry (nth i X []) j * entry (nth k coef []) j) + entry ic k)%R.
Proof.
  intros HX Hc Hi Hk Hk'.
  rewrite (nth_mapd (fun x => map2 (@nadd Rnum) (map (ndot (N := Rnum) x) coef) ic) X i [] []) by exact Hi.
  assert (Lx : length (nth i X []) = p)
    by (rewrite Forall_forall in HX; apply HX, nth_In; exact Hi).
  assert (Lc : length (nth k coef []) = p)
    by (rewrite Forall_forall in Hc; apply Hc, nth_In; exact Hk).
  unfold entry at 1.
  refine (eq_trans (map2_nth (@nadd Rnum) (map (ndot (N := Rnum) (nth i X [])) coef) ic k 0%R 0%R 0%R _ Hk') _).
  - rewrite map_length. exact Hk.
  - apply (f_equal (fun a => (a + entry ic k)%R)).
    refine (eq_trans (nth_mapd (ndot (N := Rnum) (nth i X [])) coef k [] 0%R Hk) _).
    refine (eq_trans (ndot_Sum (nth i X []) (nth k coef []) _) _).
    + exact (eq_trans Lx (eq_sym Lc)).
    + exact (f_equal (fun q => Sum q (fun j => (entry (nth i X []) j * entry (nth k coef []) j)%R)) Lx).
Qed.

Lemma widths_ok (X coef : list (list R)) p :
  Forall (fun x => length x = p) X -> Forall (fun c => length c = p) coef ->
  forallb (fun x => forallb (fun c : list R => Nat.eqb (length c) (length x)) coef) X = true.
Proof.
  intros HX Hc. apply forallb_forall. intros x Hx. apply forallb_forall. intros c Hc'.
  rewrite Forall_forall in HX, Hc. apply Nat.eqb_eq. now rewrite (HX x Hx), (Hc c Hc').
Qed.

Lemma predict_value {V} (is_None is_False : V -> bool) pycasso a fi mi t (o : pyc Rnum V) h X coef ic p :
  pyc_init is_False a fi mi t = Ok o ->
  last_fit is_None is_False pycasso o h (coef, ic) ->
  Forall (fun x : list R => length x = p) X -> Forall (fun c : list R => length c = p) coef ->
  length ic = length coef ->
  exists Y : list (list R), predict X (pyc_after is_None is_False pycasso o h) = Ok Y /\ length Y = length X /\
    forall i k, i < length X -> k < length coef ->
      entry (nth i Y []) k
      = (Sum p (fun j => entry (nth i X []) j * entry (nth k coef []) j) + entry ic k)%R.
Proof.
  intros I L HX Hc Hic. destruct (init_state is_False a fi mi t o I) as (F & S & _).
  destruct (after_state is_None is_False pycasso o h F S) as [(A & B & C)|(s & A & B & C)].
  - exfalso. destruct L as (h1 & X' & y & h2 & E & Hs & _). exact (C _ _ _ _ _ E Hs).
  - assert (Es : s = (coef, ic)).
    { destruct L as (h1 & X1 & y1 & h2 & E & Hs & Hl). destruct C as (g1 & X2 & y2 & g2 & E' & Hs' & Hl').
      rewrite E in E'.
      assert (D : forall (u1 u2 v1 v2 : list (@pyc_op Rnum V)) x1 x2, u1 ++ x1 :: u2 = v1 ++ x2 :: v2 ->
        (u1 = v1 /\ x1 = x2 /\ u2 = v2) \/ (exists w, v1 = u1 ++ x1 :: w /\ u2 = w ++ x2 :: v2) \/
        (exists w, u1 = v1 ++ x2 :: w /\ v2 = w ++ x1 :: u2)).
      { induction u1 as [|b u1 IH]; intros u2 [|b' v1] v2 x1 x2 Q; cbn [app] in Q.
        - left. injection Q as -> ->. now repeat split.
        - right; left. injection Q as -> ->. now exists v1.
        - right; right. injection Q as -> <-. now exists u1.
        - injection Q as -> Q. destruct (IH _ _ _ _ _ Q) as [(-> & -> & ->)|[(w & -> & ->)|(w & -> & ->)]].
          + left. now repeat split.
          + right; left. now exists w.
          + right; right. now exists w. }
      destruct (D _ _ _ _ _ _ E') as [(<- & Ec & _)|[(w & -> & ->)|(w & -> & ->)]].
      - injection Ec as <- <-. exact (solves_fun is_None is_False pycasso _ _ _ _ _ Hs' Hs).
      - exfalso. exact (Hl w X2 y2 g2 eq_refl s Hs').
      - exfalso. exact (Hl' w X1 y1 h2 eq_refl _ Hs). }
    subst s. eexists. split.
    + unfold predict. rewrite A, B.
      refine (eq_trans (f_equal (fun b : bool => if b then _ else _) (widths_ok X coef p HX Hc)) _).
      reflexivity.
    + split; [now rewrite map_length|]. intros i k Hi Hk.
      apply (predicted_entry X coef ic p i k HX Hc Hi Hk). exact (eq_ind_r (fun q => k < q) Hk Hic).
Qed.
