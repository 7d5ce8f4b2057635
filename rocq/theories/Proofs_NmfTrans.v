(** Proofs about UoI_NMF: when a fit returns, transform and inverse_transform. *)
From Coq Require Import ZArith List Bool Arith Reals Permutation Sorted Lia Lra.
From Verif Require Import Prelude F64 Num Spec_Rescale Spec_Poisson Model_Nmf Spec_Nmf
  Proofs_Rescale Proofs_Poisson Proofs_LbfgsVec Proofs_Nmf Proofs_NmfFit Proofs_NmfMain Proofs_NmfNan.
Import ListNotations.
Local Open Scope R_scope.

(** ** Input check *)
Lemma min_fold (l : list R) : forall x, (In (fold_left (np_minimum (N := Rnum)) l x) (x :: l)) /\ (forall y, In y (x :: l) -> fold_left (np_minimum (N := Rnum)) l x <= y).
Proof.
  induction l as [|a l IH]; intro x; cbn [fold_left].
  - split; [now left|]. intros y [<-|[]]. apply Rle_refl.
  - destruct (IH (np_minimum (N := Rnum) x a)) as [I1 I2].
    assert (M : (np_minimum (N := Rnum) x a = x /\ x <= a) \/ (np_minimum (N := Rnum) x a = a /\ a <= x)).
    { unfold np_minimum. assert (E : neqb (n := Rnum) x x = true) by (apply Reqb_t; reflexivity). rewrite E. cbn [negb].
      change (nleb (n := Rnum) x a) with (Rleb x a). destruct (Rleb x a) eqn:C; cbn [orb]; [left|right]; (split; [reflexivity|]).
      - now apply Rleb_t. - left. now apply Rleb_f. }
    split.
    + destruct I1 as [E|I1]; [|right; now right]. destruct M as [[M _]|[M _]]; rewrite <- E, M; [now left|right; now left].
    + intros y Hy. destruct Hy as [<-|[<-|Hy]]; [| |apply I2; now right]; (eapply Rle_trans; [apply I2; now left|]); destruct M as [[-> M]|[-> M]]; lra.
Qed.
Lemma check_R (X : list (list R)) : concat X <> [] -> nonnegative X -> check_non_negative (N := Rnum) X = Ok tt.
Proof.
  intros Ne P. unfold check_non_negative. change (concat X) with (concat X : list R).
  assert (Q : forall y, In y (concat X) -> 0 <= y).
  { intros y Hy. apply in_concat in Hy. destruct Hy as (r & Hr & Hy). destruct (In_nth _ _ [] Hr) as (i & Hi & <-). destruct (In_nth _ _ 0 Hy) as (j & Hj & <-). apply (P i j). }
  revert Ne Q. generalize (concat X) as l. intros [|x l] Ne Q; [easy|]. destruct (min_fold l x) as [I _]. specialize (Q _ I).
  change (nltb (n := Rnum) (fold_left (np_minimum (N := Rnum)) l x) nzero) with (Rltb (fold_left (np_minimum (N := Rnum)) l x) 0).
  destruct (Rltb _ 0) eqn:E; [|reflexivity]. apply Rltb_t in E. exfalso. apply (Rlt_irrefl 0). eapply Rle_lt_trans; [exact Q|exact E].
Qed.
Lemma check_R_neg (X : list (list R)) i j : mat X i j < 0 -> check_non_negative (N := Rnum) X = Raise ValueError.
Proof.
  intro H. assert (I : In (mat X i j) (concat X)).
  { apply in_concat. exists (nth i X []). unfold mat, entry in *. split.
    - destruct (le_lt_dec (length X) i) as [C|C]; [|now apply nth_In]. rewrite (nth_overflow X) in H by exact C. destruct j; cbn in H; lra.
    - destruct (le_lt_dec (length (nth i X [])) j) as [C|C]; [|now apply nth_In]. rewrite nth_overflow in H by exact C. lra. }
  unfold check_non_negative. change (@concat (carrier Rnum) X) with (@concat R X). revert I. generalize (concat X) as l. intros [|x l] I; [destruct I|]. destruct (min_fold l x) as [_ Q]. specialize (Q _ I).
  assert (E : Rltb (fold_left (np_minimum (N := Rnum)) l x) 0 = true) by (apply Rltb_t; eapply Rle_lt_trans; [exact Q|exact H]).
  exact (f_equal (fun b : bool => if b then Raise ValueError else Ok tt) E).
Qed.

Lemma normalize_ok {N : NumOps} (finite : N -> bool) (H : list (list N)) p : (forall x, finite x = true) -> H <> [] -> (0 < p)%nat -> exists H', sk_normalize finite H p = Ok H'.
Proof.
  intros F Ne Hp. unfold sk_normalize. destruct (Nat.eqb_spec (length H) 0) as [L|L]; [destruct H; [easy|discriminate]|].
  destruct (Nat.eqb_spec p 0); [lia|]. assert (E : forallb (forallb finite) H = true) by (apply forallb_forall; intros; apply forallb_forall; auto). rewrite E. cbn. eauto.
Qed.

Section Returns.
  Variables (finite : R -> bool) (RS : Type) (randint : nat -> nat -> RS -> result (list (list nat)) * RS)
    (nmf : nat -> list (list R) -> RS -> result (list (list R)) * RS) (cluster : list (list R) -> result (list Z)) (cons_meth : list (list R) -> list R).
  Notation fit := (nmf_fit (N := Rnum) finite RS randint nmf cluster cons_meth).
  Variable p : nat.
  Hypothesis contract : forall k s st H st', (0 < k)%nat -> nmf k s st = (Ok H, st') -> basis k p H /\ nonnegative H.
  Hypothesis sizes : forall n b st reps st', randint n b st = (Ok reps, st') -> length reps = b.
  Hypothesis fin : forall x, finite x = true.

  Lemma choose_ok ks ss st boots st' o : all_factorized _ RS nmf ks ss st boots st' -> length boots = n_boots o -> (0 < n_boots o)%nat ->
    ks <> [] -> Forall (fun k => (0 < k)%nat) ks ->
    exists Hpre, snd (choose_bases (N := Rnum) o ks boots) = Ok Hpre /\ Hpre <> [] /\
      (use_dissimilarity o = true -> exists ds, fst (choose_bases (N := Rnum) o ks boots) = set_dissimilarity (N := Rnum) o ds /\ length ds = length ks) /\
      (use_dissimilarity o = false -> fst (choose_bases (N := Rnum) o ks boots) = o).
  Proof.
    intros A Lb Hb Nk Pk. rewrite Forall_forall in Pk.
    assert (Kp : forall k, In k ks -> exists Hs, map (bases_of (N := Rnum) k) boots = Hs /\ length Hs = n_boots o /\ forall H, In H Hs -> basis k p H).
    { intros k Hk. destruct (kept_all RS nmf ks _ _ _ _ k A Hk) as (Hs & F & M & Q). exists Hs. split; [exact M|]. split; [rewrite <- M, map_length; exact Lb|].
      intros H0 H0I. destruct (Q H0 H0I) as (s & a & b & E). exact (proj1 (contract k s a H0 b (Pk k Hk) E)). }
    assert (Ne : forall k, In k ks -> concat (map (bases_of (N := Rnum) k) boots) <> []).
    { intros k Hk. destruct (Kp k Hk) as (Hs & M & L & Q). rewrite M. destruct Hs as [|B Hs]; [cbn in L; lia|]. destruct (Q B (or_introl eq_refl)) as [[LB _] _].
      specialize (Pk k Hk). destruct B; [cbn in LB; lia|discriminate]. }
    unfold choose_bases. destruct (use_dissimilarity o).
    - set (gam := fun k => match gamma_of (N := Rnum) (n_boots o) (map (bases_of (N := Rnum) k) boots) with Ok g => (g : R) | Raise _ => 0 end).
      assert (Gm : forall k, In k ks -> gamma_of (N := Rnum) (n_boots o) (map (bases_of (N := Rnum) k) boots) = Ok (gam k)).
      { intros k Hk. destruct (Kp k Hk) as (Hs & M & L & Q).
        destruct (gamma_value k p (n_boots o) Hs (Pk k Hk)) as (f & _ & G). { intros a Ha. apply Q, nth_In. exact (eq_ind_r (fun q => (a < q)%nat) Ha L). }
        unfold gam. rewrite M, G. reflexivity. }
      pose proof (mapM_all _ gam ks Gm) as Em.
      destruct (mapM _ ks) as [g|]; [|discriminate]. injection Em as ->. cbn [fst snd].
      assert (Ng : map gam ks <> []) by (destruct ks; [easy|discriminate]).
      destruct (argmin_R (map gam ks) Ng) as (i & Ei & [Hi _]). rewrite Ei. cbn [bind]. eexists. split; [reflexivity|]. split; [|split; [|discriminate]].
      + apply Ne. apply nth_In. rewrite map_length in Hi. exact Hi.
      + intros _. eexists. split; [reflexivity|]. now rewrite !map_length.
    - cbn [fst snd]. destruct ks as [|k ks]; [easy|]. eexists. split; [reflexivity|]. split; [|split; [discriminate|reflexivity]].
      cbn [map concat]. intro E. apply app_eq_nil in E. destruct E as [E _]. exact (Ne k (or_introl eq_refl) E).
  Qed.

  (** Up to the clustering nothing can fail. *)
  Lemma fit_until X st o ks reps st1 boots st' : concat X <> [] -> nonnegative X -> ranks o = Some ks -> ks <> [] -> Forall (fun k => (0 < k)%nat) ks ->
    (0 < n_boots o)%nat -> randint (length X) (n_boots o) st = (Ok reps, st1) ->
    all_factorized _ RS nmf ks (map (fun rep => map (fun i => nth i X []) rep) reps) st1 boots st' ->
    exists Hpre H o1, sk_normalize (N := Rnum) finite (filter (fun r => nnonzero (N := Rnum) (nsum (N := Rnum) r)) Hpre) p = Ok H /\ H <> [] /\ (0 < p)%nat /\
      (forall r, In r H -> length r = p /\ (forall j, 0 <= entry r j) /\ norm2 p r = 1) /\
      (if use_dissimilarity o then exists ds, o1 = set_dissimilarity (N := Rnum) o ds /\ length ds = length ks else o1 = o) /\
      fit X p st o = match consensus (N := Rnum) finite cluster cons_meth Hpre p with
        | Raise e => (o1, Raise e, st')
        | Ok (H, labels, C) => (mkNmf (N := Rnum) (n_boots o) (ranks o) (use_dissimilarity o) (Some C) (Some H) (Some labels) (Some reps) (dissimilarity_ o1) None, Ok tt, st')
        end.
  Proof.
    intros NX PX Ek Nk Pk Hb Er A.
    assert (Lb : length boots = n_boots o) by (refine (eq_trans (all_length (N := Rnum) _ _ _ _ _ _ _ A) _); rewrite map_length; exact (sizes _ _ _ _ _ Er)).
    destruct (choose_ok ks _ _ _ _ o A Lb Hb Nk Pk) as (Hpre & Ec & Ne & D1 & D2).
    pose proof (chosen_rows RS nmf p contract ks _ _ _ _ o Hpre A Pk Ec) as Rw.
    assert (Fl : filter (fun r => nnonzero (N := Rnum) (nsum (N := Rnum) r)) Hpre = Hpre) by (apply filter_all; intros r Hr; apply (Rw r Hr)).
    assert (Pp : (0 < p)%nat). { destruct Hpre as [|r Hp]; [easy|]. destruct (Rw r (or_introl eq_refl)) as (_ & _ & (j & Hj & _) & _). lia. }
    destruct (normalize_ok (N := Rnum) finite Hpre p fin Ne Pp) as (H & EH).
    pose proof (proj2 (proj2 (normalize_inv finite Hpre p H EH ltac:(apply Forall_forall; intros r Hr; apply (Rw r Hr))))) as F1.
    exists Hpre, H, (fst (choose_bases (N := Rnum) o ks boots)). split; [exact (eq_trans (f_equal (fun h => sk_normalize (N := Rnum) finite h p) Fl) EH)|].
    split; [inversion F1; [subst; easy|discriminate]|]. split; [exact Pp|]. split.
    { intros r Hr. destruct (Forall2_in _ _ _ _ F1 Hr) as (a & Ha & Sa). destruct (Rw a Ha) as (L & P & Nz & _). split; [apply Sa|]. split; [apply (scaled_nonneg p a r Sa); auto|apply (scaled_norm p a r Sa), norm2_pos, Nz]. }
    split; [destruct (use_dissimilarity o); auto|].
    exact (nmf_fit_fwd (N := Rnum) finite RS randint nmf cluster cons_meth X p st o ks reps st1 boots st' Hpre (check_R X NX PX) Ek Er A Ec).
  Qed.

  (** A clustering with labels 0..k-1 makes the fit return. *)
  Lemma fit_returns X st o ks reps st1 boots st' k : concat X <> [] -> nonnegative X -> ranks o = Some ks -> ks <> [] -> Forall (fun k => (0 < k)%nat) ks ->
    (0 < n_boots o)%nat -> randint (length X) (n_boots o) st = (Ok reps, st1) ->
    all_factorized _ RS nmf ks (map (fun rep => map (fun i => nth i X []) rep) reps) st1 boots st' ->
    (0 < k)%nat -> (forall H, H <> [] -> exists labels, cluster H = Ok labels /\ labelling k labels) -> exists o', fit X p st o = (o', Ok tt, st').
  Proof.
    intros NX PX Ek Nk Pk Hb Er A Hk Cl. destruct (fit_until X st o ks reps st1 boots st' NX PX Ek Nk Pk Hb Er A) as (Hpre & H & o1 & EH & Ne & Pp & _ & _ & Ef).
    destruct (Cl H Ne) as (labels & El & Lk). destruct (normalize_ok (N := Rnum) finite (map (fun i => cons_meth (labelled H labels (Z.of_nat i))) (seq 0 k)) p fin ltac:(destruct k; [lia|discriminate]) Pp) as (C & EC).
    assert (E : consensus (N := Rnum) finite cluster cons_meth Hpre p = Ok (H, labels, C)).
    { exact (consensus_fwd (N := Rnum) finite cluster cons_meth Hpre p H labels k C EH El Lk EC). }
    eexists. refine (eq_trans Ef _). rewrite E. reflexivity.
  Qed.
  Lemma fit_noise X st o ks reps st1 boots st' : concat X <> [] -> nonnegative X -> ranks o = Some ks -> ks <> [] -> Forall (fun k => (0 < k)%nat) ks ->
    (0 < n_boots o)%nat -> randint (length X) (n_boots o) st = (Ok reps, st1) ->
    all_factorized _ RS nmf ks (map (fun rep => map (fun i => nth i X []) rep) reps) st1 boots st' ->
    (forall H, H <> [] -> exists labels, cluster H = Ok labels /\ Forall (fun l => l = (-1)%Z) labels) ->
    exists o', fit X p st o = (o', Raise ValueError, st') /\
      (if use_dissimilarity o then exists ds, o' = set_dissimilarity (N := Rnum) o ds /\ length ds = length ks else o' = o).
  Proof.
    intros NX PX Ek Nk Pk Hb Er A Cl. destruct (fit_until X st o ks reps st1 boots st' NX PX Ek Nk Pk Hb Er A) as (Hpre & H & o1 & EH & Ne & Pp & _ & D & Ef).
    destruct (Cl H Ne) as (labels & El & F). exists o1. split; [|exact D]. refine (eq_trans Ef _). rewrite (consensus_noise (N := Rnum) finite cluster cons_meth Hpre p H labels EH El F). reflexivity.
  Qed.
  Lemma distinct_length labels ids : NoDup ids -> (forall c, In c ids <-> In c labels /\ c <> (-1)%Z) ->
    length (unique (filter (fun l => negb (l =? -1)%Z) labels)) = length ids.
  Proof.
    intros Nd E. apply Permutation_length, NoDup_Permutation; [|exact Nd|].
    - pose proof (unique_sorted (filter (fun l => negb (l =? -1)%Z) labels)) as S. induction S as [|a l S IH F]; constructor; [|exact IH]. intro I. rewrite Forall_forall in F. specialize (F a I). lia.
    - intro c. rewrite unique_In, filter_In, E. destruct (Z.eqb_spec c (-1)); cbn; intuition; discriminate.
  Qed.
  Lemma fit_bad_label X st o ks reps st1 boots st' : concat X <> [] -> nonnegative X -> ranks o = Some ks -> ks <> [] -> Forall (fun k => (0 < k)%nat) ks ->
    (0 < n_boots o)%nat -> randint (length X) (n_boots o) st = (Ok reps, st1) ->
    all_factorized _ RS nmf ks (map (fun rep => map (fun i => nth i X []) rep) reps) st1 boots st' ->
    (forall H, H <> [] -> exists labels ids c, cluster H = Ok labels /\ NoDup ids /\ (forall c, In c ids <-> In c labels /\ c <> (-1)%Z) /\
       In c ids /\ (c < - Z.of_nat (length ids) \/ Z.of_nat (length ids) <= c)%Z) ->
    exists o', fit X p st o = (o', Raise IndexError, st') /\
      (if use_dissimilarity o then exists ds, o' = set_dissimilarity (N := Rnum) o ds /\ length ds = length ks else o' = o).
  Proof.
    intros NX PX Ek Nk Pk Hb Er A Cl. destruct (fit_until X st o ks reps st1 boots st' NX PX Ek Nk Pk Hb Er A) as (Hpre & H & o1 & EH & Ne & Pp & _ & D & Ef).
    destruct (Cl H Ne) as (labels & ids & c & El & Nd & Ei & Ic & B). exists o1. split; [|exact D]. refine (eq_trans Ef _).
    apply Ei in Ic. destruct Ic as [Ic Nc].
    rewrite (consensus_bad_label (N := Rnum) finite cluster cons_meth Hpre p H labels c EH El Ic Nc); [reflexivity|]. cbv zeta. rewrite (distinct_length labels ids Nd Ei). exact B.
  Qed.

  (** Without dissimilarity the bases of all ranks are used. *)
  Lemma fit_all X st o o' st' ks : fit X p st o = (o', Ok tt, st') -> ranks o = Some ks -> Forall (fun k => (0 < k)%nat) ks -> use_dissimilarity o = false ->
    exists reps st1 boots H, randint (length X) (n_boots o) st = (Ok reps, st1) /\
      all_factorized _ RS nmf ks (map (fun rep => map (fun i => nth i X []) rep) reps) st1 boots st' /\
      dissimilarity_ o' = dissimilarity_ o /\ bases_samples_ o' = Some H /\
      forall Hss, Forall2 (fun k Hs => Forall2 (kept _ k) boots Hs) ks Hss -> Forall2 (scaled p) (concat (map (@concat (list R)) Hss)) H.
  Proof.
    intros Ft Ek Pk Ud. apply nmf_fit_inv in Ft. destruct Ft as (ks' & reps & st1 & boots & Hpre & H & labels & C & Ek' & Er & A & Ec & Ef & ->).
    rewrite Ek in Ek'. injection Ek' as <-. exists reps, st1, boots, H. split; [exact Er|]. split; [exact A|]. split; [cbn; unfold choose_bases; now rewrite Ud|]. split; [reflexivity|].
    intros Hss F. pose proof (chosen_rows RS nmf p contract ks _ _ _ _ o Hpre A Pk Ec) as Rw. apply consensus_inv in Ef. destruct Ef as (E1 & _).
    assert (EH : Hpre = concat (map (@concat (list R)) Hss)).
    { unfold choose_bases in Ec. rewrite Ud in Ec. cbn [snd] in Ec.
      assert (E : Hpre = concat (map (fun k => concat (map (bases_of (N := Rnum) k) boots)) ks)) by (destruct ks; [discriminate|injection Ec as <-; reflexivity]).
      rewrite E. f_equal. clear -F. induction F as [|k Hs ks Hss K F IH]; [reflexivity|]. cbn [map]. f_equal; [|exact IH]. apply f_equal.
      clear -K. induction K as [|b B bs Bs Q K IH]; [reflexivity|]. cbn [map]. f_equal; [exact (kept_bases (N := Rnum) k b B Q)|exact IH]. }
    pose proof (eq_trans (f_equal (fun h => sk_normalize (N := Rnum) finite h p) (eq_sym (filter_all (fun r => nnonzero (N := Rnum) (nsum (N := Rnum) r)) Hpre (fun r Hr => proj2 (proj2 (proj2 (Rw r Hr))))))) E1) as E1'.
    apply normalize_inv in E1'; [|apply Forall_forall; intros r Hr; apply (Rw r Hr)]. rewrite <- EH. apply E1'.
  Qed.
End Returns.

(** ** transform and inverse_transform *)
Section Transform.
  Variables (nnreg : list (list R) -> list R -> result (list R)) (trunc : R -> R).
  Lemma product_R n k p W C : matrix n k W -> matrix k p C -> matrix n p (product (N := Rnum) W C p) /\
    forall i j, (i < n)%nat -> (j < p)%nat -> mat (product (N := Rnum) W C p) i j = Sum k (fun c => mat W i c * mat C c j).
  Proof.
    intros [LW FW] [LC FC]. split.
    - split; [unfold product; now rewrite map_length|]. apply Forall_forall. intros r Hr. apply in_map_iff in Hr. destruct Hr as (w & <- & _). now rewrite map_length, seq_length.
    - intros i j Hi Hj. unfold mat at 1, product.
      pose (g := fun w : list R => map (fun j => nsum (N := Rnum) (map2 Rmult w (map (fun c : list R => nth j c 0) C))) (seq 0 p)).
      change (entry (nth i (map g W) []) j = Sum k (fun c => mat W i c * mat C c j)).
      assert (Hi' : (i < length (map g W))%nat) by (rewrite map_length; lia).
      rewrite (nth_indep _ [] (g []) Hi'), (map_nth g). unfold g. unfold entry.
      set (h := (fun j : nat => nsum (N := Rnum) (map2 Rmult (nth i W []) (map (fun c : list R => nth j c 0) C))) : nat -> R).
      change (nth j (map h (seq 0 p)) 0 = Sum k (fun c => mat W i c * mat C c j)).
      assert (Hj' : (j < length (map h (seq 0 p)))%nat) by (rewrite map_length, seq_length; exact Hj).
      rewrite (nth_indep _ 0 (h 0%nat) Hj'), (map_nth h), seq_nth by exact Hj. cbn [plus]. unfold h.
      assert (Lw : length (nth i W []) = k) by (rewrite Forall_forall in FW; apply FW, nth_In; lia).
      assert (E : nsum (N := Rnum) (map2 Rmult (nth i W []) (map (fun c : list R => nth j c 0) C)) = Sum k (fun c => entry (nth i W []) c * entry (map (fun c : list R => nth j c 0) C) c)).
      { assert (Le : length (nth i W []) = length (map (fun c : list R => nth j c 0) C)) by (rewrite map_length, LC; exact Lw).
        refine (eq_trans (ndot_Sum (nth i W []) (map (fun c : list R => nth j c 0) C) Le) _). exact (f_equal (fun q => Sum q (fun c => entry (nth i W []) c * entry (map (fun c : list R => nth j c 0) C) c)) Lw). }
      rewrite E. apply Sum_ext. intros c Hc. unfold mat. f_equal. unfold entry.
      rewrite (nth_indep _ 0 ((fun c : list R => nth j c 0) [])) by (rewrite map_length; lia). now rewrite (map_nth (fun c : list R => nth j c 0)).
  Qed.

  (** Sum of squares of all entries. *)
  Lemma squares_app (a b : list R) : nsum (N := Rnum) (map (nsquare (N := Rnum)) (a ++ b)) = nsum (N := Rnum) (map (nsquare (N := Rnum)) a) + nsum (N := Rnum) (map (nsquare (N := Rnum)) b).
  Proof.
    induction a as [|x a IH]; [symmetry; apply Rplus_0_l|]. unfold nsum in *. cbn [app map fold_right].
    etransitivity; [exact (f_equal (Rplus (x * x)) IH)|]. symmetry. apply Rplus_assoc.
  Qed.
  Lemma squares_row p (a : list R) : length a = p -> nsum (N := Rnum) (map (nsquare (N := Rnum)) a) = Sum p (fun j => entry a j * entry a j).
  Proof.
    intros <-. induction a as [|x a IH]; [reflexivity|]. cbn [length]. rewrite Sum_shift. unfold nsum in *. cbn [map fold_right]. exact (f_equal (Rplus (x * x)) IH).
  Qed.
  Lemma frobenius p (X Y : list (list R)) : Forall (fun r => length r = p) X -> Forall (fun r => length r = p) Y -> length X = length Y ->
    nsum (N := Rnum) (map (nsquare (N := Rnum)) (concat (map2 (map2 Rminus) X Y))) = Sum (length X) (fun i => Sum p (fun j => (mat X i j - mat Y i j) * (mat X i j - mat Y i j))).
  Proof.
    intro FX. revert Y. induction FX as [|x X Lx FX IH]; intros [|y Y] FY L; try discriminate; [reflexivity|]. inversion FY as [|? ? Ly FY']; subst. cbn [map2 concat length]. rewrite Sum_shift.
    etransitivity; [apply squares_app|]. apply f_equal2; [|apply (IH Y FY'); now injection L].
    etransitivity; [apply (squares_row (length x)); rewrite map2_length, Ly; apply Nat.min_id|]. apply Sum_ext. intros j Hj. unfold mat, entry. cbn [nth].
    rewrite (map2_nth Rminus x y j 0 0 0) by lia. reflexivity.
  Qed.

  Lemma transposed_R k p C : (0 < k)%nat -> matrix k p C -> matrix p k (transposed (N := Rnum) C) /\
    forall j c, (j < p)%nat -> (c < k)%nat -> mat (transposed (N := Rnum) C) j c = mat C c j.
  Proof.
    intros Hk [LC FC]. assert (Lh : length (hd [] C) = p) by (destruct C as [|r C]; [cbn in LC; lia|]; now inversion FC).
    pose (g := fun j => map (fun c : list R => nth j c 0) C). assert (E : transposed (N := Rnum) C = map g (seq 0 p)) by exact (f_equal (fun q => map g (seq 0 q)) Lh). rewrite E. split.
    - split; [now rewrite map_length, seq_length|]. apply Forall_forall. intros r Hr. apply in_map_iff in Hr. destruct Hr as (j & <- & _). unfold g. now rewrite map_length.
    - intros j c Hj Hc. unfold mat. rewrite (nth_indep _ [] (g 0%nat)) by (now rewrite map_length, seq_length). rewrite (map_nth g), seq_nth by exact Hj. cbn [plus]. unfold g, entry.
      rewrite (nth_indep _ 0 ((fun c : list R => nth j c 0) [])) by (rewrite map_length; lia). now rewrite (map_nth (fun c : list R => nth j c 0)).
  Qed.
  Lemma hd_length k p (C : list (list R)) : (0 < k)%nat -> matrix k p C -> length (hd [] C) = p.
  Proof. intros Hk [LC FC]. destruct C as [|r C]; [cbn in LC; lia|]; now inversion FC. Qed.

  Lemma inverse_R o C k p n W : components_ (N := Rnum) o = Some C -> (0 < k)%nat -> matrix k p C -> matrix n k W ->
    exists Y, inverse_transform (N := Rnum) o W k = Ok Y /\ matrix n p Y /\
      forall i j, (i < n)%nat -> (j < p)%nat -> mat Y i j = Sum k (fun c => mat W i c * mat C c j).
  Proof.
    intros Ec Hk MC MW. exists (product (N := Rnum) W C p). split; [|exact (product_R n k p W C MW MC)].
    unfold inverse_transform. rewrite Ec. pose proof (hd_length k p C Hk MC) as Lh. destruct MC as [LC FC].
    assert (E : Nat.eqb k (length C) = true) by (apply Nat.eqb_eq; now symmetry). refine (eq_trans (f_equal (fun b => if negb b then Raise ValueError else Ok (product (N := Rnum) W C (length (hd [] C)))) E) _).
    exact (f_equal (fun q => Ok (product (N := Rnum) W C q)) Lh).
  Qed.

  Lemma truncated n k (W : list (list R)) i c : matrix n k W -> (i < n)%nat -> (c < k)%nat -> mat (map (map trunc) W) i c = trunc (mat W i c).
  Proof.
    intros [L F] Hi Hc. unfold mat, entry. rewrite (nth_indep _ [] (map trunc [])) by (rewrite map_length; lia). rewrite (map_nth (map trunc)).
    assert (Lr : length (nth i W []) = k) by (rewrite Forall_forall in F; apply F, nth_In; lia).
    rewrite (nth_indep _ 0 (trunc 0)) by (rewrite map_length; lia). now rewrite (map_nth trunc).
  Qed.
  Lemma transform_R o C k p n X integer err : components_ (N := Rnum) o = Some C -> (0 < k)%nat -> matrix k p C -> matrix n p X ->
    (forall A b w, nnreg A b = Ok w -> length w = k) ->
    forall o' W, nmf_transform (N := Rnum) nnreg trunc o X p integer err = (o', Ok W) ->
    exists A W0, matrix p k A /\ (forall j c, (j < p)%nat -> (c < k)%nat -> mat A j c = mat C c j) /\
      matrix n k W0 /\ matrix n k W /\
      (forall i, (i < n)%nat -> nnreg A (row X i) = Ok (row W0 i)) /\
      (forall i c, (i < n)%nat -> (c < k)%nat -> mat W i c = if integer then trunc (mat W0 i c) else mat W0 i c) /\
      o' = (if err then set_error (N := Rnum) o (sqrt (Sum n (fun i => Sum p (fun j => (mat X i j - Sum k (fun c => mat W i c * mat C c j)) * (mat X i j - Sum k (fun c => mat W i c * mat C c j)))))) else o).
  Proof.
    intros Ec Hk MC MX Cn o' W. unfold nmf_transform. rewrite Ec. pose proof (hd_length k p C Hk MC) as Lh.
    match goal with |- (if negb ?b then _ else _) = _ -> _ => destruct b; [|discriminate] end. cbn [negb].
    match goal with |- match ?m with _ => _ end = _ -> _ => destruct m as [W0|] eqn:EW; [|discriminate] end.
    destruct (transposed_R k p C Hk MC) as [MA EA]. destruct MX as [LX FX].
    pose proof (mapM_len _ _ _ EW) as LW0.
    assert (LW0' : length W0 = n) by (refine (eq_trans LW0 LX)).
    assert (Rows : forall i, (i < n)%nat -> nnreg (transposed (N := Rnum) C) (row X i) = Ok (row W0 i)).
    { intros i Hi. apply (mapM_nth (nnreg (transposed (N := Rnum) C)) X W0 [] [] i EW). now rewrite LX. }
    assert (MW0 : matrix n k W0).
    { split; [exact LW0'|]. apply Forall_forall. intros r Hr. destruct (In_nth _ _ [] Hr) as (i & Hi & <-). apply (Cn (transposed (N := Rnum) C) (row X i)). apply Rows. exact (eq_ind (length W0) (fun q => (i < q)%nat) Hi n LW0'). }
    set (W1 := (if integer then map (map trunc) W0 else W0) : list (list R)).
    assert (MW1 : matrix n k W1).
    { unfold W1. destruct integer; [|exact MW0]. destruct MW0 as [_ FW0]. split; [now rewrite map_length|]. apply Forall_forall. intros r Hr. apply in_map_iff in Hr. destruct Hr as (r0 & <- & Hr0). rewrite map_length. rewrite Forall_forall in FW0. now apply FW0. }
    assert (EW1 : forall i c, (i < n)%nat -> (c < k)%nat -> mat W1 i c = if integer then trunc (mat W0 i c) else mat W0 i c).
    { intros i c Hi Hc. unfold W1. destruct integer; [|reflexivity]. exact (truncated n k W0 i c MW0 Hi Hc). }
    intro Q. exists (transposed (N := Rnum) C), W0.
    assert (Q' : (if err then set_error (N := Rnum) o (sqrt (nsum (N := Rnum) (map (nsquare (N := Rnum)) (concat (map2 (map2 Rminus) X (product (N := Rnum) W1 C p)))))) else o, Ok W1) = (o', Ok W)) by exact Q.
    clear Q. injection Q' as Eo <-. split; [exact MA|]. split; [exact EA|]. split; [exact MW0|]. split; [exact MW1|]. split; [exact Rows|]. split; [exact EW1|].
    rewrite <- Eo. destruct err; [|reflexivity]. f_equal. f_equal. destruct (product_R n k p W1 C MW1 MC) as [[LP FP] EP].
    refine (eq_trans (frobenius p X _ FX FP (eq_trans LX (eq_sym LP))) _). rewrite LX. apply Sum_ext. intros i Hi. apply Sum_ext. intros j Hj. rewrite (EP i j Hi Hj). reflexivity.
  Qed.
  Lemma transform_returns o C k p n X integer err : components_ (N := Rnum) o = Some C -> (0 < k)%nat -> matrix k p C -> matrix n p X ->
    (forall A b, exists w, nnreg A b = Ok w) -> exists o' W, nmf_transform (N := Rnum) nnreg trunc o X p integer err = (o', Ok W).
  Proof.
    intros Ec Hk MC MX Cn. unfold nmf_transform. rewrite Ec. pose proof (hd_length k p C Hk MC) as Lh.
    assert (E : Nat.eqb p (length (hd [] C)) = true) by (apply Nat.eqb_eq; now symmetry).
    assert (exists W, mapM (nnreg (transposed (N := Rnum) C)) X = Ok W) as (W & EW).
    { clear -Cn. induction X as [|x X IH]; [exists []; reflexivity|]. destruct (Cn (transposed (N := Rnum) C) x) as (w & Ew). destruct IH as (W & EW). exists (w :: W). cbn. rewrite Ew. cbn. rewrite EW. reflexivity. }
    match goal with |- context [if negb ?b then _ else _] => replace b with true by (symmetry; exact E) end. cbn [negb].
    match goal with |- context [match ?m with Raise _ => _ | Ok _ => _ end] => replace m with (@Ok (list (list R)) W) by (symmetry; exact EW) end. eauto.
  Qed.
End Transform.

Lemma nonneg_matrix n k (W : list (list R)) : matrix n k W -> (forall i c, (i < n)%nat -> (c < k)%nat -> 0 <= mat W i c) -> nonnegative W.
Proof.
  intros [LW FW] P i c. destruct (le_lt_dec n i) as [Ci|Ci]; [unfold mat, entry; rewrite (nth_overflow W) by lia; destruct c; cbn; lra|].
  destruct (le_lt_dec k c) as [Cc|Cc]; [|auto]. unfold mat, entry. rewrite nth_overflow; [lra|]. rewrite Forall_forall in FW. rewrite (FW (nth i W [])) by (apply nth_In; lia). exact Cc.
Qed.
(** The reconstruction error of an optimal non-negative regression is minimal. *)
Lemma best_weights nnreg trunc o C k p n X o' W : components_ (N := Rnum) o = Some C -> (0 < k)%nat -> matrix k p C -> matrix n p X ->
  (forall A b w, nnreg A b = Ok w -> length w = k /\ (forall c, 0 <= entry w c) /\
     forall v, length v = k -> (forall c, 0 <= entry v c) ->
       Sum p (fun j => (entry b j - Sum k (fun c => mat A j c * entry w c)) * (entry b j - Sum k (fun c => mat A j c * entry w c))) <=
       Sum p (fun j => (entry b j - Sum k (fun c => mat A j c * entry v c)) * (entry b j - Sum k (fun c => mat A j c * entry v c)))) ->
  nmf_transform (N := Rnum) nnreg trunc o X p false true = (o', Ok W) ->
  exists e, reconstruction_err_ o' = Some e /\ nonnegative W /\ forall V, matrix n k V -> nonnegative V ->
    e <= sqrt (Sum n (fun i => Sum p (fun j => (mat X i j - Sum k (fun c => mat V i c * mat C c j)) * (mat X i j - Sum k (fun c => mat V i c * mat C c j))))).
Proof.
  intros Ec Hk MC MX Cn E. destruct (transform_R nnreg trunc o C k p n X false true Ec Hk MC MX (fun A b w Q => proj1 (Cn A b w Q)) o' W E) as (A & W0 & MA & EA & MW0 & MW & Rw & EW & ->).
  eexists. split; [reflexivity|]. split.
  - apply (nonneg_matrix n k W MW). intros i c Hi Hc. apply (eq_ind_r (fun x => 0 <= x) (proj1 (proj2 (Cn A (row X i) (row W0 i) (Rw i Hi))) c) (EW i c Hi Hc)).
  - intros V MV PV. apply sqrt_le_1_alt. apply Sum_le. intros i Hi. destruct (Cn A (row X i) (row W0 i) (Rw i Hi)) as (_ & _ & Op).
    assert (Lv : length (nth i V []) = k) by (destruct MV as [LV FV]; rewrite Forall_forall in FV; apply FV, nth_In; lia).
    specialize (Op (row V i) Lv (fun c => PV i c)).
    eapply Rle_trans; [apply Req_le|eapply Rle_trans; [exact Op|apply Req_le]].
    + apply Sum_ext. intros j Hj. cbv beta. assert (Q : Sum k (fun c => mat W i c * mat C c j) = Sum k (fun c => mat A j c * entry (row W0 i) c)) by (apply Sum_ext; intros c Hc; rewrite (EA j c Hj Hc), (EW i c Hi Hc); unfold mat, row; ring). rewrite Q. reflexivity.
    + apply Sum_ext. intros j Hj. cbv beta. assert (Q : Sum k (fun c => mat V i c * mat C c j) = Sum k (fun c => mat A j c * entry (row V i) c)) by (apply Sum_ext; intros c Hc; rewrite (EA j c Hj Hc); unfold mat, row; ring). rewrite Q. reflexivity.
Qed.
