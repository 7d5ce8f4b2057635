(** Property theorems C61-C65 (non-negative matrix factorization: dissimilarity, UoI_NMF). *)
From Coq Require Import ZArith List Bool Arith Reals Lia Lra.
From Verif Require Import Prelude F64 F64Order Num Spec_Rescale Spec_Poisson Model_Nmf Spec_Nmf
  Proofs_Nmf Proofs_NmfFit Proofs_NmfMain Proofs_NmfNan Proofs_NmfTrans Proofs_NmfEx Proofs_CurMain.
Import ListNotations.

(** C61.  The dissimilarity of two bases is one minus the mean of the largest cosines. *)
Theorem C61_value : forall k p H1 H2, 0 < k -> basis k p H1 -> basis k p H2 ->
  exists d, dissimilarity (N := Rnum) H1 H2 = Ok d /\ is_dissimilarity k p H1 H2 d.
Proof. exact dissimilarity_value. Qed.
Print Assumptions C61_value.
Example C61_value_ex : exists d, dissimilarity (N := Rnum) ex_H1 ex_H3 = Ok d /\ is_dissimilarity 2 2 ex_H1 ex_H3 d.
Proof. exact (C61_value 2 2 ex_H1 ex_H3 ltac:(lia) ex_basis1 ex_basis3). Qed.

(** It lies between 0 and 2, and is at most 1 for non-negative bases. *)
Theorem C61_bounds : forall k p H1 H2 d, 0 < k -> basis k p H1 -> basis k p H2 -> dissimilarity (N := Rnum) H1 H2 = Ok d ->
  (0 <= d <= 2 /\ (nonnegative H1 -> nonnegative H2 -> d <= 1))%R.
Proof.
  intros k p H1 H2 d Hk B1 B2 E. destruct (dissimilarity_value k p H1 H2 Hk B1 B2) as (d' & E' & D). rewrite E in E'. injection E' as <-.
  exact (dissimilarity_bounds k p H1 H2 d Hk B1 B2 D).
Qed.
Print Assumptions C61_bounds.
(** One example with the largest value for non-negative bases. *)
Example C61_bounds_ex : exists d, dissimilarity (N := Rnum) ex_H1 ex_H2 = Ok d /\ (0 <= d <= 1)%R.
Proof.
  destruct (C61_value 2 2 ex_H1 ex_H2 ltac:(lia) ex_basis1 ex_basis2) as (d & E & _). exists d. split; [exact E|].
  destruct (C61_bounds 2 2 ex_H1 ex_H2 d ltac:(lia) ex_basis1 ex_basis2 E) as [A B]. split; [apply A|exact (B ex_nonneg1 ex_nonneg2)].
Qed.

Theorem C61_symmetric : forall k p H1 H2, 0 < k -> basis k p H1 -> basis k p H2 ->
  dissimilarity (N := Rnum) H1 H2 = dissimilarity (N := Rnum) H2 H1.
Proof. exact dissimilarity_sym. Qed.
Print Assumptions C61_symmetric.
Example C61_symmetric_ex : dissimilarity (N := Rnum) ex_H1 ex_H3 = dissimilarity (N := Rnum) ex_H3 ex_H1.
Proof. exact (C61_symmetric 2 2 ex_H1 ex_H3 ltac:(lia) ex_basis1 ex_basis3). Qed.

(** It is zero if and only if every vector of either basis is a positive multiple of some vector
    of the other one. *)
Theorem C61_zero_iff : forall k p H1 H2, 0 < k -> basis k p H1 -> basis k p H2 ->
  dissimilarity (N := Rnum) H1 H2 = Ok 0%R <->
    (forall i, i < k -> exists j, j < k /\ parallel p (row H1 i) (row H2 j)) /\
    (forall j, j < k -> exists i, i < k /\ parallel p (row H2 j) (row H1 i)).
Proof.
  intros k p H1 H2 Hk B1 B2. destruct (dissimilarity_value k p H1 H2 Hk B1 B2) as (d & E & D). pose proof (dissimilarity_zero k p H1 H2 d Hk B1 B2 D) as Z. split.
  - intro Q. apply Z. rewrite E in Q. now injection Q.
  - intro Q. apply Z in Q. rewrite E. now rewrite Q.
Qed.
Print Assumptions C61_zero_iff.
(** Vectors exchanged and rescaled; and a different basis. *)
Example C61_zero_iff_ex : dissimilarity (N := Rnum) ex_H1 ex_H2 = Ok 0%R /\ dissimilarity (N := Rnum) ex_H1 ex_H3 <> Ok 0%R.
Proof.
  split; [apply (C61_zero_iff 2 2 ex_H1 ex_H2 ltac:(lia) ex_basis1 ex_basis2), ex_parallel|].
  intro Q. apply (C61_zero_iff 2 2 ex_H1 ex_H3 ltac:(lia) ex_basis1 ex_basis3) in Q. exact (ex_not_parallel Q).
Qed.

(** C62.  A fit that returns: dissimilarity_ holds the average dissimilarity over all pairs of
    bootstraps for each rank, and the clustered bases are the normalized bases of the first rank
    with the smallest one.  The factorization is any function that returns non-negative bases. *)
Theorem C62_rank : forall finite RS randint nmf cluster cons_meth p,
  (forall k s st H st', 0 < k -> nmf k s st = (Ok H, st') -> basis k p H /\ nonnegative H) ->
  (forall n b st reps st', randint n b st = (Ok reps, st') -> length reps = b) ->
  forall X st o o' st' ks,
  nmf_fit (N := Rnum) finite RS randint nmf cluster cons_meth X p st o = (o', Ok tt, st') ->
  ranks o = Some ks -> Forall (fun k => 0 < k) ks -> use_dissimilarity o = true -> 2 <= n_boots o ->
  exists reps st1 boots ds i H,
    randint (length X) (n_boots o) st = (Ok reps, st1) /\
    all_factorized _ RS nmf ks (map (fun rep => map (fun i => nth i X []) rep) reps) st1 boots st' /\
    dissimilarity_ o' = Some ds /\ length ds = length ks /\
    (forall m, m < length ks -> exists Hs f, Forall2 (kept _ (nth m ks 0)) boots Hs /\
       (forall a b, a < b < n_boots o -> is_dissimilarity (nth m ks 0) p (nth a Hs []) (nth b Hs []) (f a b)) /\
       nth m ds 0%R = pair_average (n_boots o) f) /\
    first_smallest ds i /\ bases_samples_ o' = Some H /\
    forall Hs, Forall2 (kept _ (nth i ks 0)) boots Hs -> Forall2 (scaled p) (concat Hs) H.
Proof. exact fit_rank. Qed.
Print Assumptions C62_rank.
Example C62_rank_ex : forall cons_meth,
  (forall k s st H st', 0 < k -> ex_nmf k s st = (Ok H, st') -> basis k 2 H /\ nonnegative H) /\
  (forall n b st reps st', ex_randint n b st = (Ok reps, st') -> length reps = b) /\
  exists o', nmf_fit (N := Rnum) ex_finite nat ex_randint ex_nmf ex_cluster cons_meth ex_X 2 0 (ex_o true) = (o', Ok tt, 5).
Proof. intro c. split; [exact ex_contract|]. split; [exact ex_sizes|exact (ex_fit true c)]. Qed.

(** Without dissimilarity the bases of all ranks are clustered, in the order of the ranks. *)
Theorem C62_all_ranks : forall finite RS randint nmf cluster cons_meth p,
  (forall k s st H st', 0 < k -> nmf k s st = (Ok H, st') -> basis k p H /\ nonnegative H) ->
  forall X st o o' st' ks,
  nmf_fit (N := Rnum) finite RS randint nmf cluster cons_meth X p st o = (o', Ok tt, st') ->
  ranks o = Some ks -> Forall (fun k => 0 < k) ks -> use_dissimilarity o = false ->
  exists reps st1 boots H, randint (length X) (n_boots o) st = (Ok reps, st1) /\
    all_factorized _ RS nmf ks (map (fun rep => map (fun i => nth i X []) rep) reps) st1 boots st' /\
    dissimilarity_ o' = dissimilarity_ o /\ bases_samples_ o' = Some H /\
    forall Hss, Forall2 (fun k Hs => Forall2 (kept _ k) boots Hs) ks Hss -> Forall2 (scaled p) (concat (map (@concat (list R)) Hss)) H.
Proof. exact fit_all. Qed.
Print Assumptions C62_all_ranks.
Example C62_all_ranks_ex : forall cons_meth, exists o',
  nmf_fit (N := Rnum) ex_finite nat ex_randint ex_nmf ex_cluster cons_meth ex_X 2 0 (ex_o false) = (o', Ok tt, 5).
Proof. exact (ex_fit false). Qed.

(** In binary64 a zero vector in a bootstrap basis of a rank makes the dissimilarity of this rank
    NaN, and the first rank with a NaN wins: a rank that is NaN itself and not later. *)
Theorem C62_nan : forall exp64 ln64 finite RS randint nmf cluster cons_meth p,
  (forall k s st H st', nmf k s st = (Ok H, st') -> shape k p H) ->
  (forall n b st reps st', randint n b st = (Ok reps, st') -> length reps = b) ->
  forall X st o o' st' ks,
  nmf_fit (N := Fnum exp64 ln64) finite RS randint nmf cluster cons_meth X p st o = (o', Ok tt, st') ->
  ranks o = Some ks -> Forall (fun k => 0 < k) ks -> use_dissimilarity o = true -> 2 <= n_boots o ->
  exists reps st1 boots ds i H,
    randint (length X) (n_boots o) st = (Ok reps, st1) /\
    all_factorized _ RS nmf ks (map (fun rep => map (fun i => nth i X []) rep) reps) st1 boots st' /\
    dissimilarity_ o' = Some ds /\ length ds = length ks /\ bases_samples_ o' = Some H /\
    (forall z Hs b r, z < length ks -> Forall2 (kept _ (nth z ks 0)) boots Hs -> b < n_boots o -> In r (nth b Hs []) ->
       Forall (fun x => feqb x fzero = true) r -> nth z ds fzero = fnan /\ i <= z /\ nth i ds fzero = fnan) /\
    (forall Hs, Forall2 (kept _ (nth i ks 0)) boots Hs ->
       Forall2 (fun r h => exists d, h = map (fun x => fdiv x d) r)
         (filter (fun r => negb (feqb (nsum (N := Fnum exp64 ln64) r) fzero)) (concat Hs)) H).
Proof.
  intros exp64 ln64 finite RS randint nmf cluster cons_meth p C S.
  refine (fit_nan (N := Fnum exp64 ln64) fnan (fun x => eq_refl) fadd_nan_r (fun x => eq_refl) fmul_nan_r _ (fun x => eq_refl) eq_refl (zero_unit_row exp64 ln64) finite RS randint nmf cluster cons_meth p C S _ feqb_self).
  - intro x. now destruct x.
  - intros x y E. apply feqb_self in E. rewrite E. apply fleb_nan_r.
Qed.
Print Assumptions C62_nan.
(** Rank 1 has identical bases, rank 2 a zero vector; the bases of rank 2 are clustered. *)
Example C62_nan_ex : let r := nmf_fit (N := Fnum (fun x => x) (fun x => x)) (fun _ => true) nat ex_randint fx_nmf fx_cluster fx_cons [[fone; fone]; [fone; fzero]] 2 0 fx_o in
  snd (fst r) = Ok tt /\ option_map (fun ds => (length ds, nth 1 ds fzero)) (dissimilarity_ (fst (fst r))) = Some (2, fnan) /\
  bases_samples_ (fst (fst r)) = Some [[fone; fzero]; [fone; fzero]].
Proof. cbv zeta. split; [|split]; match goal with |- ?a = ?b => vm_cast_no_check (eq_refl b) end. Qed.

(** C63.  If the labels are -1 or 0..k-1 and all of the latter occur, components_ has [k] rows:
    row [c] is the consensus of the vectors with label [c], scaled to norm 1. *)
Theorem C63_clusters : forall finite RS randint nmf cluster cons_meth p,
  (forall k s st H st', 0 < k -> nmf k s st = (Ok H, st') -> basis k p H /\ nonnegative H) ->
  forall X st o o' st' ks k labels,
  nmf_fit (N := Rnum) finite RS randint nmf cluster cons_meth X p st o = (o', Ok tt, st') ->
  ranks o = Some ks -> Forall (fun k => 0 < k) ks -> labels_ o' = Some labels -> labelling k labels ->
  (forall rows, length (cons_meth rows) = p) ->
  exists H C, bases_samples_ o' = Some H /\ cluster H = Ok labels /\ components_ o' = Some C /\ length C = k /\
    (forall r, In r H -> length r = p /\ (forall j, (0 <= entry r j)%R) /\ norm2 p r = 1%R) /\
    (forall c, c < k -> scaled p (cons_meth (labelled H labels (Z.of_nat c))) (row C c)).
Proof. exact fit_components. Qed.
Print Assumptions C63_clusters. (* Example: C63_ex below. *)

(** With the mean (the default) the components are unit vectors in the non-negative orthant. *)
Theorem C63_mean : forall finite RS randint nmf cluster p,
  (forall k s st H st', 0 < k -> nmf k s st = (Ok H, st') -> basis k p H /\ nonnegative H) ->
  (forall H labels, cluster H = Ok labels -> length labels = length H) ->
  forall X st o o' st' ks k labels,
  nmf_fit (N := Rnum) finite RS randint nmf cluster (mean_vector p) X p st o = (o', Ok tt, st') ->
  ranks o = Some ks -> Forall (fun k => 0 < k) ks -> labels_ o' = Some labels -> labelling k labels ->
  exists C, components_ o' = Some C /\ matrix k p C /\ nonnegative C /\ forall c, c < k -> norm2 p (row C c) = 1%R.
Proof.
  intros finite RS randint nmf cluster p Cn Cl X st o o' st' ks k labels Ft Ek Pk El Lk.
  destruct (fit_components finite RS randint nmf cluster (mean_vector p) p Cn X st o o' st' ks k labels Ft Ek Pk El Lk) as (H & C & _ & Ec & Eo & LC & RH & Sc).
  { intro rows. unfold mean_vector. now rewrite map_length, seq_length. }
  exists C. split; [exact Eo|].
  assert (Mu : forall c, c < k -> (forall j, (j < p)%nat -> (0 <= entry (mean_vector p (labelled H labels (Z.of_nat c))) j)%R) /\ (0 < norm2 p (mean_vector p (labelled H labels (Z.of_nat c))))%R).
  { intros c Hc. apply mean_unit; [apply labelled_nonempty; [exact (Cl H labels Ec)|apply Lk; lia]|]. intros r Hr. apply RH. exact (labelled_in H labels _ r Hr). }
  assert (M : matrix k p C).
  { split; [exact LC|]. apply Forall_forall. intros r Hr. destruct (In_nth _ _ [] Hr) as (c & Hc & <-). apply (Sc c). exact (eq_ind (length C) (fun q => c < q) Hc k LC). }
  split; [exact M|]. split.
  - apply (nonneg_matrix k p C M). intros c j Hc Hj. exact (scaled_nonneg p _ _ (Sc c Hc) (proj1 (Mu c Hc)) j).
  - intros c Hc. exact (scaled_norm p _ _ (Sc c Hc) (proj2 (Mu c Hc))).
Qed.
Print Assumptions C63_mean. (* Example: C63_ex below. *)

(** Such labels make a fit return, given non-negative data and factorizations that run. *)
Theorem C63_returns : forall finite RS randint nmf cluster cons_meth p,
  (forall k s st H st', 0 < k -> nmf k s st = (Ok H, st') -> basis k p H /\ nonnegative H) ->
  (forall n b st reps st', randint n b st = (Ok reps, st') -> length reps = b) -> (forall x, finite x = true) ->
  forall X st o ks reps st1 boots st' k, concat X <> [] -> nonnegative X -> ranks o = Some ks -> ks <> [] -> Forall (fun k => 0 < k) ks ->
  0 < n_boots o -> randint (length X) (n_boots o) st = (Ok reps, st1) ->
  all_factorized _ RS nmf ks (map (fun rep => map (fun i => nth i X []) rep) reps) st1 boots st' ->
  0 < k -> (forall H, H <> [] -> exists labels, cluster H = Ok labels /\ labelling k labels) ->
  exists o', nmf_fit (N := Rnum) finite RS randint nmf cluster cons_meth X p st o = (o', Ok tt, st').
Proof. exact fit_returns. Qed.
Print Assumptions C63_returns.
Example C63_ex : forall diss, exists o' C, nmf_fit (N := Rnum) ex_finite nat ex_randint ex_nmf ex_cluster (mean_vector 2) ex_X 2 0 (ex_o diss) = (o', Ok tt, 5) /\
  components_ o' = Some C /\ length C = 1 /\ norm2 2 (row C 0) = 1%R.
Proof.
  intro diss. destruct (ex_fit diss (mean_vector 2)) as (o' & E). exists o'.
  pose proof (nmf_fit_inv (N := Rnum) _ _ _ _ _ _ _ _ _ _ _ _ E) as (ks & reps & st1 & boots & Hpre & H & labels & C & _ & _ & _ & _ & Ef & Eo).
  apply (consensus_inv (N := Rnum)) in Ef. destruct Ef as (EH & El & _). apply (normalize_eq (N := Rnum)) in EH. destruct EH as (Ne & _ & EH).
  assert (NH : H <> []) by (rewrite EH; destruct (filter _ _); [easy|discriminate]).
  destruct (ex_labelling H NH) as (l & El' & Lk). pose proof (eq_trans (eq_sym El) El') as Q. injection Q as ->.
  destruct (fit_components ex_finite nat ex_randint ex_nmf ex_cluster (mean_vector 2) 2 ex_contract ex_X 0 (ex_o diss) o' 5 [2; 1] 1 l E eq_refl ltac:(repeat constructor) ltac:(now rewrite Eo) Lk ltac:(reflexivity)) as (H' & C' & EH' & _ & EC & LC & RH & Sc).
  exists C'. split; [exact E|]. split; [exact EC|]. split; [exact LC|]. apply (scaled_norm 2 _ _ (Sc 0 ltac:(lia))).
  apply mean_unit.
  - rewrite Eo in EH'. injection EH' as <-. destruct H as [|r H]; [easy|]. injection El' as <-. discriminate.
  - intros r Hr. apply RH. exact (labelled_in _ _ _ _ Hr).
Qed.

(** C64.  ranks=None: the fit raises AttributeError. *)
Theorem C64_no_ranks : forall finite RS randint nmf cluster cons_meth b diss o X p st,
  nmf_init (N := Rnum) b RanksNone diss = Ok o -> concat X <> [] -> nonnegative X ->
  nmf_fit (N := Rnum) finite RS randint nmf cluster cons_meth X p st o = (o, Raise AttributeError, st).
Proof.
  intros finite RS randint nmf cluster cons_meth b diss o X p st E NX PX. unfold nmf_init in E. cbn [bind] in E. destruct (Nat.eqb b 1 && diss); [discriminate|]. injection E as <-.
  unfold nmf_fit. pose proof (check_R X NX PX) as C. destruct (check_non_negative (N := Rnum) X) as [[]|]; [reflexivity|discriminate].
Qed.
Print Assumptions C64_no_ranks.
Example C64_no_ranks_ex : exists o, nmf_init (N := Rnum) 10 RanksNone true = Ok o /\ concat ex_X <> [] /\ nonnegative ex_X.
Proof. eexists. split; [reflexivity|]. split; [discriminate|]. apply nonneg_of. repeat constructor; lra. Qed.

(** An int [z] stands for the ranks 2, ..., z, and a single bootstrap cannot be used with
    dissimilarity; a new object has no components, and methods that need them raise AttributeError. *)
Theorem C64_construction : forall (N : NumOps) b r diss,
  nmf_init (N := N) b r diss =
    match r with
    | RanksOther => Raise ValueError
    | _ => if Nat.eqb b 1 && diss then Raise ValueError
           else Ok (mkNmf b (match r with RanksInt z => Some (map Z.to_nat (map (fun i => Z.of_nat i + 2)%Z (seq 0 (Z.to_nat (z - 1))))) | RanksSeq l => Some l | _ => None end) diss None None None None None None)
    end.
Proof.
  intros N b r diss. unfold nmf_init. destruct r as [|z|l|]; cbn [bind]; try reflexivity. destruct (_ && _); [reflexivity|]. do 3 f_equal.
  rewrite map_map. rewrite (map_ext _ (fun i => 2 + i)) by (intro i; lia). symmetry.
  generalize (Z.to_nat (z - 1)) as n. clear. intro n. rewrite <- (seq_shift n 1), <- (seq_shift n 0), !map_map. apply map_ext. intro; lia.
Qed.
Print Assumptions C64_construction.
Example C64_construction_ex : nmf_init (N := Rnum) 1 (RanksInt 5) true = Raise ValueError /\
  option_map (fun o => ranks o) (match nmf_init (N := Rnum) 1 (RanksInt 5) false with Ok o => Some o | Raise _ => None end) = Some (Some [2; 3; 4; 5]).
Proof. split; reflexivity. Qed.

Theorem C64_not_fitted : forall (N : NumOps) nnreg trunc (o : nmf_state N) X W p q integer err, components_ o = None ->
  nmf_transform nnreg trunc o X p integer err = (o, Raise AttributeError) /\ inverse_transform o W q = Raise AttributeError.
Proof. intros N nnreg trunc o X W p q integer err E. unfold nmf_transform, inverse_transform. rewrite E. split; reflexivity. Qed.
Print Assumptions C64_not_fitted.
Example C64_not_fitted_ex : exists o, nmf_init (N := Rnum) 10 (RanksInt 5) true = Ok o /\ components_ o = None.
Proof. eexists. split; reflexivity. Qed.

(** Negative data: ValueError, nothing changes. *)
Theorem C64_negative : forall finite RS randint nmf cluster cons_meth X p st o i j, (mat X i j < 0)%R ->
  nmf_fit (N := Rnum) finite RS randint nmf cluster cons_meth X p st o = (o, Raise ValueError, st).
Proof.
  intros finite RS randint nmf cluster cons_meth X p st o i j H. unfold nmf_fit. pose proof (check_R_neg X i j H) as C.
  destruct (check_non_negative (N := Rnum) X) as [|e]; [discriminate|]. injection C as ->. reflexivity.
Qed.
Print Assumptions C64_negative.
Example C64_negative_ex : (mat [[1; 2]; [0; -1]] 1 1 < 0)%R. Proof. cbn. lra. Qed.

(** All bases are called noise: ValueError; dissimilarity_ is already that of the new data. *)
Theorem C64_noise : forall finite RS randint nmf cluster cons_meth p,
  (forall k s st H st', 0 < k -> nmf k s st = (Ok H, st') -> basis k p H /\ nonnegative H) ->
  (forall n b st reps st', randint n b st = (Ok reps, st') -> length reps = b) -> (forall x, finite x = true) ->
  forall X st o ks reps st1 boots st', concat X <> [] -> nonnegative X -> ranks o = Some ks -> ks <> [] -> Forall (fun k => 0 < k) ks ->
  0 < n_boots o -> randint (length X) (n_boots o) st = (Ok reps, st1) ->
  all_factorized _ RS nmf ks (map (fun rep => map (fun i => nth i X []) rep) reps) st1 boots st' ->
  (forall H, H <> [] -> exists labels, cluster H = Ok labels /\ Forall (fun l => l = (-1)%Z) labels) ->
  exists o', nmf_fit (N := Rnum) finite RS randint nmf cluster cons_meth X p st o = (o', Raise ValueError, st') /\
    (if use_dissimilarity o then exists ds, o' = set_dissimilarity (N := Rnum) o ds /\ length ds = length ks else o' = o).
Proof. exact fit_noise. Qed.
Print Assumptions C64_noise.
Example C64_noise_ex : forall diss cons_meth, exists o',
  nmf_fit (N := Rnum) ex_finite nat ex_randint ex_nmf ex_all_noise cons_meth ex_X 2 0 (ex_o diss) = (o', Raise ValueError, 5).
Proof.
  intros diss cons_meth. edestruct (C64_noise ex_finite nat ex_randint ex_nmf ex_all_noise cons_meth 2 ex_contract ex_sizes (fun _ => eq_refl) ex_X 0 (ex_o diss) [2; 1] (repeat (repeat 0 2) 2) 1 ex_boots 5) as (o' & E & _);
    [discriminate|apply nonneg_of; repeat constructor; lra|reflexivity|discriminate|repeat constructor|cbn; lia|reflexivity|exact ex_runs| |exists o'; exact E].
  intros H _. eexists. split; [reflexivity|]. apply Forall_forall. intros l Hl. now apply repeat_spec in Hl.
Qed.

(** A label outside -n..n-1, where n is the number of labels other than -1: IndexError. *)
Theorem C64_labels : forall finite RS randint nmf cluster cons_meth p,
  (forall k s st H st', 0 < k -> nmf k s st = (Ok H, st') -> basis k p H /\ nonnegative H) ->
  (forall n b st reps st', randint n b st = (Ok reps, st') -> length reps = b) -> (forall x, finite x = true) ->
  forall X st o ks reps st1 boots st', concat X <> [] -> nonnegative X -> ranks o = Some ks -> ks <> [] -> Forall (fun k => 0 < k) ks ->
  0 < n_boots o -> randint (length X) (n_boots o) st = (Ok reps, st1) ->
  all_factorized _ RS nmf ks (map (fun rep => map (fun i => nth i X []) rep) reps) st1 boots st' ->
  (forall H, H <> [] -> exists labels ids c, cluster H = Ok labels /\ NoDup ids /\ (forall c, In c ids <-> In c labels /\ c <> (-1)%Z) /\
     In c ids /\ (c < - Z.of_nat (length ids) \/ Z.of_nat (length ids) <= c)%Z) ->
  exists o', nmf_fit (N := Rnum) finite RS randint nmf cluster cons_meth X p st o = (o', Raise IndexError, st') /\
    (if use_dissimilarity o then exists ds, o' = set_dissimilarity (N := Rnum) o ds /\ length ds = length ks else o' = o).
Proof. exact fit_bad_label. Qed.
Print Assumptions C64_labels.
Example C64_labels_ex : forall diss cons_meth, exists o',
  nmf_fit (N := Rnum) ex_finite nat ex_randint ex_nmf ex_bad_labels cons_meth ex_X 2 0 (ex_o diss) = (o', Raise IndexError, 5).
Proof.
  intros diss cons_meth. edestruct (C64_labels ex_finite nat ex_randint ex_nmf ex_bad_labels cons_meth 2 ex_contract ex_sizes (fun _ => eq_refl) ex_X 0 (ex_o diss) [2; 1] (repeat (repeat 0 2) 2) 1 ex_boots 5) as (o' & E & _);
    [discriminate|apply nonneg_of; repeat constructor; lra|reflexivity|discriminate|repeat constructor|cbn; lia|reflexivity|exact ex_runs| |exists o'; exact E].
  intros H _. exists [7%Z], [7%Z], 7%Z. split; [reflexivity|]. split; [repeat constructor; intros []|]. split; [|split; [now left|right; cbn; lia]].
  intro c. cbn. intuition lia.
Qed.

(** C65.  The number of columns must be right; otherwise ValueError and nothing changes. *)
Theorem C65_columns : forall (N : NumOps) nnreg trunc (o : nmf_state N) C X W p q integer err, components_ o = Some C ->
  (p <> length (hd [] C) -> nmf_transform nnreg trunc o X p integer err = (o, Raise ValueError)) /\
  (q <> length C -> inverse_transform o W q = Raise ValueError).
Proof.
  intros N nnreg trunc o C X W p q integer err E. unfold nmf_transform, inverse_transform. rewrite E. split; intro Ne.
  - destruct (Nat.eqb_spec p (length (hd [] C))); [easy|reflexivity].
  - destruct (Nat.eqb_spec q (length C)); [easy|reflexivity].
Qed.
Print Assumptions C65_columns.
Example C65_columns_ex : components_ ex_fitted = Some ex_H1 /\ 3 <> length (hd [] ex_H1) /\ 3 <> length ex_H1.
Proof. repeat split; discriminate. Qed.

(** inverse_transform is the product with components_. *)
Theorem C65_product : forall o C k p n W, components_ (N := Rnum) o = Some C -> 0 < k -> matrix k p C -> matrix n k W ->
  exists Y, inverse_transform (N := Rnum) o W k = Ok Y /\ matrix n p Y /\
    forall i j, i < n -> j < p -> mat Y i j = Sum k (fun c => mat W i c * mat C c j)%R.
Proof. exact inverse_R. Qed.
Print Assumptions C65_product. (* Example: C65_linear_ex below. *)

(** It is linear. *)
Theorem C65_linear : forall o C k p n W V U Y1 Y2 Y3 a b, components_ (N := Rnum) o = Some C -> 0 < k -> matrix k p C ->
  matrix n k W -> matrix n k V -> matrix n k U -> (forall i c, i < n -> c < k -> (mat U i c = a * mat W i c + b * mat V i c)%R) ->
  inverse_transform (N := Rnum) o W k = Ok Y1 -> inverse_transform (N := Rnum) o V k = Ok Y2 -> inverse_transform (N := Rnum) o U k = Ok Y3 ->
  forall i j, i < n -> j < p -> (mat Y3 i j = a * mat Y1 i j + b * mat Y2 i j)%R.
Proof.
  intros o C k p n W V U Y1 Y2 Y3 a b Ec Hk MC MW MV MU L E1 E2 E3 i j Hi Hj.
  destruct (inverse_R o C k p n W Ec Hk MC MW) as (Y1' & Q1 & _ & P1). destruct (inverse_R o C k p n V Ec Hk MC MV) as (Y2' & Q2 & _ & P2). destruct (inverse_R o C k p n U Ec Hk MC MU) as (Y3' & Q3 & _ & P3).
  rewrite E1 in Q1. rewrite E2 in Q2. rewrite E3 in Q3. injection Q1 as <-. injection Q2 as <-. injection Q3 as <-.
  rewrite (P1 i j Hi Hj), (P2 i j Hi Hj), (P3 i j Hi Hj). rewrite <- !Proofs_Rescale.Sum_scal, <- Proofs_Rescale.Sum_plus. apply Proofs_Rescale.Sum_ext. intros c Hc. rewrite (L i c Hi Hc). ring.
Qed.
Print Assumptions C65_linear.
Example C65_linear_ex : components_ ex_fitted = Some ex_H1 /\ matrix 2 2 ex_H1 /\ matrix 1 2 [[1; 2]%R] /\ exists Y, inverse_transform (N := Rnum) ex_fitted [[1; 2]%R] 2 = Ok Y.
Proof. split; [reflexivity|]. split; [apply ex_basis1|]. split; [split; [reflexivity|repeat constructor]|]. eexists. reflexivity. Qed.

(** transform applies the regression to the transposed components and every row; integer input
    truncates the weights; reconstruction_err_ is the Frobenius norm of the residual. *)
Theorem C65_transform : forall nnreg trunc o C k p n X integer err, components_ (N := Rnum) o = Some C -> 0 < k -> matrix k p C -> matrix n p X ->
  (forall A b w, nnreg A b = Ok w -> length w = k) ->
  forall o' W, nmf_transform (N := Rnum) nnreg trunc o X p integer err = (o', Ok W) ->
  exists A W0, matrix p k A /\ (forall j c, j < p -> c < k -> mat A j c = mat C c j) /\
    matrix n k W0 /\ matrix n k W /\
    (forall i, i < n -> nnreg A (row X i) = Ok (row W0 i)) /\
    (forall i c, i < n -> c < k -> mat W i c = if integer then trunc (mat W0 i c) else mat W0 i c) /\
    o' = (if err then set_error (N := Rnum) o (sqrt (Sum n (fun i => Sum p (fun j => (mat X i j - Sum k (fun c => mat W i c * mat C c j)) * (mat X i j - Sum k (fun c => mat W i c * mat C c j))))))%R else o).
Proof. exact transform_R. Qed.
Print Assumptions C65_transform.
Example C65_transform_ex : forall trunc integer err, exists o' W, nmf_transform (N := Rnum) ex_nnreg trunc ex_fitted ex_X 2 integer err = (o', Ok W).
Proof.
  intros trunc integer err. apply (transform_returns ex_nnreg trunc ex_fitted ex_H1 2 2 2 ex_X integer err eq_refl ltac:(lia) (proj1 ex_basis1)); [split; [reflexivity|repeat constructor]|].
  intros A b. eexists. reflexivity.
Qed.
(** Integer input whose weights are below 1: the result is zero. *)
Theorem C64_truncated : forall nnreg trunc o C k p n X err, components_ (N := Rnum) o = Some C -> 0 < k -> matrix k p C -> matrix n p X ->
  (forall A b w, nnreg A b = Ok w -> length w = k /\ forall c, (0 <= entry w c < 1)%R) -> (forall x, (0 <= x < 1)%R -> trunc x = 0%R) ->
  forall o' W, nmf_transform (N := Rnum) nnreg trunc o X p true err = (o', Ok W) -> forall i c, i < n -> c < k -> mat W i c = 0%R.
Proof.
  intros nnreg trunc o C k p n X err Ec Hk MC MX Cn T o' W E i c Hi Hc.
  destruct (transform_R nnreg trunc o C k p n X true err Ec Hk MC MX (fun A b w Q => proj1 (Cn A b w Q)) o' W E) as (A & W0 & _ & _ & _ & _ & Rw & EW & _).
  etransitivity; [exact (EW i c Hi Hc)|]. apply T. apply (Cn A (row X i) (row W0 i) (Rw i Hi)).
Qed.
Print Assumptions C64_truncated.
(** All weights are 1/2; binary64 truncation of 1/2. *)
Example C64_truncated_ex : (forall A b w, ex_half A b = Ok w -> length w = 2 /\ forall c, (0 <= entry w c < 1)%R) /\
  (exists o' W, nmf_transform (N := Rnum) ex_half ex_trunc ex_fitted ex_X 2 true true = (o', Ok W)) /\
  ftrunc (fdiv fone (f64_of_Z 2)) = Some 0%Z.
Proof.
  split; [exact ex_half_weights|]. split; [|reflexivity].
  apply (transform_returns ex_half ex_trunc ex_fitted ex_H1 2 2 2 ex_X true true eq_refl ltac:(lia) (proj1 ex_basis1)); [split; [reflexivity|repeat constructor]|].
  intros A b. eexists. reflexivity.
Qed.

(** If the regression is optimal, no non-negative weights reconstruct the data better. *)
Theorem C65_best : forall nnreg trunc o C k p n X o' W, components_ (N := Rnum) o = Some C -> 0 < k -> matrix k p C -> matrix n p X ->
  (forall A b w, nnreg A b = Ok w -> length w = k /\ (forall c, (0 <= entry w c)%R) /\
     forall v, length v = k -> (forall c, (0 <= entry v c)%R) ->
       (Sum p (fun j => (entry b j - Sum k (fun c => mat A j c * entry w c)) * (entry b j - Sum k (fun c => mat A j c * entry w c))) <=
        Sum p (fun j => (entry b j - Sum k (fun c => mat A j c * entry v c)) * (entry b j - Sum k (fun c => mat A j c * entry v c))))%R) ->
  nmf_transform (N := Rnum) nnreg trunc o X p false true = (o', Ok W) ->
  exists e, reconstruction_err_ o' = Some e /\ nonnegative W /\ forall V, matrix n k V -> nonnegative V ->
    (e <= sqrt (Sum n (fun i => Sum p (fun j => (mat X i j - Sum k (fun c => mat V i c * mat C c j)) * (mat X i j - Sum k (fun c => mat V i c * mat C c j))))))%R.
Proof. exact best_weights. Qed.
Print Assumptions C65_best.
Example C65_best_ex : exists o' W e, nmf_transform (N := Rnum) ex_nnls1 (fun x => x) ex_fitted1 [[6%R]] 1 false true = (o', Ok W) /\ reconstruction_err_ o' = Some e /\ (e <= 0)%R.
Proof.
  assert (M1 : matrix 1 1 [[2%R]]) by (split; [reflexivity|repeat constructor]). assert (M2 : matrix 1 1 [[6%R]]) by (split; [reflexivity|repeat constructor]).
  destruct (transform_returns ex_nnls1 (fun x => x) ex_fitted1 [[2%R]] 1 1 1 [[6%R]] false true eq_refl ltac:(lia) M1 M2) as (o' & W & E). { intros A b. eexists. reflexivity. }
  destruct (C65_best ex_nnls1 (fun x => x) ex_fitted1 [[2%R]] 1 1 1 [[6%R]] o' W eq_refl ltac:(lia) M1 M2 ex_nnls1_best E) as (e & Ee & _ & B).
  exists o', W, e. split; [exact E|]. split; [exact Ee|]. specialize (B [[3%R]]). eapply Rle_trans; [apply B; [split; [reflexivity|repeat constructor]|apply nonneg_of; repeat constructor; lra]|].
  apply Req_le. rewrite <- sqrt_0. f_equal. cbn. ring.
Qed.
