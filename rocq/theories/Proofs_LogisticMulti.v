(** The L1 branch with several classes in real arithmetic (C38, C91). *)
From Coq Require Import ZArith List Bool Arith Reals Lra Lia.
From Verif Require Import Prelude Num Model_Mpi Model_Rescale Spec_Rescale Model_Poisson Spec_Poisson
  Model_Logistic Spec_Logistic Model_Lbfgs Spec_Lbfgs Model_LogisticFit Spec_LogisticFit
  Proofs_Intersection Proofs_Rescale Proofs_Poisson Proofs_PoissonOpt Proofs_PoissonMore
  Proofs_Logistic Proofs_LogisticGrad Proofs_LogisticGrid Proofs_Multinomial Proofs_MultiGrid Proofs_LogisticIntercept Proofs_LogisticMain
  Proofs_Lbfgs Proofs_LbfgsVec Proofs_LbfgsReal Proofs_LbfgsTrace Proofs_LbfgsMain Proofs_LogisticAbandon Proofs_LogisticConvex Proofs_LogisticFit
  Proofs_LogisticOpt.
Import ListNotations.
Local Open Scope R_scope.

(** ** Transposition *)
Section Trans.
  Context {N : NumOps}.
  Lemma trans_rows rows cols (a : list N) :
    Forall (fun r => length r = rows) (map (fun c => map (fun r => nth (r * cols + c) a nzero) (seq 0 rows)) (seq 0 cols)).
  Proof. apply Forall_forall. intros r Hr. apply in_map_iff in Hr. destruct Hr as (c & <- & _). now rewrite map_length, seq_length. Qed.
  Lemma trans_length rows cols (a : list N) : length (transposed rows cols a) = (cols * rows)%nat.
  Proof. unfold transposed. rewrite (length_concat_eq rows) by apply trans_rows. now rewrite map_length, seq_length. Qed.
  Lemma trans_nth rows cols (a : list N) r c : (r < rows)%nat -> (c < cols)%nat ->
    nth (c * rows + r) (transposed rows cols a) nzero = nth (r * cols + c) a nzero.
  Proof.
    intros Hr Hc. unfold transposed. rewrite (nth_concat rows) by (apply trans_rows || (rewrite ?map_length, ?seq_length; lia)).
    rewrite (nth_mapd (fun c => map (fun r => nth (r * cols + c) a nzero) (seq 0 rows)) (seq 0 cols) c 0%nat) by (rewrite seq_length; lia).
    rewrite seq_nth by lia. rewrite (nth_mapd (fun r => nth (r * cols + (0 + c)) a nzero) (seq 0 rows) r 0%nat) by (rewrite seq_length; lia).
    rewrite seq_nth by lia. reflexivity.
  Qed.
  Lemma grid_index a b i : (i < a * b)%nat -> (0 < b)%nat -> (i / b < a)%nat /\ (i mod b < b)%nat /\ i = (i / b * b + i mod b)%nat.
  Proof.
    intros Hi Hb. split; [apply Nat.div_lt_upper_bound; lia|]. split; [apply Nat.mod_upper_bound; lia|].
    rewrite (Nat.div_mod i b) at 1 by lia. lia.
  Qed.
  Lemma index_grid b j c : (c < b)%nat -> ((j * b + c) / b = j /\ (j * b + c) mod b = c)%nat.
  Proof.
    intros Hc. split.
    - rewrite Nat.div_add_l by lia. rewrite Nat.div_small by lia. lia.
    - rewrite Nat.add_comm, Nat.mod_add by lia. now apply Nat.mod_small.
  Qed.
  Lemma trans_trans rows cols (a : list N) : (0 < cols)%nat -> length a = (rows * cols)%nat -> transposed cols rows (transposed rows cols a) = a.
  Proof.
    intros Hc La. apply nth_ext with (d := nzero) (d' := nzero).
    - rewrite trans_length. lia.
    - intros i Hi. rewrite trans_length in Hi. destruct (grid_index rows cols i Hi Hc) as (I1 & I2 & ->).
      rewrite trans_nth by assumption. now rewrite trans_nth.
  Qed.
End Trans.

Lemma entry_trans rows cols (a : list R) r c : (r < rows)%nat -> (c < cols)%nat ->
  entry (transposed (N := Rnum) rows cols a) (c * rows + r) = entry a (r * cols + c).
Proof. exact (trans_nth (N := Rnum) rows cols a r c). Qed.

(** ** Sums over a grid in either order *)
Lemma Sum_order a b f g : (forall i j, (i < a)%nat -> (j < b)%nat -> f (i * b + j)%nat = g (j * a + i)%nat) -> Sum (a * b) f = Sum (b * a) g.
Proof.
  intros H. rewrite !Sum_pairs. rewrite (Sum_swap b a (fun j i => g (j * a + i)%nat)). apply Sum_ext. intros i Hi. apply Sum_ext. intros j Hj. now apply H.
Qed.
Lemma Sum_pad k p q f g : q = p \/ q = S p ->
  (forall c j, (c < k)%nat -> (j < q)%nat -> f (c * q + j)%nat = g (c * S p + j)%nat) ->
  (q = p -> forall c, (c < k)%nat -> g (c * S p + p)%nat = 0) -> Sum (k * q) f = Sum (k * S p) g.
Proof.
  intros Hq H Hz. rewrite !Sum_pairs. apply Sum_ext. intros c Hc. destruct Hq as [->| ->].
  - rewrite Sum_S, (Hz eq_refl c Hc), Rplus_0_r. apply Sum_ext. intros j Hj. now apply H.
  - apply Sum_ext. intros j Hj. now apply H.
Qed.

(** ** The objective *)
Section Multi.
  Variables (n p k q : nat) (X Y : list (list R)) (mask : option (list (list R))) (sw : list R).
  Hypothesis HX : matrix n p X.
  Hypothesis HY : matrix n k Y.
  Hypothesis Hn : (0 < n)%nat.
  Hypothesis Hk : (0 < k)%nat.
  Hypothesis Hp : (0 < p)%nat.
  Hypothesis Hq : q = p \/ q = S p.
  Hypothesis Hsw : length sw = n.
  Hypothesis Hm : match mask with Some m => matrix k p m | None => True end.
  Hypothesis H01 : forall m, mask = Some m -> forall c j, (c < k)%nat -> (j < p)%nat -> mat m c j = 0 \/ mat m c j = 1.
  Notation L w := (multinomial_loss_grad (N := Rnum) k p X Y 0 mask sw w).
  Notation T := (transposed (N := Rnum) q k).

  Definition zm (i : nat) : bool :=
    match mask with Some m => Nat.ltb (i / k) p && Reqb (mat m (i mod k) (i / k)) 0 | None => false end.
  Definition FM (x : list R) : R := fst (L (T x)).
  Definition GM (x : list R) : list R := transposed (N := Rnum) k q (snd (L (T x))).

  Lemma zm_true i : zm i = true -> exists m, mask = Some m /\ (i / k < p)%nat /\ mat m (i mod k) (i / k) = 0.
  Proof.
    clear - i. unfold zm. destruct mask as [m|]; [|discriminate]. intros H. apply andb_true_iff in H. destruct H as [H1 H2].
    apply Nat.ltb_lt in H1. apply Reqb_t in H2. now exists m.
  Qed.
  Lemma zm_at m c j : mask = Some m -> (c < k)%nat -> (j < p)%nat -> mat m c j = 0 -> zm (j * k + c) = true.
  Proof.
    clear - c j. intros Em Hc Hj E. unfold zm. rewrite Em. destruct (index_grid k j c Hc) as [-> ->]. apply andb_true_iff.
    split; [now apply Nat.ltb_lt|now apply Reqb_t].
  Qed.

  Lemma LT x : length (T x) = (k * q)%nat.
  Proof. apply trans_length. Qed.
  Lemma coefs_T (x : list R) c j : (c < k)%nat -> (j < q)%nat -> coefs q (T x) c j = entry x (j * k + c).
  Proof. intros Hc Hj. unfold coefs. now rewrite entry_trans. Qed.

  Lemma multi_computes {St} : computes (St := St) (q * k) zm (multi_objective (N := Rnum) k p q X Y mask sw) FM GM.
  Proof.
    intros st x g Lx Vx. split; [|split].
    - unfold multi_objective. cbn [snd].
      assert (Ex : match mask with Some m => if Nat.eqb q 1 then map2 Rmult x (concat m) else x | None => x end = x).
      { destruct mask as [m|] eqn:Em; [|reflexivity]. destruct (Nat.eqb_spec q 1) as [E|E]; [|reflexivity].
        assert (Ep : p = 1%nat) by lia. destruct Hm as [Lm Fm]. rewrite Ep in Fm.
        assert (Lc : length (concat m) = k) by (rewrite (length_concat_eq 1) by exact Fm; lia).
        apply nth_ext with (d := 0) (d' := 0); [rewrite map2_length, Lc, Lx; lia|].
        intros i Hi. rewrite map2_length, Lc in Hi. rewrite (map2_nth Rmult x (concat m) i 0 0 0) by lia.
        assert (Ei : nth i (concat m) 0 = mat m i 0).
        { replace i with (i * 1 + 0)%nat at 1 by lia. rewrite (nth_concat 1) by (exact Fm || lia). reflexivity. }
        rewrite Ei. destruct (H01 m eq_refl i 0%nat) as [E0|E0]; [lia|lia| |]; rewrite E0; [|ring].
        change (nth i x 0) with (entry x i). rewrite (Vx i); [ring|]. apply (zm_at m i 0 Em); [lia|lia|exact E0]. }
      exact (f_equal (fun v => (v, GM x, Value (N := Rnum) (FM x))) Ex).
    - unfold GM. rewrite (trans_length (N := Rnum)). reflexivity.
    - intros i Hz. destruct (zm_true i Hz) as (m & Em & Hi & E0).
      destruct (Nat.lt_ge_cases i (q * k)) as [Hl|Hl].
      + destruct (grid_index q k i Hl Hk) as (I1 & I2 & I3). unfold GM. rewrite I3. rewrite entry_trans by assumption.
        rewrite Em. rewrite Em in Hm.
        destruct (multi_masked n p q k X Y sw 0 m (T x) HX HY Hn Hk Hsw Hm Hq (LT x)) as [_ K]. now apply K.
      + unfold entry. apply nth_overflow. unfold GM. rr. rewrite (trans_length (N := Rnum)). lia.
  Qed.

  Lemma multi_above (Hpos : forall i, (i < n)%nat -> 0 <= entry sw i) (Hone : forall i, (i < n)%nat -> Sum k (mat Y i) = 1) :
    above_tangents (q * k) FM GM.
  Proof.
    intros x w Lx Lw. unfold along.
    rewrite (Sum_order q k _ (fun i => entry (snd (L (T x))) i * (entry (T w) i - entry (T x) i))).
    - apply (multi_tangent n p k X Y mask sw HX HY Hn Hk Hm Hsw Hpos Hone (T x) (T w) q Hq (LT x) (LT w)).
    - intros j c Hj Hc. unfold GM. now rewrite !entry_trans.
  Qed.

  (** [x] holds the coefficients [Cc] and the intercepts [B]. *)
  Definition unpacks (x : list R) (Cc : list (list R)) (B : list R) : Prop :=
    forall c, (c < k)%nat -> (forall j, (j < p)%nat -> entry x (j * k + c) = mat Cc c j) /\
                             (if Nat.ltb p q then entry x (p * k + c) = entry B c else entry B c = 0).

  Lemma packed_entry Cc B c j : grid k p Cc -> length B = k -> (c < k)%nat -> (j < S p)%nat ->
    entry (packed Cc B) (c * S p + j) = if Nat.ltb j p then mat Cc c j else entry B c.
  Proof.
    clear. intros [LC FC] LB Hc Hj. unfold packed, entry.
    assert (LL : length (combine Cc B) = k) by (rewrite combine_length; lia).
    assert (LR : length (nth c Cc []) = p) by (apply (nth_len p); [exact FC|lia]).
    rewrite (nth_concat (S p)).
    - rewrite (nth_mapd (fun rb : list R * R => fst rb ++ [snd rb]) (combine Cc B) c ([], 0)) by lia.
      rewrite combine_nth by lia. cbn [fst snd]. destruct (Nat.ltb_spec j p) as [H|H].
      + rewrite app_nth1 by lia. reflexivity.
      + rewrite app_nth2 by lia. rewrite LR. replace (j - p)%nat with 0%nat by lia. reflexivity.
    - apply Forall_forall. intros r Hr. apply in_map_iff in Hr. destruct Hr as ([r0 b0] & <- & Hr). cbn [fst snd].
      apply in_combine_l in Hr. rewrite Forall_forall in FC. rewrite app_length, (FC r0 Hr). cbn. lia.
    - rewrite map_length. lia.
    - exact Hj.
  Qed.

  Section Unpacked.
    Variables (x : list R) (Cc : list (list R)) (B : list R).
    Hypothesis HC : grid k p Cc.
    Hypothesis HB : length B = k.
    Hypothesis Hu : unpacks x Cc B.

    Lemma unpacked_entry c j : (c < k)%nat -> (j < q)%nat -> entry x (j * k + c) = entry (packed Cc B) (c * S p + j).
    Proof.
      clear - Hq HC HB Hu. intros Hc Hj. rewrite packed_entry by (assumption || lia). destruct (Hu c Hc) as [U1 U2].
      destruct (Nat.ltb_spec j p) as [H|H]; [now apply U1|]. assert (E : q = S p) by lia. assert (Ej : j = p) by lia.
      destruct (Nat.ltb_spec p q); [|lia]. now rewrite Ej.
    Qed.
    Lemma unpacked_zero c : (c < k)%nat -> q = p -> entry (packed Cc B) (c * S p + p) = 0.
    Proof.
      clear - Hq HC HB Hu. intros Hc E. rewrite packed_entry by (assumption || lia). destruct (Nat.ltb_spec p p); [lia|].
      destruct (Hu c Hc) as [_ U]. destruct (Nat.ltb_spec p q); [lia|exact U].
    Qed.

    Lemma unpacked_loss : rows_obey k p mask Cc -> length x = (q * k)%nat -> FM x = multi_loss n p (S p) k X Y sw 0 (packed Cc B).
    Proof.
      intros Ho Lx. unfold FM.
      rewrite (multi_loss_value n p q k X Y sw 0 mask (T x) HX HY Hn Hk Hsw Hm Hq (LT x) (T x)).
      - assert (Ec : forall c j, (c < k)%nat -> (j < q)%nat -> coefs q (T x) c j = coefs (S p) (packed Cc B) c j).
        { intros c j Hc Hj. rewrite coefs_T by assumption. now apply unpacked_entry. }
        assert (Ee : forall i c, (c < k)%nat -> class_eta p q X (T x) i c = class_eta p (S p) X (packed Cc B) i c).
        { intros i c Hc. unfold class_eta. f_equal.
          - apply Sum_ext. intros j Hj. rewrite Ec by lia. reflexivity.
          - destruct (Nat.ltb_spec p (S p)); [|lia]. destruct (Nat.ltb_spec p q) as [H1|H1].
            + apply Ec; assumption.
            + unfold coefs. rewrite unpacked_zero by lia. reflexivity. }
        unfold multi_loss. f_equal.
        + f_equal. apply Sum_ext. intros i Hi. f_equal. apply Sum_ext. intros c Hc. rewrite (Ee i c Hc). do 3 f_equal.
          apply Sum_ext. intros d Hd. now rewrite (Ee i d Hd).
        + f_equal. apply Sum_ext. intros c Hc. apply Sum_ext. intros j Hj. rewrite Ec by lia. reflexivity.
      - destruct mask as [m|] eqn:Em; [|reflexivity]. split; [reflexivity|]. intros c j Hc Hj.
        destruct (Nat.ltb_spec j p) as [H|H]; [|reflexivity]. destruct (H01 m eq_refl c j Hc H) as [E|E]; rewrite E; [|ring].
        rewrite coefs_T by assumption. destruct (Hu c Hc) as [U _]. rewrite (U j H), (Ho m eq_refl c j Hc H E). ring.
    Qed.

    Lemma unpacked_l1 : l1 0 (k * p) x = Sum k (fun c => Sum p (fun j => Rabs (mat Cc c j))).
    Proof.
      unfold l1. rewrite Nat.sub_0_r, Nat.mul_comm, Sum_pairs, Sum_swap. apply Sum_ext. intros c Hc. apply Sum_ext. intros j Hj.
      destruct (Hu c Hc) as [U _]. rewrite <- (U j Hj). reflexivity.
    Qed.

    Lemma unpacked_norm : norm (q * k) x = norm (k * S p) (packed Cc B).
    Proof.
      unfold norm, dot. f_equal.
      rewrite (Sum_order q k _ (fun i => entry (T x) i * entry (T x) i)) by (intros j c Hj Hc; now rewrite !entry_trans).
      apply (Sum_pad k p q); [exact Hq| |].
      - intros c j Hc Hj. rewrite entry_trans by assumption. now rewrite (unpacked_entry c j Hc Hj).
      - intros E c Hc. rewrite unpacked_zero by assumption. ring.
    Qed.
  End Unpacked.

  Lemma unpacked_distance x x' Cc B Cc' B' : grid k p Cc -> length B = k -> unpacks x Cc B -> grid k p Cc' -> length B' = k -> unpacks x' Cc' B' ->
    distance (q * k) x x' = distance (k * S p) (packed Cc B) (packed Cc' B').
  Proof.
    intros HC HB Hu HC' HB' Hu'. unfold distance. f_equal.
    rewrite (Sum_order q k _ (fun i => (entry (T x') i - entry (T x) i) * (entry (T x') i - entry (T x) i)))
      by (intros j c Hj Hc; now rewrite !entry_trans).
    apply (Sum_pad k p q); [exact Hq| |].
    - intros c j Hc Hj. rewrite !entry_trans by assumption.
      rewrite (unpacked_entry x Cc B HC HB Hu c j Hc Hj), (unpacked_entry x' Cc' B' HC' HB' Hu' c j Hc Hj). reflexivity.
    - intros E c Hc. rewrite (unpacked_zero x Cc B), (unpacked_zero x' Cc' B') by assumption. ring.
  Qed.

  (** Every comparator can be laid out this way. *)
  Definition layout (Cc : list (list R)) (B : list R) : list R :=
    map (fun i => if Nat.ltb (i / k) p then mat Cc (i mod k) (i / k) else entry B (i mod k)) (seq 0 (q * k)).
  Lemma layout_length Cc B : length (layout Cc B) = (q * k)%nat.
  Proof. unfold layout. now rewrite map_length, seq_length. Qed.
  Lemma layout_unpacks Cc B : length B = k -> (q = p -> forall c, entry B c = 0) -> unpacks (layout Cc B) Cc B.
  Proof.
    clear - Hq. intros HB Hz c Hc.
    assert (E : forall j, (j < q)%nat -> entry (layout Cc B) (j * k + c) = if Nat.ltb j p then mat Cc c j else entry B c).
    { intros j Hj. unfold layout, entry. assert (Hi : (j * k + c < q * k)%nat) by nia.
      rewrite (nth_mapd (fun i => if Nat.ltb (i / k) p then mat Cc (i mod k) (i / k) else nth (i mod k) B 0) (seq 0 (q * k)) (j * k + c) 0%nat) by (rewrite seq_length; exact Hi).
      rewrite seq_nth by exact Hi. cbn [Nat.add]. destruct (index_grid k j c Hc) as [-> ->]. reflexivity. }
    split.
    - intros j Hj. rewrite E by lia. destruct (Nat.ltb_spec j p); [reflexivity|lia].
    - destruct (Nat.ltb_spec p q) as [H|H]; [|apply Hz; lia]. rewrite E by lia. destruct (Nat.ltb_spec p p); [lia|reflexivity].
  Qed.
End Multi.

(** ** The fit *)
Lemma start_R (has : bool) k p q mask coef y : q = (p + if has then 1 else 0)%nat -> (0 < p)%nat -> (0 < k)%nat ->
  mask_rows k p mask -> warm_rows k p q coef ->
  let w0 := transposed (N := Rnum) k q (concat (multi_start (N := Rnum) has k p mask coef y)) in
  length w0 = (q * k)%nat /\ vanishes (zm p k mask) w0.
Proof.
  intros Eq Hp Hk Hm Hc w0. split; [apply (trans_length (N := Rnum))|]. intros i Hz.
  destruct (zm_true p k mask i Hz) as (m & Em & Hi & E0).
  destruct (Nat.lt_ge_cases i (q * k)) as [Hl|Hl].
  - destruct (grid_index q k i Hl Hk) as (I1 & I2 & I3). unfold w0. rewrite I3 at 1. rewrite entry_trans by assumption.
    rewrite Em in *. destruct Hm as [Gm H01].
    destruct (start_rows (N := Rnum) has k p (Some m) coef y) as [L F]; [lia|exact Gm|now rewrite <- Eq|]. rewrite <- Eq in F.
    unfold entry. change 0 with (@nzero Rnum). rewrite (nth_concat q) by (assumption || (rr; lia)).
    destruct (start_masked (N := Rnum) has k p m coef y (i mod k) (i / k)) as [u Eu]; [lia|exact Gm|now rewrite <- Eq|exact I2|exact Hi|].
    etransitivity; [exact Eu|]. change (u * mat m (i mod k) (i / k) = 0). rewrite E0. ring.
  - unfold entry. apply nth_overflow. unfold w0. rr. rewrite (trans_length (N := Rnum)). lia.
Qed.

(** The solution rows read off the optimizer's array. *)
Lemma rows_R (has : bool) k p q (x : list R) wn cf b w : q = (p + if has then 1 else 0)%nat -> (0 < k)%nat ->
  split_rows (N := Rnum) has p (chunks q k (transposed (N := Rnum) q k x)) wn = Fitted (N := Rnum) cf b w ->
  w = wn /\ length b = k /\ grid k p cf /\ unpacks p k q x cf b.
Proof.
  intros Eq Hk H. assert (LT' : length (transposed (N := Rnum) q k x) = (k * q)%nat) by apply (trans_length (N := Rnum)).
  destruct (chunks_spec q k _ LT') as [Lc Fc].
  destruct (split_shape (N := Rnum) has p q k _ wn cf b w Eq Lc Fc H) as (Ew & Lb & G & K).
  split; [exact Ew|]. split; [exact Lb|]. split; [exact G|]. intros c Hc. destruct (K c Hc) as [K1 K2].
  assert (Lr : length (nth c cf []) = p) by (destruct G as [G1 G2]; apply (nth_len p); [exact G2|rr; lia]).
  assert (E : forall j, (j < q)%nat -> entry x (j * k + c) = nth j (nth c cf [] ++ (if has then [nth c b 0] else [])) 0).
  { intros j Hj. assert (E1 : nth j (nth c (chunks q k (transposed (N := Rnum) q k x)) []) 0 = entry (transposed (N := Rnum) q k x) (c * q + j))
      by (exact (chunks_nth q k (transposed (N := Rnum) q k x) c j 0 LT' Hc Hj)).
    rewrite entry_trans in E1 by assumption. rewrite <- E1.
    exact (f_equal (fun l => nth j l 0) K1). }
  split.
  - intros j Hj. rewrite E by lia. rewrite app_nth1 by (rr; lia). reflexivity.
  - destruct has.
    + destruct (Nat.ltb_spec p q); [|lia]. rewrite E by lia. rewrite app_nth2 by (rr; lia). rr. rewrite Lr, Nat.sub_diag. reflexivity.
    + destruct (Nat.ltb_spec p q); [lia|]. exact (K2 eq_refl).
Qed.

Lemma mask_rows_parts k p mask : mask_rows k p mask ->
  match mask with Some m => matrix k p m | None => True end /\
  forall m, mask = Some m -> forall c j, (c < k)%nat -> (j < p)%nat -> mat m c j = 0 \/ mat m c j = 1.
Proof.
  unfold mask_rows. destruct mask as [m|]; [|split; [exact Logic.I|discriminate]].
  intros [G H]. split; [exact G|]. intros m' E. injection E as <-. exact H.
Qed.

(** What an L1 fit returns: zeros, or what the optimizer returned. *)
Lemma multi_l1_cases n k p (has : bool) (C tol : R) mi X y (sw : list R) mask coef opt fuel lsfuel (cf : list (list R)) (b : list R) wn :
  matrix n p X -> (0 < n)%nat -> length y = n -> length sw = n -> (0 < k)%nat -> (0 < p)%nat -> mask_rows k p mask ->
  let q := (p + if has then 1 else 0)%nat in warm_rows k p q coef ->
  fit_multi (N := Rnum) false has k p C tol mi X y sw mask coef opt fuel lsfuel = Some (Fitted (N := Rnum) cf b wn) ->
  exists x, length x = (q * k)%nat /\ vanishes (zm p k mask) x /\ length b = k /\ grid k p cf /\ unpacks p k q x cf b /\
    ((forall c j, (c < k)%nat -> (j < p)%nat -> mat cf c j = 0) \/
     exists st' w0, length w0 = (q * k)%nat /\ vanishes (zm p k mask) w0 /\
       fmin_lbfgs (l1_options (N := Rnum) C tol mi (k * p)) (multi_objective (N := Rnum) k p q X (one_hot (N := Rnum) k y) mask sw)
         (Some (zero_coef k)) fuel lsfuel 0%nat w0 = Some (st', Returned (N := Rnum) x wn)).
Proof.
  intros HX Hn Hy Hsw Hk Hp Hm q Hc H. unfold fit_multi in H. cbv zeta in H. fold q in H.
  destruct (start_R has k p q mask coef y eq_refl Hp Hk Hm Hc) as [L0 V0].
  set (w0 := transposed (N := Rnum) k q (concat (multi_start (N := Rnum) has k p mask coef y))) in *.
  assert (HY : matrix n k (one_hot (N := Rnum) k y)).
  { split; [unfold one_hot; rewrite map_length; exact Hy|]. apply Forall_forall. intros r Hr. apply in_map_iff in Hr.
    destruct Hr as (v & <- & _). now rewrite map_length, seq_length. }
  destruct (mask_rows_parts k p mask Hm) as [Hm1 H01].
  assert (Hq : q = p \/ q = S p) by (unfold q; destruct has; lia).
  assert (Hall : to_optimize (N := Rnum) (option_map (@concat R) mask) = false -> forall c j, (c < k)%nat -> (j < p)%nat -> entry w0 (j * k + c) = 0).
  { intros Eo c j Hck Hj. apply V0. destruct mask as [m|] eqn:Em; [|discriminate Eo]. apply (zm_at p k (Some m) m c j eq_refl Hck Hj).
    cbn [option_map to_optimize] in Eo. unfold nnonzero in Eo. apply negb_false_iff in Eo. apply Reqb_t in Eo.
    destruct Hm as [[Lm Fm] _].
    assert (Lc : length (concat m) = (k * p)%nat) by (rewrite (length_concat_eq p) by exact Fm; now rewrite Lm).
    assert (Es : Sum (k * p) (entry (concat m)) = 0) by (exact (eq_trans (eq_sym (rsum_Sum (k * p) (concat m) Lc)) Eo)).
    assert (Ee : forall c j, (c < k)%nat -> (j < p)%nat -> entry (concat m) (c * p + j) = mat m c j).
    { intros c0 j0 Hc0 Hj0. unfold entry. rewrite (nth_concat p) by (assumption || lia). reflexivity. }
    destruct (H01 m eq_refl c j Hck Hj) as [E|E]; [exact E|]. exfalso.
    assert (T : entry (concat m) (c * p + j) <= Sum (k * p) (entry (concat m))).
    { apply (Sum_term (k * p) (entry (concat m))); [|nia]. intros i Hi. destruct (grid_index k p i Hi Hp) as (I1 & I2 & ->).
      rewrite Ee by assumption. destruct (H01 m eq_refl (i / p)%nat (i mod p)%nat I1 I2) as [->| ->]; lra. }
    rewrite Ee in T by assumption. lra. }
  destruct (to_optimize _) eqn:Eo.
  2:{ injection H as H. destruct (rows_R has k p q w0 None cf b wn eq_refl Hk H) as (-> & Lb & G & U).
      exists w0. split; [exact L0|]. split; [exact V0|]. split; [exact Lb|]. split; [exact G|]. split; [exact U|]. left.
      intros c j Hck Hj. destruct (U c Hck) as [U1 _]. rewrite <- (U1 j Hj). now apply (Hall eq_refl). }
  clear Hall.
  destruct (l1_solve k (k * p) C tol mi (multi_objective k p q X (one_hot k y) mask sw) fuel lsfuel w0) as [[x w|ex|]|] eqn:Er; try discriminate.
  injection H as H. destruct (rows_R has k p q x w cf b wn eq_refl Hk H) as (-> & Lb & G & U). exists x.
  apply l1_returned in Er. destruct Er as [(st' & Er)|[_ Ex]].
  - pose proof (multi_computes (St := nat) n p k q X (one_hot (N := Rnum) k y) mask sw HX HY Hn Hk Hp Hq Hsw Hm1 H01) as Hf.
    destruct (recorded_of (l1_options (N := Rnum) C tol mi (k * p)) _ _ _ _ _ _ _ _ Er) as (log & Hlog).
    destruct (stays_zero (q * k) (zm p k mask) _ _ _ _ _ _ _ _ _ Hf L0 V0 _ _ _ Hlog) as (_ & _ & K).
    destruct (K x w eq_refl) as (K1 & K2 & _).
    split; [exact K1|]. split; [exact K2|]. split; [exact Lb|]. split; [exact G|]. split; [exact U|]. right.
    exists st', w0. split; [exact L0|]. split; [exact V0|]. exact Er.
  - assert (Lx : length x = (q * k)%nat) by (rewrite Ex, map_length; exact L0).
    assert (Zx : forall i, entry x i = 0).
    { intros i. rewrite Ex. unfold entry. destruct (Nat.lt_ge_cases i (length w0)) as [Hi|Hi].
      - rewrite (nth_mapd (fun v => v * 0) w0 i 0) by exact Hi. ring.
      - apply nth_overflow. rr. rewrite map_length. exact Hi. }
    split; [exact Lx|]. split; [intros i _; apply Zx|]. split; [exact Lb|]. split; [exact G|]. split; [exact U|]. left.
    intros c j Hck Hj. destruct (U c Hck) as [U1 _]. rewrite <- (U1 j Hj). apply Zx.
Qed.

(** C91, several classes *)
Lemma multi_gap n k p (has : bool) (C tol : R) mi X y (sw : list R) mask coef opt fuel lsfuel (cf : list (list R)) (b : list R) :
  matrix n p X -> (0 < n)%nat -> length y = n -> Forall (fun v => (v < k)%nat) y -> length sw = n -> (forall i, (i < n)%nat -> 0 <= entry sw i) ->
  (0 < p)%nat -> mask_rows k p mask -> warm_rows k p (p + if has then 1 else 0) coef ->
  fit_multi (N := Rnum) false has k p C tol mi X y sw mask coef opt fuel lsfuel = Some (Fitted (N := Rnum) cf b None) ->
  (exists c j, (c < k)%nat /\ (j < p)%nat /\ mat cf c j <> 0) ->
  forall (cf' : list (list R)) (b' : list R), grid k p cf' -> length b' = k -> rows_obey k p mask cf' -> (has = false -> forall c, entry b' c = 0) ->
  l1_multi_loss n p k X (indicators k y) sw (1 / C) cf b - l1_multi_loss n p k X (indicators k y) sw (1 / C) cf' b'
    <= tol * Rmax 1 (norm (k * S p) (packed cf b)) * distance (k * S p) (packed cf b) (packed cf' b').
Proof.
  intros HX Hn Hy Hlab Hsw Hpos Hp Hm Hc H (c0 & j0 & Hc0 & Hj0 & Hne) cf' b' G' Lb' O' Z'.
  set (q := (p + if has then 1 else 0)%nat) in *. assert (Hk : (0 < k)%nat) by lia.
  destruct (multi_l1_cases n k p has C tol mi X y sw mask coef opt fuel lsfuel cf b None HX Hn Hy Hsw Hk Hp Hm Hc H)
    as (x & Lx & Vx & Lb & G & U & [Z|(st' & w0 & L0 & V0 & Er)]).
  { contradiction Hne. now apply Z. }
  fold q in Lx, U, L0, Er.
  assert (Hq : q = p \/ q = S p) by (unfold q; destruct has; lia).
  destruct (mask_rows_parts k p mask Hm) as [Hm1 H01].
  set (Y := one_hot (N := Rnum) k y) in *.
  assert (EY : Y = indicators k y).
  { unfold Y, one_hot, indicators. apply map_ext. intros v. apply map_ext. intros c. unfold ind. destruct (Nat.eqb v c); reflexivity. }
  assert (HY : matrix n k Y).
  { split; [unfold Y, one_hot; rewrite map_length; exact Hy|]. apply Forall_forall. intros r Hr. apply in_map_iff in Hr.
    destruct Hr as (v & <- & _). now rewrite map_length, seq_length. }
  assert (Hone : forall i, (i < n)%nat -> Sum k (mat Y i) = 1).
  { intros i Hi. rewrite EY. unfold indicators, mat. rewrite (nth_mapd (fun v => map (ind v) (seq 0 k)) y i 0%nat) by lia.
    assert (Hv : (nth i y 0 < k)%nat) by (rewrite Forall_forall in Hlab; apply Hlab, nth_In; lia). set (v := nth i y 0%nat) in *.
    rewrite (Sum_ext k _ (fun c => if Nat.eqb c v then 1 else 0)).
    - rewrite (Sum_ext k _ (fun c => 0 + (if Nat.eqb c v then 1 else 0))) by (intros; ring).
      clear - Hv. induction k as [|m IH]; [lia|]. rewrite Sum_S. destruct (Nat.eqb_spec m v) as [->|E].
      + rewrite (Sum_zero v); [ring|]. intros j Hj. destruct (Nat.eqb_spec j v); [lia|ring].
      + rewrite IH by lia. ring.
    - intros c Hc'. unfold entry. rewrite (nth_mapd (ind v) (seq 0 k) c 0%nat) by (rewrite seq_length; lia).
      rewrite seq_nth by lia. cbn [Nat.add]. unfold ind. rewrite Nat.eqb_sym. reflexivity. }
  pose proof (multi_computes (St := nat) n p k q X Y mask sw HX HY Hn Hk Hp Hq Hsw Hm1 H01) as Hf.
  pose proof (multi_above n p k q X Y mask sw HX HY Hn Hk Hq Hsw Hm1 Hpos Hone) as Tan.
  assert (U' : unpacks p k q (layout p k q cf' b') cf' b').
  { apply layout_unpacks; [exact Hq|exact Lb'|]. intros E. apply Z'. unfold q in E. destruct has; [lia|reflexivity]. }
  pose proof (layout_length p k q cf' b') as Lw. set (w := layout p k q cf' b') in *.
  pose proof (returned_gap (q * k) (zm p k mask) (l1_options (N := Rnum) C tol mi (k * p)) _ (Some (zero_coef k)) _ _ fuel lsfuel 0%nat w0 Hf L0 V0 st' _ w (zero_coef_says k) Tan Lw Er) as Gap.
  assert (O : rows_obey k p mask cf).
  { intros m Em c j Hck Hj E. destruct (U c Hck) as [U1 _]. rewrite <- (U1 j Hj). apply Vx. now apply (zm_at p k mask m). }
  assert (P : forall u D E, length u = (q * k)%nat -> grid k p D -> length E = k -> unpacks p k q u D E -> rows_obey k p mask D ->
    penalized (l1_options (N := Rnum) C tol mi (k * p)) (q * k) (FM p k q X Y mask sw) u = l1_multi_loss n p k X (indicators k y) sw (1 / C) D E).
  { intros u D E Lu GD LE UD OD. unfold penalized, l1_multi_loss. rewrite <- EY. f_equal.
    - now apply unpacked_loss.
    - f_equal. unfold range_start, range_end. cbn [l1_options o_start o_end default_options].
      destruct (Z.ltb_spec (Z.of_nat (k * p)) 0); [lia|]. rewrite Nat2Z.id. change (Z.to_nat 0) with 0%nat.
      apply (unpacked_l1 p k q u D E UD). }
  rewrite (P x cf b Lx G Lb U O), (P w cf' b' Lw G' Lb' U' O') in Gap. cbn [l1_options o_epsilon] in Gap.
  rewrite (unpacked_norm p k q Hq x cf b G Lb U) in Gap.
  rewrite (unpacked_distance p k q Hq x w cf b cf' b' G Lb U G' Lb' U') in Gap. exact Gap.
Qed.

(** C38, both penalties *)
Lemma multi_masked_fit n k p (l2 has : bool) (C tol : R) mi X y (sw : list R) m coef opt fuel lsfuel (cf : list (list R)) (b : list R) wn :
  matrix n p X -> (0 < n)%nat -> length y = n -> length sw = n -> (0 < p)%nat -> mask_rows k p (Some m) ->
  warm_rows k p (p + if has then 1 else 0) coef ->
  fit_multi (N := Rnum) l2 has k p C tol mi X y sw (Some m) coef opt fuel lsfuel = Some (Fitted (N := Rnum) cf b wn) ->
  forall c j, (c < k)%nat -> (j < p)%nat -> mat m c j = 0 -> mat cf c j = 0.
Proof.
  intros HX Hn Hy Hsw Hp Hm Hc H c j Hck Hj E0. assert (Hk : (0 < k)%nat) by lia. destruct l2.
  - destruct (nnonzero (nsum (concat m))) eqn:Eo.
    + destruct (l2_multi_masked (N := Rnum) has k p C tol mi X y sw m coef opt fuel lsfuel cf b wn) as [_ K]; try assumption; [apply Hm|].
      apply (K c j Hck Hj). change (nth j (nth c m []) nzero) with (mat m c j). rewrite E0. unfold nnonzero. apply negb_false_iff. now apply Reqb_t.
    + unfold fit_multi in H. cbv zeta in H. cbn [option_map to_optimize] in H.
      match type of H with context [nnonzero ?z] => assert (Eo' : nnonzero z = false) by exact Eo; rewrite Eo' in H end.
      destruct Hm as [Gm H01].
      destruct (start_rows (N := Rnum) has k p (Some m) coef y) as [L F]; [lia|exact Gm|exact Hc|].
      set (q := (p + if has then 1 else 0)%nat) in *.
      assert (Lw : length (concat (multi_start (N := Rnum) has k p (Some m) coef y)) = (k * q)%nat)
        by (rewrite (length_concat_eq q) by exact F; now rewrite L).
      match type of H with Some ?a = _ => assert (H' : a = Fitted (N := Rnum) cf b wn) by congruence end.
      destruct (chunks_spec q k _ Lw) as [Lc Fc].
      destruct (split_shape (N := Rnum) has p q k _ None cf b wn eq_refl Lc Fc H') as (_ & _ & G & K).
      destruct (K c Hck) as [K1 _].
      destruct (start_masked (N := Rnum) has k p m coef y c j) as [u Eu]; [lia|exact Gm|exact Hc|exact Hck|exact Hj|].
      assert (Hjq : (j < q)%nat) by (unfold q; lia).
      assert (E1 : nth j (nth c (chunks q k (concat (multi_start (N := Rnum) has k p (Some m) coef y))) []) 0 = u * mat m c j).
      { etransitivity; [exact (chunks_nth q k _ c j 0 Lw Hck Hjq)|]. etransitivity; [|exact Eu].
        apply (nth_concat q); [exact F|rr; lia|exact Hjq]. }
      assert (E2 : mat cf c j = u * mat m c j).
      { etransitivity; [|exact E1]. symmetry. etransitivity; [exact (f_equal (fun l => nth j l 0) K1)|].
        unfold mat, entry. apply app_nth1. destruct G as [G1 G2]. rewrite (nth_len p) by (exact G2 || (rr; lia)). exact Hj. }
      rewrite E2, E0. ring.
  - destruct (multi_l1_cases n k p has C tol mi X y sw (Some m) coef opt fuel lsfuel cf b wn HX Hn Hy Hsw Hk Hp Hm Hc H)
      as (x & Lx & Vx & Lb & G & U & _).
    destruct (U c Hck) as [U1 _]. rewrite <- (U1 j Hj). apply Vx. now apply (zm_at p k (Some m) m).
Qed.

Lemma binary_masked_fit p (l2 has : bool) (C tol : R) mi X y (sw : list R) m coef opt fuel lsfuel (cf : list (list R)) (b : list R) wn :
  length m = p ->
  fit_binary (N := Rnum) l2 has p C tol mi X y sw (Some m) coef opt fuel lsfuel = Some (Fitted (N := Rnum) cf b wn) ->
  length cf = 1%nat /\ forall j, (j < p)%nat -> entry m j = 0 -> mat cf 0 j = 0.
Proof.
  intros Hm H. destruct (l1_binary_masked (N := Rnum) l2 has p C tol mi X y sw m coef opt fuel lsfuel cf b wn Hm H) as [L K].
  split; [exact L|]. intros j Hj E0. specialize (K j Hj).
  assert (K' : masked_value (N := Rnum) (entry m j) (mat cf 0 j)).
  { apply K. change (nth j m nzero) with (entry m j). rewrite E0. unfold nnonzero. apply negb_false_iff. now apply Reqb_t. }
  destruct K' as [E|(u & [E|[E|E]])]; rewrite E; rn; rewrite ?E0; change (@nzero Rnum) with 0; ring.
Qed.
