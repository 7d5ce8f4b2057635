(** Proofs for the order of the features (C111). *)
From Coq Require Import ZArith List Bool Arith Lia Sorting.Permutation.
From Verif Require Import Prelude F64 F64Order Model_Intersection Spec_Intersection Proofs_Intersection
  Model_Mpi Spec_Mpi Model_Fit Spec_Fit Proofs_FitRuns Proofs_FitSerial Proofs_Fit Proofs_FitProps
  Spec_Columns.
Import ListNotations.

(** * Reordering *)
Section Order.
  Variables (p : nat) (sigma : list nat).
  Hypothesis Hs : is_order p sigma.

  Lemma order_length : length sigma = p.
  Proof. rewrite (Permutation_length Hs). apply seq_length. Qed.
  Lemma order_lt j : j < p -> nth j sigma 0 < p.
  Proof.
    intro Hj. assert (I : In (nth j sigma 0) sigma) by (apply nth_In; rewrite order_length; exact Hj).
    apply (Permutation_in _ Hs) in I. apply in_seq in I. lia.
  Qed.
  Lemma order_onto k : k < p -> exists j, j < p /\ nth j sigma 0 = k.
  Proof.
    intro Hk. assert (I : In k sigma).
    { apply (Permutation_in _ (Permutation_sym Hs)). apply in_seq. lia. }
    apply (In_nth _ _ 0) in I as (j & Hj & E). rewrite order_length in Hj. eauto.
  Qed.
  Lemma reorder_length {A} (x : A) l : length (reorder x sigma l) = p.
  Proof. unfold reorder. rewrite map_length. apply order_length. Qed.
  Lemma reorder_nth {A} (x : A) l j y : j < p -> nth j (reorder x sigma l) y = nth (nth j sigma 0) l x.
  Proof.
    intro Hj. rewrite nth_indep with (d' := nth 0 l x) by (rewrite reorder_length; exact Hj).
    unfold reorder. rewrite (map_nth (fun j => nth j l x)). reflexivity.
  Qed.
  Lemma reorder_inj {A} (x : A) l l' : length l = p -> length l' = p ->
    reorder x sigma l = reorder x sigma l' -> l = l'.
  Proof.
    intros H1 H2 H. apply nth_ext with (d := x) (d' := x); [lia|]. intros k Hk. rewrite H1 in Hk.
    destruct (order_onto k Hk) as (j & Hj & <-).
    rewrite <- (reorder_nth x l j x Hj), H, (reorder_nth x l' j x Hj). reflexivity.
  Qed.
  Lemma reorder_perm {A} (x : A) l : length l = p -> Permutation (reorder x sigma l) l.
  Proof.
    intro Hl. assert (E : map (fun j => nth j l x) (seq 0 p) = l).
    { apply nth_ext with (d := x) (d' := x); [now rewrite map_length, seq_length|].
      rewrite map_length, seq_length. intros k Hk.
      rewrite nth_indep with (d' := nth 0 l x) by now rewrite map_length, seq_length.
      rewrite (map_nth (fun j => nth j l x)), seq_nth by exact Hk. reflexivity. }
    rewrite <- E at 2. unfold reorder. apply Permutation_map. exact Hs.
  Qed.
  Lemma reorder_some mask : length mask = p ->
    existsb (fun b => b) (reorder false sigma mask) = existsb (fun b => b) mask.
  Proof.
    intro Hl. pose proof (reorder_perm false mask Hl) as P.
    destruct (existsb (fun b => b) mask) eqn:E1, (existsb (fun b => b) (reorder false sigma mask)) eqn:E2; auto.
    - apply existsb_exists in E1 as (b & I & Hb). enough (existsb (fun b => b) (reorder false sigma mask) = true) by congruence. apply existsb_exists.
      exists b. split; [|exact Hb]. exact (Permutation_in _ (Permutation_sym P) I).
    - apply existsb_exists in E2 as (b & I & Hb). enough (existsb (fun b => b) mask = true) by congruence. apply existsb_exists.
      exists b. split; [|exact Hb]. exact (Permutation_in _ P I).
  Qed.
  Lemma reorder_const {A} (x : A) : reorder x sigma (repeat x p) = repeat x p.
  Proof.
    apply nth_ext with (d := x) (d' := x); [now rewrite reorder_length, repeat_length|].
    rewrite reorder_length. intros k Hk. rewrite reorder_nth by exact Hk. now rewrite !nth_repeat.
  Qed.

  (** * The supports *)
  Lemma count_map {A B} (q : B -> bool) (f : A -> B) l : count q (map f l) = count (fun x => q (f x)) l.
  Proof. induction l as [|x l IH]; simpl; auto; rewrite IH; reflexivity. Qed.
  Lemma count_ext_in {A} (q q' : A -> bool) l : (forall x, In x l -> q x = q' x) -> count q l = count q' l.
  Proof. induction l as [|x l IH]; simpl; intro H; auto. rewrite H, IH by auto. reflexivity. Qed.

  Variables (nr : nat) (D : list (list (list f64))).
  Hypothesis HD : Forall (fun m => length m = nr) D.
  Let c := mkCoefs nr p D.
  Let c' := mkCoefs nr p (map (map (reorder fzero sigma)) D).

  Lemma support_rows_reorder t : support_rows c' t = map (reorder false sigma) (support_rows c t).
  Proof.
    unfold support_rows. subst c c'. cbn [c_reg c_feat c_data].
    rewrite map_map. apply map_ext_in. intros r Hr. apply in_seq in Hr.
    apply nth_ext with (d := false) (d' := false).
    { now rewrite map_length, seq_length, reorder_length. }
    rewrite map_length, seq_length. intros j Hj. rewrite reorder_nth by exact Hj.
    assert (K : forall (g : nat -> bool) k, k < p -> nth k (map g (seq 0 p)) false = g k).
    { intros g k Hk. rewrite nth_indep with (d' := g 0) by now rewrite map_length, seq_length.
      rewrite map_nth, seq_nth by exact Hk. reflexivity. }
    rewrite !K by (try apply order_lt; exact Hj). f_equal. f_equal.
    rewrite count_map. apply count_ext_in. intros m Hm. f_equal. unfold entry.
    rewrite Forall_forall in HD. specialize (HD m Hm).
    rewrite nth_indep with (l := map _ _) (d' := reorder fzero sigma []) by (rewrite map_length; lia).
    rewrite (map_nth (reorder fzero sigma)). apply reorder_nth. exact Hj.
  Qed.
  Lemma all_rows_reorder ts : all_support_rows c' ts = map (reorder false sigma) (all_support_rows c ts).
  Proof.
    unfold all_support_rows. induction ts as [|t ts IH]; simpl; auto.
    rewrite map_app, IH, support_rows_reorder. reflexivity.
  Qed.
  Lemma rows_width ts : Forall (fun m => length m = p) (usort row_cmp (all_support_rows c ts)).
  Proof.
    apply Forall_forall. intros m Hm. apply rows_usort_in in Hm as (t & r & _ & _ & L & _). exact L.
  Qed.
  Lemma supports_reorder ts : Permutation (usort row_cmp (all_support_rows c' ts))
    (map (reorder false sigma) (usort row_cmp (all_support_rows c ts))).
  Proof.
    pose proof (rows_width ts) as W. apply NoDup_Permutation.
    - apply increasing_NoDup, usort_rows_increasing.
    - assert (N : NoDup (usort row_cmp (all_support_rows c ts))) by apply increasing_NoDup, usort_rows_increasing.
      revert W N. generalize (usort row_cmp (all_support_rows c ts)). intro l.
      induction l as [|m l IH]; simpl; intros W N; [constructor|].
      inversion_clear W. inversion_clear N. constructor; [|apply IH; assumption].
      intro I. apply in_map_iff in I as (m' & Em & I).
      assert (m' = m); [|congruence]. rewrite Forall_forall in H0.
      exact (reorder_inj false m' m (H0 _ I) H Em).
    - intro m. rewrite usort_rows_in, all_rows_reorder, !in_map_iff. split.
      + intros (x & E & I). exists x. split; [exact E|]. now apply usort_rows_in.
      + intros (x & E & I). exists x. split; [exact E|]. now apply (usort_rows_in x).
  Qed.
End Order.

Lemma mapM_all {A B} (f : A -> result B) l : (forall x, In x l -> exists y, f x = Ok y) ->
  exists out, mapM f l = Ok out.
Proof.
  induction l as [|x l IH]; simpl; intro H; [eauto|].
  destruct (H x (or_introl eq_refl)) as (y & ->). cbn [bind].
  destruct IH as (out & ->); [intros; apply H; auto|]. cbn [bind]. eauto.
Qed.
Lemma mapM_len {A B} (f : A -> result B) l : forall out, mapM f l = Ok out -> length out = length l.
Proof.
  induction l as [|x l IH]; simpl; intros out H; [injection H as <-; reflexivity|].
  destruct (f x); cbn [bind] in H; [|discriminate].
  destruct (mapM f l) as [o|] eqn:E; cbn [bind] in H; [|discriminate].
  injection H as <-. simpl. f_equal. apply IH. reflexivity.
Qed.

(** * Both fits *)
Section Both.
  Context {S E S' E' Rng : Type}.
  Variable env : np_env.
  Variable d : dims.
  Variable sol : solver S E.
  Variable sol' : solver S' E'.
  Variable draw : bool -> Rng -> result (split * Rng).
  Variables post post' : nd -> nd -> result (nd * nd).
  Variable sigma : list nat.
  Variable same : S -> S' -> Prop.
  Hypothesis Hnb : 1 <= n_boots_sel d.
  Hypothesis Hshape : shapes_ok d sol.
  Hypothesis Hshape' : shapes_ok d sol'.
  Hypothesis Hout : out_dim d = 1.
  Hypothesis Hsh : shared d = true.
  Hypothesis Hp : 2 <= n_feat d.
  Hypothesis Hm : 2 <= length (thresholds d) * n_reg d.
  Hypothesis Hs : is_order (n_feat d) sigma.
  Hypothesis Hf : follows d sigma sol sol' same.
  Hypothesis Hpost : post_follows d sigma post post'.
  Let p := n_feat d.

  Lemma nc : n_coef d = p.
  Proof. unfold n_coef, p. rewrite Hout. lia. Qed.

  Lemma store_ok rows : store_sweep d false rows = Ok (concat rows).
  Proof.
    unfold store_sweep. rewrite nc. assert (E0 : p =? 1 = false) by (apply Nat.eqb_neq; unfold p; lia).
    rewrite E0. reflexivity.
  Qed.

  Lemma sel_sim boots tasks : forall curr s s' x, same s s' ->
    sel_loop d sol 1 boots tasks curr s = Ok x ->
    exists s2' D, same (fst x) s2' /\ snd x = map (@concat f64) D /\ length D = length tasks /\
      Forall (fun m => length m = n_reg d /\ Forall (fun r => length r = p) m) D /\
      sel_loop d sol' 1 boots tasks curr s'
      = Ok (s2', map (@concat f64) (map (map (reorder fzero sigma)) D)).
  Proof.
    induction tasks as [|t ts IH]; intros curr s s' x Hsame H.
    - injection H as <-. exists s', []. repeat split; auto.
    - cbn [sel_loop] in H |- *.
      destruct (lookup (sel_boot d 1 t) boots) as [sp|]; cbn [bind] in H |- *; [|discriminate].
      set (b := match curr with Some c => c =? sel_boot d 1 t | None => false end) in *.
      assert (Hsame1 : same (if b then s else reset sol s) (if b then s' else reset sol' s')).
      { destruct b; [exact Hsame|]. now apply (fo_reset _ _ _ _ _ Hf). }
      destruct (sweep sol _ (sel_regs d 1 t) (fst sp)) as [[s1 rows]|] eqn:Es; cbn [bind fst snd] in H; [|discriminate].
      destruct (fo_sweep _ _ _ _ _ Hf _ _ _ _ _ _ Hsame1 Es) as (s1' & Hsame2 & Es').
      rewrite Es'. cbn [bind fst snd].
      rewrite (many_1 d Hnb) in H |- *. rewrite store_ok in H |- *. cbn [bind] in H |- *.
      destruct (sel_loop d sol 1 boots ts (Some (sel_boot d 1 t)) s1) as [y|] eqn:El; cbn [bind] in H; [|discriminate].
      injection H as <-. destruct (IH _ _ _ _ Hsame2 El) as (s2' & D & I1 & I2 & I3 & I4 & I5).
      rewrite I5. cbn [bind fst snd]. exists s2', (rows :: D). cbn [fst snd map length].
      split; [exact I1|]. split; [now rewrite I2|]. split; [now rewrite I3|]. split; [|reflexivity].
      constructor; [|exact I4]. destruct (proj1 Hshape _ _ _ _ _ Es) as [L1 L2].
      unfold sel_regs in L1. rewrite (many_1 d Hnb), seq_length in L1. split; [exact L1|].
      rewrite nc in L2. exact L2.
  Qed.

  Lemma coefs_of_concat D : length D = n_boots_sel d ->
    Forall (fun m => length m = n_reg d /\ Forall (fun r => length r = p) m) D ->
    coefs_of d (concat (map (@concat f64) D)) = mkCoefs (n_reg d) p D.
  Proof.
    intros HL HD. unfold coefs_of. rewrite nc. f_equal.
    rewrite <- HL at 1. rewrite <- (map_length (@concat f64) D). rewrite chunks_concat.
    - rewrite map_map. rewrite <- (map_id D) at 2. apply map_ext_in. intros m I.
      rewrite Forall_forall in HD. destruct (HD m I) as [L1 L2]. rewrite <- L1. now apply chunks_concat.
    - apply Forall_forall. intros r I. apply in_map_iff in I as (m & <- & I).
      rewrite Forall_forall in HD. destruct (HD m I) as [L1 L2]. rewrite <- L1.
      now apply concat_length_const.
  Qed.

  Lemma intersect_is D : intersect d (mkCoefs (n_reg d) p D)
    = Ok (Arr2 p (usort row_cmp (all_support_rows (mkCoefs (n_reg d) p D) (thresholds d)))).
  Proof.
    assert (E0 : intersection (mkCoefs (n_reg d) p D) (Some (thresholds d))
      = Ok (Arr2 p (usort row_cmp (all_support_rows (mkCoefs (n_reg d) p D) (thresholds d))))).
    { exact (intersection_rank2 (mkCoefs (n_reg d) p D) (thresholds d) Hm Hp). }
    unfold intersect, glm_intersect, linear_intersect. rewrite E0. destruct (glm d); [|reflexivity].
    cbn [bind]. rewrite Hout. reflexivity.
  Qed.

  (** One support and bootstrap. *)
  Definition est_one {S0 E0} (so : solver S0 E0) (sp : split) (mask : list bool) : result (list f64 * f64) :=
    if existsb (fun b => b) mask then est_masked d so mask sp else est_null d so sp.

  Lemma covers_1 mask q : q < p -> covers d mask q = nth q mask false.
  Proof. intro Hq. unfold covers. rewrite Hsh, Nat.mod_small by exact Hq. reflexivity. Qed.
  Lemma count_expected mask : length mask = p -> count (fun b => b) mask = expected_length d mask.
  Proof.
    intro L. unfold expected_length. rewrite Hsh, nc.
    rewrite <- (count_filter_nth d Hnb mask p ltac:(lia) (covers d mask)).
    - now rewrite <- L, firstn_all.
    - intros i Hi. now apply covers_1.
  Qed.
  Lemma scatter_placed mask v k : length mask = p -> length v = expected_length d mask -> k < p ->
    nth k (scatter mask v) fnan = placed d mask v k.
  Proof.
    intros L Lv Hk. rewrite (scatter_nth d Hnb) by (rewrite ?count_expected; lia).
    unfold placed. rewrite Hsh, covers_1 by exact Hk. destruct (nth k mask false); [|reflexivity].
    f_equal. apply (count_filter_nth d Hnb); [lia|]. intros i Hi. apply covers_1. lia.
  Qed.
  Lemma scatter_len mask : forall v, length (scatter mask v) = length mask.
  Proof.
    induction mask as [|[] mask IH]; intros v; simpl; auto.
    destruct v; simpl; now rewrite IH.
  Qed.

  Lemma est_sim sp mask row sc : length mask = p -> est_one sol sp mask = Ok (row, sc) ->
    length row = p /\ est_one sol' sp (reorder false sigma mask) = Ok (reorder fzero sigma row, sc).
  Proof.
    intros L H. unfold est_one in *. rewrite (reorder_some p sigma Hs) by exact L.
    destruct (existsb (fun b => b) mask) eqn:Ex.
    - unfold est_masked in *.
      destruct (est_fit sol mask (fst sp)) as [e|] eqn:Ee; cbn [bind] in H; [|discriminate].
      destruct (fo_est _ _ _ _ _ Hf _ _ _ L Ee) as (e' & Ee' & L1 & L2 & Hpl & Hsc).
      rewrite Ee'. cbn [bind]. rewrite Hsh, Hout in H |- *. cbn [repeat concat] in H |- *.
      rewrite app_nil_r in H |- *. unfold assign_masked in *. rewrite nc in H |- *.
      rewrite (reorder_length p sigma Hs), Nat.eqb_refl.
      rewrite L, Nat.eqb_refl in H. cbn [negb] in H |- *.
      rewrite count_expected in H by exact L.
      rewrite count_expected by apply (reorder_length p sigma Hs).
      rewrite L1, Nat.eqb_refl in H. rewrite L2, Nat.eqb_refl. cbn [bind] in H |- *.
      destruct (score sol e mask sp) as [x|] eqn:Esc; cbn [bind] in H; [|discriminate].
      injection H as <- <-. rewrite (Hsc _ _ Esc). cbn [bind].
      split; [now rewrite scatter_len|]. f_equal. f_equal.
      apply nth_ext with (d := fnan) (d' := fnan).
      { rewrite scatter_len, !(reorder_length p sigma Hs). reflexivity. }
      rewrite scatter_len, (reorder_length p sigma Hs). intros j Hj.
      rewrite scatter_placed by (rewrite ?(reorder_length p sigma Hs); auto).
      rewrite (reorder_nth p sigma Hs) by exact Hj. rewrite Hpl by exact Hj.
      pose proof (order_lt p sigma Hs j Hj) as Hj'.
      rewrite nth_indep with (d' := fnan) by now rewrite scatter_len, L.
      now rewrite scatter_placed.
    - unfold est_null in *.
      destruct (null_fit sol (fst sp)) as [e|] eqn:Ee; cbn [bind] in H; [|discriminate].
      destruct (fo_null _ _ _ _ _ Hf _ _ Ee) as (e' & Ee' & Hsc). rewrite Ee'. cbn [bind].
      destruct (null_score sol e sp) as [x|] eqn:Esc; cbn [bind] in H; [|discriminate].
      injection H as <- <-. rewrite (Hsc _ _ Esc). cbn [bind]. rewrite nc.
      split; [apply repeat_length|]. now rewrite (reorder_const p sigma Hs).
  Qed.

  Lemma est_task_one {S0 E0} (so : solver S0 E0) rows sps b j : b < length sps -> j < length rows ->
    est_task d so (Arr2 p rows) (length rows) (numbered 0 sps) (b * length rows + j)
    = est_one so (nth b sps ([], [])) (nth j rows []).
  Proof.
    intros Hb Hj. unfold est_task. rewrite Nat.add_comm, Nat.div_add, Nat.div_small by lia.
    rewrite Nat.mod_add, Nat.mod_small by lia. cbn [plus].
    rewrite lookup_numbered by lia. cbn [bind]. rewrite Nat.sub_0_r. reflexivity.
  Qed.

  (** The aggregation does not look at the solver before the intercept. *)
  Definition calm (so : solver S' E') : solver S' E' :=
    mkSolver S' E' (reset so) (sweep so) (est_fit so) (est_coef so) (null_fit so) (score so) (null_score so)
      (fun _ => Ok (nd_of_floats [1] [fzero])).
  Lemma finish_calm ns es ss ests scs rp coef ic0 ic :
    finish d (calm sol') ns es ss = Ok (ests, scs, rp, nd_of_floats [out_dim d; n_feat d] coef, ic0) ->
    fit_int sol' coef = Ok ic ->
    finish d sol' ns es ss = Ok (ests, scs, rp, nd_of_floats [out_dim d; n_feat d] coef, ic).
  Proof.
    unfold finish. destruct (mapM np_argmax _) as [r|]; cbn [bind]; [|discriminate].
    cbn [calm fit_int bind]. intros H Hi. injection H as <- <- <- Hc <-.
    assert (Ec : map (fun j => np_median (map (fun e => nth j e fzero)
       (map (fun x => nth (snd x) (fst x) [])
          (combine (map (chunks (n_coef d) ns) (chunks (ns * n_coef d) (n_boots_est d) es)) r))))
       (seq 0 (n_coef d)) = coef).
    { revert Hc. clear. generalize (map (fun j => np_median (map (fun e => nth j e fzero)
       (map (fun x => nth (snd x) (fst x) [])
          (combine (map (chunks (n_coef d) ns) (chunks (ns * n_coef d) (n_boots_est d) es)) r))))
       (seq 0 (n_coef d))). intro l. revert coef. induction l as [|x l IH]; intros [|y c] H; try discriminate; auto.
      simpl in H. injection H as -> H. f_equal. now apply IH. }
    rewrite Ec, Hi. reflexivity.
  Qed.

  Theorem columns rng s s' F :
    same s s' ->
    fit env d sol draw post 1 0 false rng s = Done (Ok F) ->
    exists sel rows, f_sel F = Some sel /\ s_supports sel = Arr2 p rows /\
      (clear_winners d sel ->
       exists F' sel' rows',
         fit env d sol' draw post' 1 0 false rng s' = Done (Ok F') /\
         f_coef F' = reorder_nd sigma (f_coef F) /\ f_intercept F' = f_intercept F /\
         f_sel F' = Some sel' /\ s_supports sel' = Arr2 p rows' /\
         Permutation rows' (map (reorder false sigma) rows) /\
         forall b, b < n_boots_est d ->
           chosen sel' rows' b = reorder false sigma (chosen sel rows b)).
  Proof.
    intros Hsame HF. unfold fit in HF. rewrite serial_eq in HF by auto. injection HF as HF.
    unfold fit. setoid_rewrite (serial_eq env d sol' draw post' Hnb Hshape').
    unfold serial_result in *.
    destruct (draw_list draw true (n_boots_sel d) rng) as [[sps r1]|] eqn:Ed; cbn [bind fst snd] in HF |- *; [|discriminate].
    destruct (sel_loop d sol 1 (numbered 0 sps) (seq 0 (n_boots_sel d)) None s) as [x|] eqn:El; cbn [bind rmap] in HF; [|discriminate].
    destruct (sel_sim _ _ _ _ _ _ Hsame El) as (s2' & D & _ & Ex & LD & HD & El').
    rewrite seq_length in LD. rewrite El'. cbn [bind rmap fst snd]. rewrite Ex in HF.
    assert (HD' : Forall (fun m => length m = n_reg d /\ Forall (fun r => length r = p) m)
                   (map (map (reorder fzero sigma)) D)).
    { apply Forall_forall. intros m I. apply in_map_iff in I as (m0 & <- & I).
      rewrite Forall_forall in HD. destruct (HD m0 I) as [L1 L2]. split; [now rewrite map_length|].
      apply Forall_forall. intros r J. apply in_map_iff in J as (r0 & <- & J). apply (reorder_length p sigma Hs). }
    rewrite coefs_of_concat in HF by auto.
    rewrite coefs_of_concat by (rewrite ?map_length; auto).
    rewrite intersect_is in HF |- *. cbn [bind n_supports] in HF |- *.
    assert (HD1 : Forall (fun m => length m = n_reg d) D).
    { revert HD. apply Forall_impl. tauto. }
    pose proof (supports_reorder p sigma Hs (n_reg d) D HD1 (thresholds d)) as Hperm.
    pose proof (rows_width p (n_reg d) D (thresholds d)) as Hw.
    set (rows := usort row_cmp (all_support_rows (mkCoefs (n_reg d) p D) (thresholds d))) in *.
    set (rows' := usort row_cmp (all_support_rows (mkCoefs (n_reg d) p (map (map (reorder fzero sigma)) D)) (thresholds d))) in *.
    clearbody rows rows'. clear El El' Ex HD HD' HD1 LD D x s2'.
    assert (Hns : length rows' = length rows) by (rewrite (Permutation_length Hperm); apply map_length).
    destruct (draw_list draw false (n_boots_est d) r1) as [[sps2 r2]|] eqn:Ed2; cbn [bind fst snd] in HF |- *; [|discriminate].
    pose proof (draw_list_length _ _ _ _ _ Ed2) as Lsps. cbn [fst] in Lsps.
    set (ns := length rows) in *.
    destruct (mapM (est_task d sol (Arr2 p rows) ns (numbered 0 sps2)) (seq 0 (n_boots_est d * ns)))
      as [outs|] eqn:Eo; cbn [bind] in HF; [|discriminate].
    pose proof (mapM_len _ _ _ Eo) as Lo. rewrite seq_length in Lo.
    (* every task of the first fit *)
    assert (Ho : forall b j, b < n_boots_est d -> j < ns ->
      est_one sol (nth b sps2 ([], [])) (nth j rows []) = Ok (nth (b * ns + j) outs ([], fnan))).
    { intros b j Hb Hj. pose proof (flat_lt b j _ _ Hb Hj) as Hbj.
      rewrite <- (est_task_one sol rows sps2 b j) by (fold ns; lia). fold ns.
      rewrite <- (mapM_nth _ _ 0 ([], fnan) _ Eo (b * ns + j)) by now rewrite seq_length.
      rewrite seq_nth by exact Hbj. reflexivity. }
    (* positions *)
    assert (Hpos : forall j, j < ns -> exists i, i < ns /\ nth j rows' [] = reorder false sigma (nth i rows [])).
    { intros j Hj. assert (I : In (nth j rows' []) (map (reorder false sigma) rows)).
      { apply (Permutation_in _ Hperm). apply nth_In. rewrite Hns. exact Hj. }
      apply in_map_iff in I as (m & Em & I). apply (In_nth _ _ []) in I as (i & Hi & <-).
      exists i. split; [exact Hi|now symmetry]. }
    assert (Hpos' : forall i, i < ns -> exists j, j < ns /\ nth j rows' [] = reorder false sigma (nth i rows [])).
    { intros i Hi. assert (I : In (reorder false sigma (nth i rows [])) rows').
      { apply (Permutation_in _ (Permutation_sym Hperm)). apply in_map. apply nth_In. exact Hi. }
      apply (In_nth _ _ []) in I as (j & Hj & Ej). exists j. rewrite Hns in Hj. split; auto. }
    assert (Hwid : forall i, i < ns -> length (nth i rows []) = p).
    { intros i Hi. rewrite Forall_forall in Hw. apply Hw. now apply nth_In. }
    (* every task of the second fit *)
    assert (Hsim : forall b j i, b < n_boots_est d -> i < ns -> nth j rows' [] = reorder false sigma (nth i rows []) ->
      length (fst (nth (b * ns + i) outs ([], fnan))) = p /\
      est_one sol' (nth b sps2 ([], [])) (nth j rows' [])
      = Ok (reorder fzero sigma (fst (nth (b * ns + i) outs ([], fnan))), snd (nth (b * ns + i) outs ([], fnan)))).
    { intros b j i Hb Hi Ej. rewrite Ej. apply est_sim; [now apply Hwid|].
      rewrite <- surjective_pairing. now apply Ho. }
    destruct (mapM_all (est_task d sol' (Arr2 p rows') (length rows') (numbered 0 sps2))
                (seq 0 (n_boots_est d * length rows'))) as (outs' & Eo').
    { intros t It. apply in_seq in It. rewrite Hns in It.
      assert (ns <> 0) by (intro Z; rewrite Z in It; lia).
      assert (Hb : t / ns < n_boots_est d) by (apply Nat.div_lt_upper_bound; lia).
      pose proof (Nat.mod_upper_bound t ns ltac:(assumption)) as Hj.
      assert (Et : t = (t / ns) * length rows' + t mod ns).
      { rewrite Hns, Nat.mul_comm. apply Nat.div_mod. assumption. }
      rewrite Et, est_task_one by (rewrite ?Hns; lia).
      destruct (Hpos _ Hj) as (i & Hi & Ei). destruct (Hsim _ _ _ Hb Hi Ei) as [_ R]. rewrite R. eauto. }
    rewrite Eo'. cbn [bind].
    pose proof (mapM_len _ _ _ Eo') as Lo'. rewrite seq_length, Hns in Lo'.
    assert (Ho' : forall b j, b < n_boots_est d -> j < ns ->
      est_one sol' (nth b sps2 ([], [])) (nth j rows' []) = Ok (nth (b * ns + j) outs' ([], fnan))).
    { intros b j Hb Hj. pose proof (flat_lt b j _ _ Hb Hj) as Hbj.
      rewrite <- (est_task_one sol' rows' sps2 b j) by (rewrite ?Hns; lia). rewrite Hns.
      rewrite <- (mapM_nth _ _ 0 ([], fnan) _ Eo' (b * ns + j)) by (rewrite seq_length, Hns; exact Hbj).
      rewrite seq_nth by (rewrite Hns; exact Hbj). rewrite Hns. reflexivity. }
    assert (Hlink : forall b j i, b < n_boots_est d -> j < ns -> i < ns ->
      nth j rows' [] = reorder false sigma (nth i rows []) ->
      nth (b * ns + j) outs' ([], fnan)
      = (reorder fzero sigma (fst (nth (b * ns + i) outs ([], fnan))), snd (nth (b * ns + i) outs ([], fnan)))).
    { intros b j i Hb Hj Hi Ej. destruct (Hsim b j i Hb Hi Ej) as [_ R]. rewrite Ho' in R by assumption.
      now injection R as R. }
    assert (Fo : Forall (fun o => length (fst o) = n_coef d) outs).
    { apply Forall_forall. intros o I. apply (In_nth _ _ ([], fnan)) in I as (t & Ht & <-). rewrite Lo in Ht.
      assert (ns <> 0) by (intro Z; rewrite Z in Ht; lia).
      assert (Hb : t / ns < n_boots_est d) by (apply Nat.div_lt_upper_bound; lia).
      pose proof (Nat.mod_upper_bound t ns ltac:(assumption)) as Hj.
      destruct (Hpos' _ Hj) as (j & _ & Ej). destruct (Hsim _ _ _ Hb Hj Ej) as [R _].
      rewrite (Nat.div_mod t ns) by assumption. rewrite (Nat.mul_comm ns), nc. exact R. }
    assert (Fo' : Forall (fun o => length (fst o) = n_coef d) outs').
    { apply Forall_forall. intros o I. apply (In_nth _ _ ([], fnan)) in I as (t & Ht & <-). rewrite Lo' in Ht.
      assert (ns <> 0) by (intro Z; rewrite Z in Ht; lia).
      assert (Hb : t / ns < n_boots_est d) by (apply Nat.div_lt_upper_bound; lia).
      pose proof (Nat.mod_upper_bound t ns ltac:(assumption)) as Hj.
      destruct (Hpos _ Hj) as (i & Hi & Ei). pose proof (Hlink _ _ _ Hb Hj Hi Ei) as R.
      rewrite (Nat.div_mod t ns) by assumption. rewrite (Nat.mul_comm ns), R, nc.
      apply (reorder_length p sigma Hs). }
    destruct (finish d sol ns (concat (map fst outs)) (map snd outs)) as [z|] eqn:Ef; cbn [bind] in HF; [|discriminate].
    destruct (finish_facts d sol ns outs z Fo Lo Ef)
      as (ests & scs & rp & coef & ic & -> & S1 & S2 & S3 & A3 & A2 & Am & Lc & Cm & Fi).
    unfold package in HF. destruct (post _ ic) as [[c1 ic1]|] eqn:Epost; cbn [rmap fst snd] in HF; [|discriminate].
    injection HF as <-. exists (mkSelected (Arr2 p rows) ests scs rp), rows. cbn [f_sel s_supports].
    split; [reflexivity|]. split; [reflexivity|]. intro Hclear.
    unfold clear_winners in Hclear. cbn [s_scores s_rp_max_idx] in Hclear.
    (* the aggregation of the second fit *)
    assert (Hns0 : n_boots_est d = 0 \/ ns <> 0).
    { destruct (Nat.eq_dec (n_boots_est d) 0) as [|Hb0]; [now left|]. right. intro Z.
      pose proof (Am 0 ltac:(lia)) as Q. rewrite Z in Q. discriminate. }
    assert (Efc : exists x, finish d (calm sol') ns (concat (map fst outs')) (map snd outs') = Ok x).
    { unfold finish. destruct (mapM_all np_argmax (chunks ns (n_boots_est d) (map snd outs'))) as (r & ->).
      - intros l I. destruct (chunks_spec ns (n_boots_est d) (map snd outs')) as [C1 C2]; [now rewrite map_length|].
        destruct Hns0 as [Z|Z].
        + rewrite Z in I. destruct I.
        + apply (In_nth _ _ []) in I as (b & Hb & <-).
          assert (Ll : length (nth b (chunks ns (n_boots_est d) (map snd outs')) []) = ns).
          { pose proof (chunks_lengths ns (n_boots_est d) (map snd outs')) as Q. rewrite map_length, Lo' in Q.
            specialize (Q (le_n _)). rewrite Forall_forall in Q. apply Q. now apply nth_In. }
          destruct (nth b _ []) as [|v l]; [simpl in Ll; lia|]. unfold np_argmax. eauto.
      - cbn [bind calm fit_int]. eauto. }
    destruct Efc as (z' & Efc).
    destruct (finish_facts d (calm sol') ns outs' z' Fo' Lo' Efc)
      as (ests' & scs' & rp' & coef' & ic' & -> & S1' & S2' & S3' & A3' & A2' & Am' & Lc' & Cm' & Fi').
    (* both choose the same support *)
    assert (NoNan : forall b i, b < n_boots_est d -> i < ns -> is_nan64 (at2 scs b i) = false).
    { intros b i Hb Hi. exact (proj1 (Hclear b ns Hb S2 i Hi)). }
    assert (Fm : forall b, b < n_boots_est d -> first_max (map (at2 scs b) (seq 0 ns)) (index_at rp b)).
    { intros b Hb. apply (proj1 (np_argmax_spec _ _ (Am b Hb))).
      destruct (existsb is_nan64 _) eqn:Exx; auto. apply existsb_exists in Exx as (v & Hv & Hnv).
      apply in_map_iff in Hv as (j & <- & Hj). apply in_seq in Hj. rewrite NoNan in Hnv by lia. discriminate. }
    assert (Sc' : forall b j i, b < n_boots_est d -> j < ns -> i < ns ->
      nth j rows' [] = reorder false sigma (nth i rows []) -> at2 scs' b j = at2 scs b i).
    { intros b j i Hb Hj Hi Ej. rewrite A2', A2, (Hlink b j i) by assumption. reflexivity. }
    assert (Fm' : forall b, b < n_boots_est d -> first_max (map (at2 scs' b) (seq 0 ns)) (index_at rp' b)).
    { intros b Hb. apply (proj1 (np_argmax_spec _ _ (Am' b Hb))).
      destruct (existsb is_nan64 _) eqn:Exx; auto. apply existsb_exists in Exx as (v & Hv & Hnv).
      apply in_map_iff in Hv as (j & <- & Hj). apply in_seq in Hj.
      destruct (Hpos j ltac:(lia)) as (i & Hi & Ei). rewrite (Sc' b j i) in Hnv by (auto; lia).
      rewrite NoNan in Hnv by lia. discriminate. }
    assert (Kn : forall (g : nat -> f64) k, k < ns -> nth k (map g (seq 0 ns)) fnan = g k).
    { intros g k Hk. rewrite nth_indep with (d' := g 0) by now rewrite map_length, seq_length.
      rewrite map_nth, seq_nth by exact Hk. reflexivity. }
    assert (Hbest : forall b, b < n_boots_est d ->
      index_at rp b < ns /\ index_at rp' b < ns /\
      nth (index_at rp' b) rows' [] = reorder false sigma (nth (index_at rp b) rows [])).
    { intros b Hb. destruct (Fm b Hb) as [B1 _]. destruct (Fm' b Hb) as [B2 B3].
      rewrite map_length, seq_length in B1, B2, B3.
      split; [exact B1|]. split; [exact B2|].
      destruct (Hpos _ B2) as (i & Hi & Ei). destruct (Hpos' _ B1) as (j & Hj & Ej).
      destruct (Nat.eq_dec i (index_at rp b)) as [->|Ni]; [exact Ei|]. exfalso.
      destruct (B3 j Hj) as [G _]. rewrite !Kn in G by assumption.
      rewrite (Sc' b j _ Hb Hj B1 Ej), (Sc' b _ i Hb B2 Hi Ei) in G.
      pose proof (proj2 (Hclear b ns Hb S2 i Hi) Ni) as Q. apply fltb_fleb in Q as [_ Q]. congruence. }
    assert (Ecoef : coef' = reorder fzero sigma coef).
    { apply nth_ext with (d := fzero) (d' := fzero).
      { rewrite Lc', nc. symmetry. apply (reorder_length p sigma Hs). }
      rewrite Lc'. intros k Hk. rewrite Cm' by exact Hk. rewrite nc in Hk.
      rewrite (reorder_nth p sigma Hs) by exact Hk.
      pose proof (order_lt p sigma Hs k Hk) as Hk'.
      rewrite Cm by (rewrite nc; exact Hk'). f_equal. apply map_ext_in. intros b Ib. apply in_seq in Ib.
      destruct (Hbest b ltac:(lia)) as (B1 & B2 & B3).
      rewrite A3', A3 by (rewrite ?nc; auto; lia).
      rewrite (Hlink b _ _ ltac:(lia) B2 B1 B3). cbn [fst].
      rewrite (reorder_nth p sigma Hs) by exact Hk.
      apply nth_indep. destruct (Hsim b _ _ ltac:(lia) B1 B3) as [R _]. rewrite R. exact Hk'. }
    assert (Lcoef : length coef = n_feat d) by (rewrite Lc; exact nc).
    pose proof (fo_int _ _ _ _ _ Hf coef ic Lcoef Fi) as Fi2.
    rewrite <- Ecoef in Fi2. pose proof (finish_calm _ _ _ _ _ _ _ _ _ Efc Fi2) as Efin.
    rewrite Hns, Efin. cbn [bind package]. unfold package.
    rewrite Hout in Epost |- *. rewrite Ecoef, (Hpost coef ic c1 ic1 Lcoef Epost). cbn [rmap fst snd].
    do 3 eexists. split; [reflexivity|]. cbn [f_coef f_intercept f_sel s_supports].
    split; [reflexivity|]. split; [reflexivity|]. split; [reflexivity|]. split; [reflexivity|].
    split; [exact Hperm|]. intros b Hb. unfold chosen. cbn [s_rp_max_idx].
    exact (proj2 (proj2 (Hbest b Hb))).
  Qed.
End Both.

(** * Ties *)
Lemma increasing_nth rows : increasing rows -> forall i j, i < j -> j < length rows ->
  lex_lt (nth i rows []) (nth j rows []).
Proof.
  induction rows as [|m rows IH]; intros Hinc i j Hij Hj; simpl in Hj; [lia|].
  destruct Hinc as [H1 H2]. destruct j; [lia|]. destruct i; simpl.
  - rewrite Forall_forall in H1. apply H1. apply nth_In. lia.
  - apply IH; [exact H2|lia|lia].
Qed.
Lemma lex_omits a b : lex_lt a b -> length a = length b -> omits_first a b.
Proof.
  induction 1 as [a b|x a b H IH|x b]; intro L; simpl in L.
  - exists 0. split; [reflexivity|]. split; [reflexivity|]. intros i Hi. lia.
  - destruct IH as (k & H1 & H2 & H3); [lia|]. exists (Datatypes.S k). split; [exact H1|]. split; [exact H2|].
    intros [|i] Hi; [reflexivity|]. simpl. apply H3. lia.
  - lia.
Qed.

Section Ties.
  Context {S E Rng : Type}.
  Variable env : np_env.
  Variable d : dims.
  Variable sol : nat -> solver S E.
  Variable draw : bool -> Rng -> result (split * Rng).
  Variable post : nd -> nd -> result (nd * nd).
  Hypothesis Hnb : 1 <= n_boots_sel d.
  Hypothesis Hshape : forall i, shapes_ok d (sol i).

  Lemma or_rows_length rows q : Forall (fun r => length r = q) rows -> length (or_rows rows q) = q.
  Proof.
    induction 1 as [|r rows H _ IH]; simpl; [apply repeat_length|].
    rewrite map_length, combine_length, IH, H. lia.
  Qed.
  Lemma intersect_increasing c p rows : c_reg c = n_reg d -> c_feat c = n_coef d ->
    2 <= length (thresholds d) * n_reg d -> 2 <= n_coef d ->
    intersect d c = Ok (Arr2 p rows) -> increasing rows /\ Forall (fun m => length m = p) rows.
  Proof.
    intros Hc1 Hc2 H1 H2 Hi. unfold intersect in Hi.
    assert (E0 : intersection c (Some (thresholds d))
       = Ok (Arr2 (c_feat c) (usort row_cmp (all_support_rows c (thresholds d))))).
    { apply intersection_rank2; [rewrite Hc1; exact H1|rewrite Hc2; exact H2]. }
    assert (W : Forall (fun m => length m = c_feat c) (usort row_cmp (all_support_rows c (thresholds d)))).
    { apply Forall_forall. intros m I. apply rows_usort_in in I as (t & r & _ & _ & L & _). exact L. }
    assert (Base : forall p' rows', Ok (Arr2 (c_feat c) (usort row_cmp (all_support_rows c (thresholds d)))) = Ok (Arr2 p' rows') ->
      increasing rows' /\ Forall (fun m => length m = p') rows').
    { intros p' rows' Q. injection Q as <- <-. split; [apply usort_rows_increasing|exact W]. }
    destruct (glm d).
    - unfold glm_intersect in Hi. rewrite E0 in Hi. cbn [bind] in Hi.
      destruct ((1 <? out_dim d) && shared d); [|now apply Base].
      unfold union_over_classes in Hi. cbn [last_axis flat] in Hi.
      set (rows0 := usort row_cmp (all_support_rows c (thresholds d))) in *.
      destruct (out_dim d * (c_feat c / out_dim d) =? 0) eqn:Ez; [discriminate|].
      apply Nat.eqb_neq in Ez.
      match type of Hi with (if ?b then _ else _) = _ => destruct b eqn:Eb; [discriminate|] end.
      injection Hi as <- <-. split; [apply usort_rows_increasing|].
      apply usort_rows_length. apply Forall_forall. intros m I. apply in_map_iff in I as (g & <- & I).
      apply or_rows_length. apply chunks_lengths.
      assert (Lg : length g = out_dim d * (c_feat c / out_dim d)).
      { pose proof (chunks_lengths (out_dim d * (c_feat c / out_dim d))
          (length (concat rows0) / (out_dim d * (c_feat c / out_dim d))) (concat rows0)) as Q.
        assert (L : length (concat rows0) / (out_dim d * (c_feat c / out_dim d)) * (out_dim d * (c_feat c / out_dim d))
                    <= length (concat rows0)).
        { rewrite Nat.mul_comm. apply Nat.mul_div_le. exact Ez. }
        specialize (Q L). rewrite Forall_forall in Q. now apply Q. }
      rewrite Lg. apply le_n.
    - unfold linear_intersect in Hi. rewrite E0 in Hi. now apply Base.
  Qed.

  Theorem ties n R s0 F : 2 <= length (thresholds d) * n_reg d -> 2 <= n_coef d ->
    returned env d sol draw post n false R s0 F ->
    exists sel p rows, f_sel F = Some sel /\ s_supports sel = Arr2 p rows /\
      forall b j, b < n_boots_est d -> j < length rows ->
        (forall i, i < length rows -> is_nan64 (at2 (s_scores sel) b i) = false) ->
        fleb (at2 (s_scores sel) b (index_at (s_rp_max_idx sel) b)) (at2 (s_scores sel) b j) = true ->
        nth j rows [] = chosen sel rows b \/ omits_first (chosen sel rows b) (nth j rows []).
  Proof.
    intros H1 H2 H. destruct (returned_step env d sol draw post Hnb Hshape _ _ _ _ H)
      as (sel & ns & coef & ic & H0 & _ & _ & _ & Am & _ & _ & _ & _ & sps & r1 & c & sps2 & r2 & _ & _ & _ & Hc & Hi & Hns & _).
    destruct Hc as (Hc1 & Hc2 & _).
    destruct (intersect_rank2 d c _ Hc1 Hc2 H1 H2 Hi) as (p & rows & Hsup).
    rewrite Hsup in Hi, Hns. simpl in Hns. injection Hns as Hns.
    destruct (intersect_increasing c p rows Hc1 Hc2 H1 H2 Hi) as [Hinc Hw].
    exists sel, p, rows. split; [exact H0|]. split; [exact Hsup|]. intros b j Hb Hj Hn Hle.
    pose proof (proj1 (np_argmax_spec _ _ (Am b Hb))) as Fm.
    assert (N : existsb is_nan64 (map (at2 (s_scores sel) b) (seq 0 ns)) = false).
    { destruct (existsb is_nan64 _) eqn:Ex; auto. apply existsb_exists in Ex as (x & Hx & Hnx).
      apply in_map_iff in Hx as (i & <- & I). apply in_seq in I. rewrite Hn in Hnx by lia. discriminate. }
    destruct (Fm N) as [B1 B2]. rewrite map_length, seq_length in B1, B2.
    set (m := index_at (s_rp_max_idx sel) b) in *.
    assert (Kn : forall k, k < ns -> nth k (map (at2 (s_scores sel) b) (seq 0 ns)) fnan = at2 (s_scores sel) b k).
    { intros k Hk. rewrite nth_indep with (d' := at2 (s_scores sel) b 0) by now rewrite map_length, seq_length.
      rewrite map_nth, seq_nth by exact Hk. reflexivity. }
    unfold chosen. fold m. destruct (Nat.lt_trichotomy j m) as [L|[->|L]].
    - exfalso. destruct (B2 j ltac:(lia)) as [_ B3]. specialize (B3 L). rewrite !Kn in B3 by lia. congruence.
    - now left.
    - right. apply lex_omits.
      + apply increasing_nth; [exact Hinc|exact L|exact Hj].
      + rewrite Forall_forall in Hw. rewrite !Hw; [reflexivity| |]; apply nth_In; lia.
  Qed.
End Ties.

(** * A solver that knows its columns by name *)

(** Column [c] is selected by parameter [c] alone and gets the coefficient [c + 1]. *)
Definition named (ids : list nat) (sc : list nat -> f64) : solver unit (list nat) :=
  mkSolver unit (list nat) (fun s => s)
    (fun s regs _ => Ok (s, map (fun r => map (fun c => if c =? r then fone else fzero) ids) regs))
    (fun mask _ => Ok (map fst (filter snd (combine ids mask))))
    (fun e => map (fun c => f64_of_Z (Z.of_nat c + 1)) e)
    (fun _ => Ok []) (fun e _ _ => Ok (sc e)) (fun _ _ => Ok fzero)
    (fun _ => Ok (nd_of_floats [1] [fzero])).
Definition col_dims : dims := mkDims 2 1 2 2 2 [1%Z; 2%Z] true false.

Lemma named_shapes ids sc : length ids = 2 -> shapes_ok col_dims (named ids sc).
Proof.
  intro L. split.
  - simpl. intros s regs train s' rows H. injection H as <- <-. rewrite map_length. split; [reflexivity|].
    apply Forall_forall. intros x Hx. apply in_map_iff in Hx as (r & <- & _). now rewrite map_length.
  - simpl. intros c a H. injection H as <-. repeat split. discriminate.
Qed.
Lemma named_follows sc : (forall e e', Permutation e e' -> sc e = sc e') ->
  follows col_dims [1; 0] (named [0; 1] sc) (named [1; 0] sc) (fun _ _ => True).
Proof.
  intro Hsc. constructor.
  - auto.
  - simpl. intros s s' regs tr s1 rows _ H. injection H as <- <-. exists s'. split; [exact Logic.I|].
    f_equal. f_equal. rewrite map_map. apply map_ext. intro r. reflexivity.
  - intros [|a [|b [|]]] tr e L H; try discriminate L. injection H as <-.
    eexists. split; [reflexivity|].
    split; [destruct a, b; reflexivity|]. split; [destruct a, b; reflexivity|]. split.
    + intros [|[|j]] Hj; [| |simpl in Hj; lia]; destruct a, b; reflexivity.
    + intros sp x G. simpl in G |- *. injection G as <-. f_equal. apply Hsc.
      destruct a, b; simpl; auto using Permutation_refl. apply perm_swap.
  - intros tr e H. injection H as <-. exists []. split; [reflexivity|]. auto.
  - intros c ic _ H. exact H.
Qed.
Lemma id_post_follows : post_follows col_dims [1; 0]
  (fun c ic => Ok (c, ic)) (fun c ic => Ok (c, ic)).
Proof.
  intros [|a [|b [|]]] ic c1 ic1 L H; try discriminate L. injection H as <- <-. reflexivity.
Qed.
Definition total (e : list nat) : f64 := f64_of_Z (Z.of_nat (fold_right plus 0 e)).
Lemma total_perm e e' : Permutation e e' -> total e = total e'.
Proof.
  intro P. unfold total. f_equal. f_equal. induction P; simpl; lia.
Qed.
