(** Abandoned L1 fits (C55). *)
From Coq Require Import ZArith List Bool Arith Reals Lra Lia.
From Verif Require Import Prelude Num Model_Mpi Model_Rescale Spec_Rescale Model_Poisson Spec_Poisson
  Model_Logistic Spec_Logistic Model_Lbfgs Spec_Lbfgs Model_LogisticFit Spec_LogisticFit
  Proofs_Intersection Proofs_Rescale Proofs_Poisson Proofs_Multinomial Proofs_LogisticIntercept Proofs_LogisticMain
  Proofs_Lbfgs Proofs_LbfgsTrace Proofs_LbfgsMain Proofs_LogisticAbandon Proofs_LogisticFit Proofs_LogisticOpt Proofs_LogisticMulti.
Import ListNotations.

Lemma map_repeat' {A B} (f : A -> B) a n : map f (repeat a n) = repeat (f a) n.
Proof. induction n; cbn; [reflexivity|now f_equal]. Qed.
Lemma firstn_repeat {A} (a : A) n m : (n <= m)%nat -> firstn n (repeat a m) = repeat a n.
Proof. revert m. induction n as [|n IH]; intros m H; [reflexivity|]. destruct m; [lia|]. cbn. rewrite IH by lia. reflexivity. Qed.
Lemma nth_repeat' {A} (a d : A) n i : (i < n)%nat -> nth i (repeat a n) d = a.
Proof. revert i. induction n as [|n IH]; intros i H; [lia|]. destruct i; [reflexivity|]. cbn. apply IH. lia. Qed.

Section Any.
  Context {N : NumOps}.

  Lemma split_out (has : bool) p (w : list N) c : length w = (p + if has then 1 else 0)%nat ->
    split_rows has p [w] c = Fitted [firstn p w] [if has then nth p w nzero else nzero] c.
  Proof.
    intros L. unfold split_rows. destruct has; [reflexivity|]. rewrite Nat.add_0_r in L. rewrite <- L, firstn_all. reflexivity.
  Qed.

  Lemma binary_lost (has : bool) p (C tol : N) mi X y sw opt fuel lsfuel log out : @nmul N nzero nzero = nzero ->
    recorded (l1_options C tol mi p) (binary_objective p X (label_signs y) None sw) None fuel lsfuel tt (repeat nzero (p + if has then 1 else 0))
      = Some (tt, log, out) ->
    (twice_only_last 1 log ->
      fit_binary false has p C tol mi X y sw None None opt fuel lsfuel = Some (Fitted [repeat nzero p] [nzero] None)) /\
    (~ twice_only_last 1 log -> forall w c, out = Returned w c -> length w = (p + if has then 1 else 0)%nat ->
      fit_binary false has p C tol mi X y sw None None opt fuel lsfuel = Some (Fitted [firstn p w] [if has then nth p w nzero else nzero] c)).
  Proof.
    intros Z H. set (f := fun x (g : list N) => snd (binary_objective (St := unit) p X (label_signs y) None sw tt x g)).
    destruct (solve_abandons 1 p C tol mi f fuel lsfuel _ log out H) as [A B].
    assert (E : fit_binary false has p C tol mi X y sw None None opt fuel lsfuel =
      match l1_solve 1 p C tol mi (stateless f) fuel lsfuel (repeat nzero (p + if has then 1 else 0)) with
      | None => None
      | Some (Returned w c) => Some (split_rows has p [w] c)
      | Some (Raises e) => Some (FitRaises e)
      | Some Crash => Some FitCrash
      end) by reflexivity.
    rewrite E. split.
    - intros T. rewrite (A T). rewrite map_repeat', Z. rewrite split_out by (now rewrite repeat_length).
      rewrite firstn_repeat by lia. destruct has; [|reflexivity]. rewrite nth_repeat' by lia. reflexivity.
    - intros T w c -> Lw. rewrite (B T). now rewrite split_out.
  Qed.

  (** The cold start of a fit with several classes. *)
  Lemma multi_cold (has : bool) k p y : let q := (p + if has then 1 else 0)%nat in (0 < p)%nat ->
    transposed k q (concat (multi_start (N := N) has k p None None y)) = repeat nzero ((q - 1) * k) ++ multi_intercept k y.
  Proof.
    intros q Hp. assert (Hq : (0 < q)%nat) by lia.
    destruct (start_rows (N := N) has k p None None y Hq Logic.I Logic.I) as [L F]. fold q in F.
    assert (Lb : length (multi_intercept (N := N) k y) = k).
    { unfold multi_intercept. rewrite !map_length. unfold class_rates. destruct (Nat.ltb _ _); rewrite ?map_length; unfold frequencies; now rewrite map_length, seq_length. }
    apply nth_ext with (d := nzero) (d' := nzero).
    - rewrite trans_length, app_length, repeat_length, Lb. nia.
    - intros i Hi. rewrite trans_length in Hi. destruct k as [|k']; [lia|]. set (k := S k') in *.
      destruct (grid_index q k i Hi ltac:(unfold k; lia)) as (I1 & I2 & I3). rewrite I3. set (j := (i / k)%nat) in *. set (c := (i mod k)%nat) in *.
      rewrite trans_nth by assumption. rewrite (nth_concat q) by (assumption || lia).
      unfold multi_start. cbv zeta. fold q.
      rewrite (nth_mapd (fun c => repeat nzero (q - 1) ++ [nth c (multi_intercept k y) nzero]) (seq 0 k) c 0%nat) by (rewrite seq_length; lia).
      rewrite seq_nth by lia. cbn [Nat.add]. destruct (Nat.lt_ge_cases j (q - 1)) as [Hj|Hj].
      + rewrite app_nth1 by (rewrite repeat_length; lia). rewrite nth_repeat' by lia.
        rewrite app_nth1 by (rewrite repeat_length; nia). rewrite nth_repeat' by nia. reflexivity.
      + rewrite app_nth2 by (rewrite repeat_length; lia). rewrite repeat_length. replace (j - (q - 1))%nat with 0%nat by lia. cbn [nth].
        rewrite app_nth2 by (rewrite repeat_length; nia). rewrite repeat_length. f_equal. nia.
  Qed.
End Any.

Section Rows.
  Context {N : NumOps}.
  Lemma rows_any (has : bool) k p q (x : list N) wn : q = (p + if has then 1 else 0)%nat ->
    exists cf b, split_rows has p (chunks q k (transposed q k x)) wn = Fitted cf b wn /\ laid_out has k p x cf b.
  Proof.
    intros Eq. assert (LT' : length (transposed q k x) = (k * q)%nat) by apply trans_length.
    destruct (chunks_spec q k _ LT') as [Lc Fc].
    destruct (split_rows has p (chunks q k (transposed q k x)) wn) as [cf b c'|e|] eqn:H;
      [|unfold split_rows in H; destruct has; discriminate..].
    destruct (split_shape has p q k _ wn cf b c' Eq Lc Fc H) as (-> & Lb & G & K).
    exists cf, b. split; [reflexivity|]. split; [exact G|]. split; [exact Lb|]. intros c Hc. destruct (K c Hc) as [K1 K2].
    assert (Lr : length (nth c cf []) = p) by (destruct G as [G1 G2]; apply (nth_len p); [exact G2|lia]).
    assert (E : forall j, (j < q)%nat -> nth (j * k + c) x nzero = nth j (nth c cf [] ++ (if has then [nth c b nzero] else [])) nzero).
    { intros j Hj. rewrite <- K1, chunks_nth by assumption. now rewrite trans_nth. }
    split.
    - intros j Hj. rewrite E by lia. now rewrite app_nth1 by lia.
    - destruct has; [|now apply K2]. rewrite E by lia. rewrite app_nth2 by lia. rewrite Lr, Nat.sub_diag. reflexivity.
  Qed.

  Lemma multi_lost (has : bool) k p (C tol : N) mi X y sw opt fuel lsfuel log out : (0 < p)%nat ->
    let q := (p + if has then 1 else 0)%nat in
    recorded (l1_options C tol mi (k * p)) (multi_objective k p q X (one_hot k y) None sw) None fuel lsfuel tt
      (repeat nzero ((q - 1) * k) ++ multi_intercept k y) = Some (tt, log, out) ->
    (twice_only_last k log -> exists cf b,
      fit_multi false has k p C tol mi X y sw None None opt fuel lsfuel = Some (Fitted cf b None) /\
      laid_out has k p (map (fun v => nmul v nzero) (repeat nzero ((q - 1) * k) ++ multi_intercept k y)) cf b) /\
    (~ twice_only_last k log -> forall w c, out = Returned w c -> exists cf b,
      fit_multi false has k p C tol mi X y sw None None opt fuel lsfuel = Some (Fitted cf b c) /\ laid_out has k p w cf b).
  Proof.
    intros Hp q H. set (f := fun x (g : list N) => snd (multi_objective (St := unit) k p q X (one_hot k y) None sw tt x g)).
    destruct (solve_abandons k (k * p) C tol mi f fuel lsfuel _ log out H) as [A B].
    pose proof (multi_cold (N := N) has k p y Hp) as Ec. fold q in Ec.
    assert (E : fit_multi false has k p C tol mi X y sw None None opt fuel lsfuel =
      match l1_solve k (k * p) C tol mi (stateless f) fuel lsfuel (repeat nzero ((q - 1) * k) ++ multi_intercept k y) with
      | None => None
      | Some (Returned w c) => Some (split_rows has p (chunks q k (transposed q k w)) c)
      | Some (Raises e) => Some (FitRaises e)
      | Some Crash => Some FitCrash
      end).
    { unfold fit_multi. cbv zeta. cbn [option_map to_optimize]. fold q. rewrite Ec. reflexivity. }
    rewrite E. clear E. split.
    - intros T. rewrite (A T). destruct (rows_any has k p q (map (fun v => nmul v nzero) (repeat nzero ((q - 1) * k) ++ multi_intercept k y)) None eq_refl) as (cf & b & Es & K).
      exists cf, b. split; [now f_equal|exact K].
    - intros T w c Eo. rewrite (B T), Eo. destruct (rows_any has k p q w c eq_refl) as (cf & b & Es & K). exists cf, b. split; [now f_equal|exact K].
  Qed.

  (** All of it is zero. *)
  Lemma multi_zero (has : bool) k p (C tol : N) mi X y sw opt fuel lsfuel log out : (0 < p)%nat ->
    neqb (@nmul N nzero nzero) nzero = true -> neqb (@nzero N) nzero = true ->
    Forall (fun v : N => neqb (nmul v nzero) nzero = true) (multi_intercept k y) ->
    let q := (p + if has then 1 else 0)%nat in
    recorded (l1_options C tol mi (k * p)) (multi_objective k p q X (one_hot k y) None sw) None fuel lsfuel tt
      (repeat nzero ((q - 1) * k) ++ multi_intercept k y) = Some (tt, log, out) ->
    twice_only_last k log -> exists cf b,
      fit_multi false has k p C tol mi X y sw None None opt fuel lsfuel = Some (Fitted cf b None) /\
      grid k p cf /\ length b = k /\ Forall (Forall (fun v => neqb v nzero = true)) cf /\ Forall (fun v => neqb v nzero = true) b.
  Proof.
    intros Hp Z1 Z2 Zb q H T. destruct (multi_lost has k p C tol mi X y sw opt fuel lsfuel log out Hp H) as [A _].
    destruct (A T) as (cf & b & E & G & Lb & K). exists cf, b. split; [exact E|]. split; [exact G|]. split; [exact Lb|].
    match type of K with context [map _ ?w0] => set (w := map (fun v : N => nmul v nzero) w0) in K end.
    assert (Zw : Forall (fun v : N => neqb v nzero = true) w).
    { unfold w. rewrite map_app. apply Forall_app. split.
      - rewrite map_repeat'. apply Forall_forall. intros v Hv. apply repeat_spec in Hv. now subst v.
      - apply Forall_forall. intros v Hv. apply in_map_iff in Hv. destruct Hv as (u & <- & Hu). rewrite Forall_forall in Zb. now apply Zb. }
    assert (Zn : forall i, neqb (nth i w nzero) nzero = true).
    { intros i. destruct (Nat.lt_ge_cases i (length w)) as [Hi|Hi]; [|rewrite nth_overflow by exact Hi; exact Z2].
      rewrite Forall_forall in Zw. apply Zw, nth_In. exact Hi. }
    destruct G as [G1 G2]. split; apply Forall_forall; intros r Hr.
    - apply (In_nth _ _ []) in Hr. destruct Hr as (c & Hc & <-). rewrite G1 in Hc. apply Forall_forall. intros v Hv.
      apply (In_nth _ _ nzero) in Hv. destruct Hv as (j & Hj & <-). rewrite (nth_len p) in Hj by (exact G2 || lia).
      destruct (K c Hc) as [K1 _]. rewrite (K1 j Hj). apply Zn.
    - apply (In_nth _ _ nzero) in Hr. destruct Hr as (c & Hc & <-). rewrite Lb in Hc. destruct (K c Hc) as [_ K2]. rewrite K2.
      destruct has; [apply Zn|exact Z2].
  Qed.
End Rows.

(** ** Reports are no longer than the start *)
Section Short.
  Context {N : NumOps} {St : Type}.
  Variable f : objective N St.
  Hypothesis Hf : forall st x g, (length (fst (fst (snd (f st x g)))) <= length x)%nat.
  Variable progress : option (observer N St).

  Lemma mapi_from_length {A B} (h : nat -> A -> B) l : forall i, length (mapi_from i h l) = length l.
  Proof. induction l as [|a l IH]; intros i; cbn; [reflexivity|now rewrite IH]. Qed.
  Lemma accepted_short P b e s r : accepted P f b e s r -> (length (pt_x (s_pt r)) <= length (pt_x (l_pt s)))%nat.
  Proof.
    unfold accepted. intros [_ H]. destruct (owl P).
    - destruct H as [(st & g & ->) _]. cbn [pt_x]. etransitivity; [apply Hf|]. unfold owlqn_project, mapi. rewrite mapi_from_length, combine_length.
      unfold vecadd. rewrite map2_length. lia.
    - destruct H as (_ & (st & g & ->) & _). cbn [pt_x]. etransitivity; [apply Hf|]. unfold vecadd. rewrite map2_length. lia.
  Qed.

  Lemma run_short P b e s l en : (0 < p_max_linesearch P)%Z -> run P f progress b e s l en ->
    Forall (fun r => (length (pt_x (s_pt r)) <= length (pt_x (l_pt s)))%nat) l.
  Proof.
    intros HM H. induction H as [fuel s r E Hr | fuel s r en E Hr Ea | fuel s r s' l en E Hr Ea H IH]; [constructor|..].
    - constructor; [|constructor]. apply search_end in E; [|exact HM]. destruct E as (n & _ & _ & [C|(_ & _ & E)]); [lia|].
      now apply accepted_short in E.
    - apply search_end in E; [|exact HM]. destruct E as (n & _ & _ & [C|(_ & _ & E)]); [lia|]. apply accepted_short in E.
      constructor; [exact E|]. apply after_step_next in Ea. destruct Ea as (st1 & pg & _ & _ & -> & _).
      cbn [next_state l_pt pt_x] in IH. eapply Forall_impl; [|exact IH]. intros r0 H0. cbn in H0. lia.
  Qed.
End Short.

Lemma reports_short {N : NumOps} {St} (f : objective N St) (O : options N) fuel lsfuel st x0 st' log out :
  (forall st x g, (length (fst (fst (snd (f st x g)))) <= length x)%nat) ->
  recorded O f None fuel lsfuel st x0 = Some (st', log, out) -> Forall (fun q => (length (r_x q) <= length x0)%nat) log.
Proof.
  intros Hf H. unfold recorded, fmin_lbfgs in H. destruct (negb _). { injection H as _ <- _. constructor. }
  destruct (line_search_algo _) as [alg|]; [|injection H as _ <- _; constructor].
  assert (Hk : forall st x g, (length (fst (fst (snd (keep_log f st x g)))) <= length x)%nat) by (intros; apply Hf).
  apply minimize_cases in H. destruct H as [(code & Ec & H & _)|(b & e & Hck & [(_ & H & _)|(_ & H)])].
  - injection H as _ ->. constructor.
  - injection H as _ ->. constructor.
  - cbv zeta in H. set (s := init_state _ (keep_log f) b e (st, []) x0) in *.
    assert (Es : (length (pt_x (l_pt s)) <= length x0)%nat) by (unfold s; apply Hk).
    destruct H as [(_ & H & _)|(l & en & Hr & H & _)].
    + replace log with (@nil (report N)); [constructor|]. symmetry. apply (f_equal snd) in H. exact H.
    + pose proof (run_short (keep_log f) Hk _ _ _ _ _ _ _ (ck_ls _ _ _ _ Hck) Hr) as K.
      destruct (run_log _ f None _ _ _ _ _ (ck_ls _ _ _ _ Hck) Hr) as (reps & E & D & _).
      assert (El : log = reps) by (apply (f_equal snd) in H; cbn [snd] in H; rewrite H, E; reflexivity).
      rewrite El. clear - K D Es. induction D as [|q r lq lr Hq D IH]; [constructor|]. inversion K as [|? ? K1 K2]; subst.
      constructor; [|now apply IH]. destruct Hq as (-> & _). lia.
Qed.

(** One feature, no intercept. *)
Lemma single_lost {N : NumOps} (C tol : N) mi X y sw opt fuel lsfuel log out : @nmul N nzero nzero = nzero ->
  recorded (l1_options C tol mi 1) (binary_objective 1 X (label_signs y) None sw) None fuel lsfuel tt [nzero] = Some (tt, log, out) ->
  (2 <= length log)%nat ->
  fit_binary false false 1 C tol mi X y sw None None opt fuel lsfuel = Some (Fitted [[nzero]] [nzero] None).
Proof.
  intros Z H Hl. assert (K : Forall (fun q : report N => (length (r_x q) <= 1)%nat) log).
  { refine (reports_short _ _ fuel lsfuel tt [nzero] tt log out _ H). intros st x g. apply le_n. }
  destruct (binary_lost false 1 C tol mi X y sw opt fuel lsfuel log out Z H) as [A _]. apply A.
  destruct log as [|q1 [|q2 log]]; cbn [length] in Hl; [lia|lia|]. exists 0%nat, q1, q2. split; [reflexivity|]. split; [reflexivity|].
  inversion K as [|? ? L1 K2]; subst. inversion K2 as [|? ? L2 _]; subst.
  split; intros i v Hi; exfalso; lia.
Qed.
