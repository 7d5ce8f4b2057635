(** Proofs about logging (C66, C67). *)
From Coq Require Import List Bool Arith String Ascii Lia ZArith.
From Verif Require Import Prelude Model_Logging Spec_Logging.
Import ListNotations.
Local Open Scope string_scope.

(** ** Histories *)
Lemma run_app root h1 : forall p h2,
  run root p (h1 ++ h2)%list
  = let (p1, l1) := run root p h1 in let (p2, l2) := run root p1 h2 in (p2, (l1 ++ l2)%list).
Proof.
  induction h1 as [|o h1 IH]; intros p h2; cbn [run app].
  - destruct (run root p h2); reflexivity.
  - destruct (step root p o) as [p1 l1]. rewrite IH.
    destruct (run root p1 h1) as [p2 l2]. destruct (run root p2 h2) as [p3 l3].
    now rewrite app_assoc.
Qed.

Lemma run_last root h o :
  fst (run root begin (h ++ [o])%list) = fst (step root (fst (run root begin h)) o).
Proof.
  rewrite run_app. destruct (run root begin h) as [p l]. cbn [run fst].
  destruct (step root p o) as [p1 l1]. reflexivity.
Qed.

Lemma created_app h1 h2 : created (h1 ++ h2)%list = (created h1 ++ created h2)%list.
Proof.
  induction h1 as [|o h1 IH]; [reflexivity|]. cbn [created app].
  destruct (uses o); rewrite IH; reflexivity.
Qed.

Lemma put_same n l g : put n l g n = l.
Proof. unfold put. now rewrite String.eqb_refl. Qed.

(** The invariant: the loggers of the estimators, and the handlers. *)
Lemma state_after root h :
  let p := fst (run root begin h) in
  map est_logger (estimators p) = created h /\
  forall n, handlers (loggers p n) = flat_map (connects n) h.
Proof.
  induction h as [|o h IH] using rev_ind; [split; reflexivity|].
  cbv zeta in *. rewrite run_last. set (p := fst (run root begin h)) in *.
  destruct IH as [IHe IHh]. rewrite created_app. cbn [created].
  destruct o as [arg f comm out|i v ms|n lv|n out|n lv m]; cbn [step uses].
  - destruct arg as [a|]; cbn [check_logger fst estimators loggers].
    + rewrite map_app, IHe. split; [reflexivity|]. intro n. rewrite flat_map_app. cbn.
      now rewrite app_nil_r.
    + rewrite map_app, IHe. split; [reflexivity|]. intro n.
      rewrite flat_map_app. cbn [flat_map connects]. rewrite app_nil_r. unfold put.
      rewrite (String.eqb_sym n). destruct (logger_name (base_name f) comm =? n) eqn:E.
      * apply String.eqb_eq in E. subst n. cbn [handlers]. now rewrite IHh.
      * now rewrite IHh, app_nil_r.
  - cbn [app]. rewrite app_nil_r.
    destruct (nth_error (estimators p) i) as [e|]; cbn [fst estimators loggers].
    + split; [exact IHe|]. intro n. rewrite flat_map_app. cbn. rewrite app_nil_r, <- IHh.
      unfold put. destruct (n =? est_logger e) eqn:E; [|reflexivity].
      apply String.eqb_eq in E. now subst n.
    + split; [exact IHe|]. intro n. rewrite flat_map_app. cbn. now rewrite app_nil_r.
  - cbn [app fst estimators loggers]. rewrite app_nil_r.
    split; [exact IHe|]. intro n'. rewrite flat_map_app. cbn. rewrite app_nil_r, <- IHh.
    unfold put. destruct (n' =? n) eqn:E; [|reflexivity].
    apply String.eqb_eq in E. now subst n'.
  - cbn [app fst estimators loggers]. rewrite app_nil_r. split; [exact IHe|]. intro n'.
    rewrite flat_map_app. cbn [flat_map connects]. rewrite app_nil_r. unfold put.
    rewrite (String.eqb_sym n'). destruct (n =? n') eqn:E.
    + apply String.eqb_eq in E. subst n'. cbn [handlers]. now rewrite IHh.
    + now rewrite IHh, app_nil_r.
  - cbn [app fst]. rewrite app_nil_r. split; [exact IHe|]. intro n'.
    rewrite flat_map_app. cbn. now rewrite app_nil_r.
Qed.

Lemma estimator_at root h i n : nth_error (created h) i = Some n ->
  exists e, nth_error (estimators (fst (run root begin h))) i = Some e /\ est_logger e = n.
Proof.
  destruct (state_after root h) as [H _]. cbv zeta in H. rewrite <- H, nth_error_map.
  destruct (nth_error _ i) as [e|]; cbn; [|discriminate].
  intro E. injection E as E. now exists e.
Qed.

(** Verbose output: every message once per handler. *)
Lemma verbose_output root h i n ms : nth_error (created h) i = Some n ->
  output_of root h (Fit i true ms)
  = flat_map (fun m => map (fun s => (s, n, m)) (flat_map (connects n) h ++ handlers root)%list) ms.
Proof.
  intro H. destruct (estimator_at root h i n H) as (e & He & En).
  unfold output_of, step. rewrite He, En. cbn [snd].
  destruct (state_after root h) as [_ Hh]. cbv zeta in Hh.
  apply flat_map_ext. intro m. unfold emit. rewrite put_same. cbn [level handlers]. cbn.
  now rewrite Hh.
Qed.

Lemma quiet_output root h i ms : output_of root h (Fit i false ms) = [].
Proof.
  unfold output_of, step.
  destruct (nth_error _ i) as [e|]; [|reflexivity]. cbn [snd].
  induction ms as [|m ms IH]; [reflexivity|]. cbn [flat_map]. rewrite IH, app_nil_r.
  unfold emit. rewrite put_same. reflexivity.
Qed.

Lemma plain_streams out n h : Forall (plain out) h ->
  flat_map (connects n) h = repeat out (default_users n h).
Proof.
  unfold default_users. induction h as [|o h IH]; intro H; [reflexivity|].
  inversion H as [|? ? Ho Hh]; subst. cbn [flat_map filter]. rewrite (IH Hh).
  destruct o as [arg f comm s|i v ms|m lv|m s|m lv x]; cbn [connects plain] in *; try reflexivity.
  - destruct arg as [a|]; [reflexivity|]. subst s.
    destruct (logger_name (base_name f) comm =? n); reflexivity.
  - destruct Ho.
Qed.

Lemma repeated_messages root h i n m out : nth_error (created h) i = Some n ->
  Forall (plain out) h -> handlers root = [] ->
  output_of root h (Fit i true [m]) = repeat (out, n, m) (default_users n h).
Proof.
  intros H P R. rewrite (verbose_output root h i n [m] H), R, (plain_streams out n h P).
  cbn [flat_map]. rewrite !app_nil_r.
  induction (default_users n h) as [|k IH]; [reflexivity|]. cbn. now rewrite IH.
Qed.

(** The level is the one of the last fit. *)
Lemma level_overwritten root h i n v ms lv m : nth_error (created h) i = Some n ->
  output_of root (h ++ [Fit i v ms])%list (Log n lv m)
  = if Nat.leb (if v then 10 else 30) lv
    then map (fun s => (s, n, m)) (flat_map (connects n) h ++ handlers root)%list else [].
Proof.
  intro H. destruct (estimator_at root h i n H) as (e & He & En).
  unfold output_of. rewrite run_last. unfold step at 2. rewrite He, En. cbn [fst step snd].
  destruct (state_after root h) as [_ Hh]. cbv zeta in Hh.
  unfold emit. cbn [loggers]. rewrite put_same. cbn [level handlers]. rewrite Hh.
  destruct v; reflexivity.
Qed.

Lemma level_after root h : forall n, level (loggers (fst (run root begin h)) n) = level_in n h.
Proof.
  unfold level_in. induction h as [|o h IH] using rev_ind; [reflexivity|]. intro n. rewrite run_last.
  set (p := fst (run root begin h)) in *. rewrite rev_app_distr. cbn [rev app last_level].
  rewrite rev_involutive.
  destruct o as [arg f comm out|i v ms|n' lv|n' out|n' lv m]; cbn [step].
  - destruct arg as [a|]; cbn [check_logger fst loggers]; [apply IH|]. unfold put.
    destruct (String.eqb_spec n (logger_name (base_name f) comm)) as [->|_]; cbn [level]; apply IH.
  - destruct (state_after root h) as [Hs _]. cbv zeta in Hs. fold p in Hs.
    rewrite <- Hs, nth_error_map. destruct (nth_error (estimators p) i) as [e|]; cbn [option_map fst loggers]; [|apply IH].
    unfold put. rewrite (String.eqb_sym n). destruct (est_logger e =? n); [now destruct v|apply IH].
  - cbn [fst loggers]. unfold put. rewrite (String.eqb_sym n). destruct (n' =? n); [reflexivity|apply IH].
  - cbn [fst loggers]. unfold put. destruct (String.eqb_spec n n') as [->|_]; cbn [level]; apply IH.
  - cbn [fst]. apply IH.
Qed.
Lemma log_output root h n lv m :
  output_of root h (Log n lv m)
  = if Nat.leb (if Nat.eqb (level_in n h) 0 then level root else level_in n h) lv
    then map (fun s => (s, n, m)) (flat_map (connects n) h ++ handlers root)%list else [].
Proof.
  unfold output_of. cbn [step snd]. unfold emit. destruct (state_after root h) as [_ Hh]. cbv zeta in Hh.
  now rewrite level_after, Hh.
Qed.

(** ** Names *)
Lemma length_append (s t : string) : String.length (s ++ t) = String.length s + String.length t.
Proof. induction s as [|c s IH]; cbn; [reflexivity|now rewrite IH]. Qed.

Lemma append_assoc' (s t u : string) : s ++ (t ++ u) = (s ++ t) ++ u.
Proof. induction s as [|c s IH]; cbn; [reflexivity|now rewrite IH]. Qed.

Lemma append_inj_l (s t u : string) : s ++ t = s ++ u -> t = u.
Proof. induction s as [|c s IH]; cbn; intro H; [exact H|]. injection H as H. auto. Qed.

Lemma append_split (a : string) : forall b c d, a ++ b = c ++ d ->
  String.length a = String.length c -> a = c /\ b = d.
Proof.
  induction a as [|x a IH]; intros b [|y c] d H L; cbn in *; try discriminate; [now split|].
  injection H as -> H. destruct (IH b c d H) as [-> ->]; [lia|now split].
Qed.

Lemma digit_inj a b : a < 10 -> b < 10 -> digit a = digit b -> a = b.
Proof.
  intros Ha Hb H. unfold digit in H. injection H as H.
  assert (E : nat_of_ascii (ascii_of_nat (48 + a)) = nat_of_ascii (ascii_of_nat (48 + b)))
    by (cbn [Nat.add] in *; now rewrite H).
  rewrite !nat_ascii_embedding in E by lia. lia.
Qed.

Lemma decimal_length fuel : forall n, n < fuel -> 1 <= String.length (decimal fuel n).
Proof.
  destruct fuel as [|f]; intros n H; [lia|]. cbn [decimal]. destruct (Nat.ltb n 10); [cbn; lia|].
  rewrite length_append. cbn. lia.
Qed.

Lemma div10 n : 10 <= n -> n / 10 < n.
Proof. intro H. apply Nat.div_lt; lia. Qed.

Lemma decimal_inj : forall f1 f2 n m, n < f1 -> m < f2 -> decimal f1 n = decimal f2 m -> n = m.
Proof.
  induction f1 as [|f1 IH]; intros f2 n m Hn Hm H; [lia|]. destruct f2 as [|f2]; [lia|].
  cbn [decimal] in H.
  destruct (Nat.ltb_spec n 10) as [Ln|Ln]; destruct (Nat.ltb_spec m 10) as [Lm|Lm].
  - now apply digit_inj.
  - exfalso. apply (f_equal String.length) in H. rewrite length_append in H.
    assert (1 <= String.length (decimal f2 (m / 10)))
      by (apply decimal_length; pose proof (div10 m Lm); lia). cbn [digit String.length] in H. lia.
  - exfalso. apply (f_equal String.length) in H. rewrite length_append in H.
    assert (1 <= String.length (decimal f1 (n / 10)))
      by (apply decimal_length; pose proof (div10 n Ln); lia). cbn [digit String.length] in H. lia.
  - apply append_split in H.
    + destruct H as [H1 H2]. apply IH in H1; [|pose proof (div10 n Ln); lia|pose proof (div10 m Lm); lia].
      apply digit_inj in H2; [|apply Nat.mod_upper_bound; lia|apply Nat.mod_upper_bound; lia].
      pose proof (Nat.div_mod n 10 ltac:(lia)). pose proof (Nat.div_mod m 10 ltac:(lia)). lia.
    + apply (f_equal String.length) in H. rewrite !length_append in H. cbn [digit String.length] in H. lia.
Qed.

Lemma str_inj n m : str n = str m -> n = m.
Proof. intro H. apply (decimal_inj (S n) (S m)); [lia|lia|exact H]. Qed.

(** At most [w] digits below 10^w. *)
Lemma decimal_short : forall fuel n w, n < fuel -> n < 10 ^ w -> 0 < w ->
  String.length (decimal fuel n) <= w.
Proof.
  induction fuel as [|f IH]; intros n w Hn Hw Hp; [cbn; lia|]. cbn [decimal].
  destruct (Nat.ltb_spec n 10) as [L|L]; [cbn; lia|].
  rewrite length_append. destruct w as [|w]; [lia|].
  assert (D : n / 10 < 10 ^ w).
  { apply Nat.div_lt_upper_bound; [lia|]. rewrite Nat.pow_succ_r' in Hw. exact Hw. }
  destruct w as [|w].
  - cbn in Hw. lia.
  - assert (String.length (decimal f (n / 10)) <= S w).
    { apply IH; [pose proof (div10 n L); lia|exact D|lia]. }
    cbn [digit String.length]. lia.
Qed.

Lemma length_spaces n : String.length (spaces n) = n.
Proof. induction n as [|n IH]; cbn; [reflexivity|now rewrite IH]. Qed.

Lemma rjust_length s w : String.length (rjust s w) = max w (String.length s).
Proof. unfold rjust. rewrite length_append, length_spaces. lia. Qed.

(** A decimal number does not start with a space. *)
Lemma decimal_head fuel : forall n, n < fuel -> exists k s, k < 10 /\
  decimal fuel n = digit k ++ s.
Proof.
  induction fuel as [|f IH]; intros n H; [lia|]. cbn [decimal].
  destruct (Nat.ltb_spec n 10) as [L|L].
  - exists n, "". split; [exact L|reflexivity].
  - destruct (IH (n / 10)) as (k & s & Hk & E); [pose proof (div10 n L); lia|].
    exists k, (s ++ digit (n mod 10)). split; [exact Hk|]. rewrite E. now rewrite append_assoc'.
Qed.

Lemma digit_not_space k s t : k < 10 -> digit k ++ s <> String " "%char t.
Proof.
  intros Hk H. unfold digit in H. cbn [append] in H. injection H as H _.
  assert (E : nat_of_ascii (ascii_of_nat (48 + k)) = 32) by (cbn [Nat.add] in *; now rewrite H).
  rewrite nat_ascii_embedding in E by lia. lia.
Qed.

Lemma padded_inj a : forall b n m, spaces a ++ str n = spaces b ++ str m -> n = m.
Proof.
  induction a as [|a IH]; intros [|b] n m H; cbn [spaces append] in H.
  - now apply str_inj.
  - exfalso. destruct (decimal_head (S n) n) as (k & s & Hk & E); [lia|].
    unfold str at 1 in H. rewrite E in H. exact (digit_not_space k s _ Hk H).
  - exfalso. destruct (decimal_head (S m) m) as (k & s & Hk & E); [lia|].
    unfold str at 2 in H. rewrite E in H. symmetry in H. exact (digit_not_space k s _ Hk H).
  - injection H as H. now apply IH in H.
Qed.

Lemma rank_name_inj base lg r1 r2 : rank_name base lg r1 = rank_name base lg r2 -> r1 = r2.
Proof.
  unfold rank_name. intro H. apply append_inj_l in H. apply append_inj_l in H.
  now apply padded_inj in H.
Qed.

Lemma rank_name_length base lg s r : s <= 10 ^ (lg + 1) -> r < s ->
  String.length (rank_name base lg r) = String.length base + 1 + (lg + 1).
Proof.
  intros Hs Hr. unfold rank_name. rewrite !length_append, rjust_length. cbn [String.length].
  assert (String.length (str r) <= lg + 1) by (apply decimal_short; lia). lia.
Qed.

Lemma log10_spec : forall fuel n, 1 <= n -> n <= fuel ->
  10 ^ log10 fuel n <= n < 10 ^ (log10 fuel n + 1).
Proof.
  induction fuel as [|f IH]; intros n H1 H2; [lia|]. cbn [log10].
  destruct (Nat.ltb_spec n 10) as [L|L]; [cbn; lia|].
  assert (1 <= n / 10) by (apply Nat.div_le_lower_bound; lia).
  destruct (IH (n / 10)) as [A B]; [lia|pose proof (div10 n L); lia|].
  cbn [Nat.add]. rewrite !Nat.pow_succ_r'. 
  pose proof (Nat.div_mod n 10 ltac:(lia)). pose proof (Nat.mod_upper_bound n 10 ltac:(lia)).
  split; nia.
Qed.

Lemma names_distinct base s r1 r2 : 1 < s -> r1 < s -> r2 < s ->
  (logger_name base (Some (r1, s)) = logger_name base (Some (r2, s)) <-> r1 = r2) /\
  String.length (logger_name base (Some (r1, s))) = String.length (logger_name base (Some (r2, s))).
Proof.
  intros Hs H1 H2. unfold logger_name.
  replace (Nat.ltb 1 s) with true by (symmetry; now apply Nat.ltb_lt).
  split.
  - split; [apply rank_name_inj|now intros ->].
  - destruct (log10_spec s s) as [A B]; [lia|lia|].
    rewrite !(rank_name_length base _ s) by lia. reflexivity.
Qed.

Lemma name_long base s r : 1 < s -> String.length base < String.length (logger_name base (Some (r, s))).
Proof.
  intro Hs. unfold logger_name.
  replace (Nat.ltb 1 s) with true by (symmetry; now apply Nat.ltb_lt).
  unfold rank_name. rewrite length_append. cbn. lia.
Qed.

(** Names of the two families differ, whatever the communicators. *)
Lemma base_first f comm : exists t, logger_name (base_name f) comm = base_name f ++ t.
Proof.
  destruct comm as [[r s]|]; unfold logger_name; [|exists ""; destruct f; reflexivity].
  destruct (Nat.ltb 1 s); [eexists; reflexivity|exists ""; destruct f; reflexivity].
Qed.

Lemma families_differ c1 c2 :
  logger_name (base_name LinearModel) c1 <> logger_name (base_name Decomposition) c2.
Proof.
  destruct (base_first LinearModel c1) as [t1 ->]. destruct (base_first Decomposition c2) as [t2 ->].
  cbn. intro H. discriminate H.
Qed.
