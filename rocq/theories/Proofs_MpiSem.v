(** Lock-step runs and their relation to asynchronous executions. *)
From Coq Require Import List Arith Lia Bool.
From Verif Require Import Prelude Model_Mpi Spec_Mpi.
Import ListNotations.

(** A complete lock-step run: all ranks perform the same number of collectives
    and are answered in each of them. *)
Inductive runs {A} (n : nat) : (nat -> proc A) -> (nat -> result A) -> Prop :=
| RunDone ps o : (forall i, i < n -> ps i = Done (o i)) -> runs n ps o
| RunColl ps o cs ks rs :
    (forall i, i < n -> ps i = Coll (cs i) (ks i)) ->
    (forall i, i < n ->
       respond n i (fun j => if j <? n then Some (cs j) else None) = Some (rs i)) ->
    runs n (fun i => ks i (rs i)) o ->
    runs n ps o.

Lemma runs_ext {A} n (ps ps' : nat -> proc A) o o' :
  (forall i, i < n -> ps i = ps' i) -> (forall i, i < n -> o i = o' i) ->
  runs n ps o -> runs n ps' o'.
Proof.
  intros E Eo H. revert ps' o' E Eo. induction H as [ps o H|ps o cs ks rs H1 H2 H3 IH]; intros.
  - apply RunDone. intros i Hi. rewrite <- E, <- Eo by assumption. auto.
  - apply RunColl with cs ks rs.
    + intros i Hi. rewrite <- E by assumption. auto.
    + auto.
    + apply IH; auto.
Qed.

Lemma runs_bind {A B} n (ps : nat -> proc A) (fs : nat -> A -> proc B) a o :
  runs n ps (fun i => Ok (a i)) ->
  runs n (fun i => fs i (a i)) o ->
  runs n (fun i => pbind (ps i) (fs i)) o.
Proof.
  intros H. remember (fun i => Ok (a i)) as oa eqn:E.
  revert E. induction H as [ps oa H|ps oa cs ks rs H1 H2 H3 IH]; intros -> Hf.
  - eapply runs_ext; [| |exact Hf]; auto. intros i Hi. rewrite H by assumption. reflexivity.
  - apply RunColl with cs (fun i r => pbind (ks i r) (fs i)) rs.
    + intros i Hi. rewrite H1 by assumption. reflexivity.
    + assumption.
    + apply (IH eq_refl Hf).
Qed.

(** Same, when all ranks raise in the first part. *)
Lemma runs_bind_raise {A B} n (ps : nat -> proc A) (fs : nat -> A -> proc B) e :
  runs n ps (fun i => Raise (e i)) ->
  runs n (fun i => pbind (ps i) (fs i)) (fun i => Raise (e i)).
Proof.
  intros H. remember (fun i => Raise (e i)) as oa eqn:E.
  revert E. induction H as [ps oa H|ps oa cs ks rs H1 H2 H3 IH]; intros ->.
  - apply RunDone. intros i Hi. rewrite H by assumption. reflexivity.
  - apply RunColl with cs (fun i r => pbind (ks i r) (fs i)) rs.
    + intros i Hi. rewrite H1 by assumption. reflexivity.
    + assumption.
    + apply (IH eq_refl).
Qed.

(** Monotonicity of [respond]: more posted calls do not change an answer. *)
Definition sub (l l' : nat -> option call) : Prop := forall j c, l j = Some c -> l' j = Some c.

Lemma all_some_mono {A} (l l' : list (option A)) x :
  Forall2 (fun a b => forall y, a = Some y -> b = Some y) l l' ->
  all_some l = Some x -> all_some l' = Some x.
Proof.
  intro H. revert x. induction H as [|a b l l' Hab H IH]; simpl; intros x Hx; auto.
  destruct a as [a|]; [|discriminate]. rewrite (Hab a eq_refl).
  destruct (all_some l) as [r|] eqn:E; [|discriminate].
  rewrite (IH r eq_refl). exact Hx.
Qed.

Lemma collect_mono {A} n l l' (f : call -> option A) x :
  sub l l' -> collect n l f = Some x -> collect n l' f = Some x.
Proof.
  intros Hs. apply all_some_mono. induction (seq 0 n) as [|j js IH]; simpl; constructor; auto.
  intros y Hy. destruct (l j) as [c|] eqn:E; simpl in Hy; [|discriminate].
  rewrite (Hs _ _ E). exact Hy.
Qed.

Lemma respond_mono n i l l' r : sub l l' -> respond n i l = Some r -> respond n i l' = Some r.
Proof.
  intros Hs. unfold respond. destruct (l i) as [c|] eqn:E; [|discriminate].
  rewrite (Hs _ _ E). destruct c as [root o|root a|root o|root m|root s recv].
  - destruct (i =? root); auto. destruct (l root) as [c'|] eqn:E'; [|discriminate].
    rewrite (Hs _ _ E'). auto.
  - destruct (i =? root); auto. destruct (l root) as [c'|] eqn:E'; [|discriminate].
    rewrite (Hs _ _ E'). auto.
  - destruct (i =? root); auto. destruct (collect n l (the_gather root)) as [x|] eqn:E'; [|discriminate].
    rewrite (collect_mono _ _ _ _ _ Hs E'). auto.
  - destruct (i =? root); auto. destruct (collect n l (the_reduce root)) as [x|] eqn:E'; [|discriminate].
    rewrite (collect_mono _ _ _ _ _ Hs E'). auto.
  - destruct (i =? root); auto. destruct (collect n l (the_gatherv root)) as [x|] eqn:E'; [|discriminate].
    rewrite (collect_mono _ _ _ _ _ Hs E'). auto.
Qed.

(** Only posted calls matter. *)
Lemma respond_ext n i l l' : (forall j, l j = l' j) -> respond n i l = respond n i l'.
Proof.
  intro E. destruct (respond n i l) as [r|] eqn:R.
  - symmetry. eapply respond_mono; [|exact R]. intros j c. now rewrite E.
  - destruct (respond n i l') as [r|] eqn:R'; auto.
    rewrite <- R. symmetry. rewrite <- R'. 
    assert (respond n i l = Some r).
    { eapply respond_mono; [|exact R']. intros j c. now rewrite E. }
    congruence.
Qed.

(** Unrolling of a lock-step run: [P m i] is rank [i]'s program after [m]
    rounds, [C m i] its call in round [m]. *)
Lemma runs_trace {A} n (ps : nat -> proc A) o : runs n ps o ->
  exists L (P : nat -> nat -> proc A) (C : nat -> nat -> call),
    (forall i, i < n -> P 0 i = ps i) /\
    (forall m i, m < L -> i < n -> exists k r,
       P m i = Coll (C m i) k /\
       respond n i (fun j => if j <? n then Some (C m j) else None) = Some r /\
       P (S m) i = k r) /\
    (forall i, i < n -> P L i = Done (o i)).
Proof.
  induction 1 as [ps o H|ps o cs ks rs H1 H2 H3 (L & P & C & Q0 & Q1 & Q2)].
  - exists 0, (fun _ => ps), (fun _ _ => CBcastObj 0 ONone). repeat split; auto.
    intros; lia.
  - exists (S L), (fun m => match m with 0 => ps | S m' => P m' end),
      (fun m => match m with 0 => cs | S m' => C m' end).
    split; [auto|]. split; [|auto].
    intros [|m] i Hm Hi.
    + exists (ks i), (rs i). repeat split; auto.
    + apply Q1; [lia|assumption].
Qed.

Section Async.
  Context {A : Type} (n : nat) (ps : nat -> proc A) (o : nat -> result A).
  Variables (L : nat) (P : nat -> nat -> proc A) (C : nat -> nat -> call).
  Hypothesis Q0 : forall i, i < n -> P 0 i = ps i.
  Hypothesis Q1 : forall m i, m < L -> i < n -> exists k r,
       P m i = Coll (C m i) k /\
       respond n i (fun j => if j <? n then Some (C m j) else None) = Some r /\
       P (S m) i = k r.
  Hypothesis Q2 : forall i, i < n -> P L i = Done (o i).
  Variable wait : nat -> nat -> bool.

  Definition inv (cf : config A) : Prop := forall i, i < n ->
    left_ cf i <= L /\ prog cf i = P (left_ cf i) i /\
    (length (posted cf i) = left_ cf i \/ length (posted cf i) = S (left_ cf i)) /\
    length (posted cf i) <= L /\
    posted cf i = map (fun m => C m i) (seq 0 (length (posted cf i))).

  Lemma inv_nth cf i m : inv cf -> i < n -> m < length (posted cf i) ->
    nth_error (posted cf i) m = Some (C m i).
  Proof.
    intros H Hi Hm. destruct (H i Hi) as (_ & _ & _ & _ & E). rewrite E.
    rewrite E, map_length, seq_length in Hm.
    rewrite nth_error_map, nth_error_nth' with (d := 0) by (rewrite seq_length; exact Hm).
    rewrite seq_nth by exact Hm. reflexivity.
  Qed.

  Lemma inv_nth_sub cf m : inv cf ->
    sub (fun j => if j <? n then nth_error (posted cf j) m else None)
        (fun j => if j <? n then Some (C m j) else None).
  Proof.
    intros H j c. destruct (Nat.ltb_spec j n); [|discriminate]. intro E.
    assert (Hm : m < length (posted cf j)) by (apply nth_error_Some; congruence).
    rewrite (inv_nth cf j m H H0 Hm) in E. exact E.
  Qed.

  Lemma inv_start : inv (start ps).
  Proof.
    intros i Hi. simpl. repeat split; auto; try lia. now rewrite Q0.
  Qed.

  Lemma inv_step cf cf' : inv cf -> step n wait cf cf' -> inv cf'.
  Proof.
    intros H S. destruct S as [cf i c k Hi Hp Hl|cf i c k r Hi Hp Hl Hr Hw]; intros j Hj.
    - simpl. destruct (H j Hj) as (J1 & J2 & J3 & J4 & J5). unfold upd.
      destruct (Nat.eqb_spec j i) as [->|Hji]; [|auto].
      assert (Hlt : left_ cf i < L).
      { destruct (Nat.eq_dec (left_ cf i) L) as [E|]; [|lia].
        rewrite J2, E, Q2 in Hp by assumption. discriminate. }
      rewrite app_length. simpl.
      split; [assumption|]. split; [assumption|]. split; [lia|]. split; [lia|].
      rewrite Nat.add_1_r, seq_S, map_app, <- J5. simpl.
      destruct (Q1 _ _ Hlt Hi) as (k' & r' & E1 & _ & _).
      rewrite J2, E1 in Hp. inversion Hp. now rewrite Hl.
    - simpl. destruct (H j Hj) as (J1 & J2 & J3 & J4 & J5). unfold upd.
      destruct (Nat.eqb_spec j i) as [->|Hji]; [|auto].
      assert (Hlt : left_ cf i < L) by lia.
      destruct (Q1 _ _ Hlt Hi) as (k' & r' & E1 & E2 & E3).
      rewrite J2, E1 in Hp. inversion Hp; subst c k'.
      pose proof (respond_mono _ _ _ _ _ (inv_nth_sub cf (left_ cf i) H) Hr) as E.
      assert (r' = r) by congruence. subst r'.
      split; [lia|]. split; [auto|]. split; [lia|]. split; [lia|]. assumption.
  Qed.

  Lemma inv_steps m cf : steps n wait m (start ps) cf -> inv cf.
  Proof.
    intro H. remember (start ps) as c0 eqn:E. revert E. induction H; intros ->.
    - apply inv_start.
    - eapply inv_step; eauto.
  Qed.

  (** Some rank with the smallest number of collectives left behind. *)
  Lemma argmin (f : nat -> nat) : 0 < n -> exists i, i < n /\ forall j, j < n -> f i <= f j.
  Proof.
    clear. induction n as [|k IH]; [lia|]. intros _.
    destruct k as [|k].
    - exists 0. split; [lia|]. intros j Hj. assert (j = 0) by lia. now subst.
    - destruct IH as (i & Hi & H); [lia|].
      destruct (le_lt_dec (f i) (f (S k))).
      + exists i. split; [lia|]. intros j Hj. destruct (Nat.eq_dec j (S k)); [now subst|].
        apply H. lia.
      + exists (S k). split; [lia|]. intros j Hj. destruct (Nat.eq_dec j (S k)); [subst; lia|].
        specialize (H j). lia.
  Qed.

  Lemma all_posted_dec (f : nat -> nat) (m : nat) :
    (forall j, j < n -> m < f j) \/ exists j, j < n /\ f j <= m.
  Proof.
    clear. induction n as [|k IH]; [left; lia|].
    destruct IH as [H|(j & Hj & H)]; [|right; exists j; split; [lia|auto]].
    destruct (le_lt_dec (f k) m); [right; exists k; lia|].
    left. intros j Hj. destruct (Nat.eq_dec j k); [now subst|]. apply H. lia.
  Qed.

  Lemma progress cf : inv cf ->
    (exists cf', step n wait cf cf') \/ (forall i, i < n -> prog cf i = Done (o i)).
  Proof.
    intro H. destruct n as [|n'] eqn:En; [right; lia|]. rewrite <- En in *. clear En n'.
    destruct (Nat.eq_dec n 0) as [E0|E0]; [right; lia|].
    destruct (argmin (left_ cf)) as (i & Hi & Hmin); [lia|].
    destruct (Nat.eq_dec (left_ cf i) L) as [E|E].
    - right. intros j Hj. destruct (H j Hj) as (J1 & J2 & _).
      specialize (Hmin j Hj). assert (left_ cf j = L) by lia.
      rewrite J2, H0. now apply Q2.
    - left. destruct (H i Hi) as (I1 & I2 & I3 & I4 & I5).
      assert (Hlt : left_ cf i < L) by lia.
      destruct (all_posted_dec (fun j => length (posted cf j)) (left_ cf i))
        as [Hall|(j & Hj & Hle)].
      + destruct (Q1 _ _ Hlt Hi) as (k & r & E1 & E2 & E3).
        eexists. apply StepLeave with (i := i) (c := C (left_ cf i) i) (k := k) (r := r); auto.
        * now rewrite I2.
        * specialize (Hall i Hi). simpl in Hall. lia.
        * rewrite <- E2. apply respond_ext. intro j'.
          destruct (Nat.ltb_spec j' n); auto. apply inv_nth; auto.
      + destruct (H j Hj) as (J1 & J2 & J3 & J4 & J5).
        specialize (Hmin j Hj).
        assert (Ej : left_ cf j = left_ cf i) by lia.
        assert (Hltj : left_ cf j < L) by lia.
        destruct (Q1 _ _ Hltj Hj) as (k & r & E1 & E2 & E3).
        eexists. apply StepPost with (i := j) (c := C (left_ cf j) j) (k := k); auto.
        * now rewrite J2.
        * lia.
  Qed.

  Fixpoint total (f : nat -> nat) (m : nat) : nat :=
    match m with 0 => 0 | S m' => f m' + total f m' end.

  Lemma total_upd f i x m : i < m -> total (upd f i x) m + f i = total f m + x.
  Proof.
    clear. induction m as [|m IH]; [lia|]. intro Hi. simpl. unfold upd at 1.
    destruct (Nat.eqb_spec m i) as [->|Hmi].
    - assert (E : total (upd f i x) i = total f i).
      { clear. assert (forall k, k <= i -> total (upd f i x) k = total f k) as H; [|apply H; lia].
        induction k as [|k IH]; simpl; auto. intro Hk. rewrite IH by lia.
        unfold upd at 1. destruct (Nat.eqb_spec k i); [lia|auto]. }
      rewrite E. lia.
    - specialize (IH ltac:(lia)). lia.
  Qed.

  Lemma total_ext f g m : (forall i, i < m -> f i = g i) -> total f m = total g m.
  Proof. clear. intro H. induction m; simpl; auto. rewrite H, IHm by auto. reflexivity. Qed.

  Lemma total_le f b m : (forall i, i < m -> f i <= b) -> total f m <= m * b.
  Proof.
    clear. intro H. induction m as [|m IH]; simpl; auto.
    pose proof (H m ltac:(lia)). specialize (IH ltac:(auto)). lia.
  Qed.

  Definition work (cf : config A) : nat :=
    total (fun i => left_ cf i + length (posted cf i)) n.

  Lemma work_step cf cf' : step n wait cf cf' -> work cf' = S (work cf).
  Proof.
    clear. intro S. destruct S as [cf i c k Hi Hp Hl|cf i c k r Hi Hp Hl Hr Hw];
      unfold work; simpl.
    - set (g := fun i => left_ cf i + length (posted cf i)).
      rewrite (total_ext _ (upd g i (Datatypes.S (g i)))).
      + pose proof (total_upd g i (Datatypes.S (g i)) n Hi). lia.
      + intros j Hj. unfold upd, g. destruct (Nat.eqb_spec j i); subst; auto.
        rewrite app_length. simpl. lia.
    - set (g := fun i => left_ cf i + length (posted cf i)).
      rewrite (total_ext _ (upd g i (Datatypes.S (g i)))).
      + pose proof (total_upd g i (Datatypes.S (g i)) n Hi). lia.
      + intros j Hj. unfold upd, g. destruct (Nat.eqb_spec j i); subst; auto.
  Qed.

  Lemma work_steps m cf : steps n wait m (start ps) cf -> work cf = m.
  Proof.
    clear. intro H. remember (start ps) as c0 eqn:E. revert E. induction H; intros ->.
    - unfold work. simpl. induction n; simpl; auto.
    - apply work_step in H0. rewrite H0, IHsteps; auto.
  Qed.

  Lemma work_bound cf : inv cf -> work cf <= n * (2 * L).
  Proof.
    intro H. apply total_le. intros i Hi. destruct (H i Hi) as (J1 & J2 & J3 & J4 & J5). lia.
  Qed.
End Async.

Theorem runs_async {A} n (ps : nat -> proc A) o : runs n ps o -> every_execution_ends n ps o.
Proof.
  intro R. destruct (runs_trace n ps o R) as (L & P & C & Q0 & Q1 & Q2). split; [|split].
  - exists (n * (2 * L)). intros wait m cf H.
    rewrite <- (work_steps n ps wait m cf H).
    eapply work_bound. eapply inv_steps; eauto.
  - intros wait m cf H. eapply progress; eauto. eapply inv_steps; eauto.
  - intros wait m cf H i r Hi Hd.
    pose proof (inv_steps n ps o L P C Q0 Q1 Q2 wait m cf H) as I.
    destruct (I i Hi) as (J1 & J2 & _). rewrite J2 in Hd.
    destruct (Nat.eq_dec (left_ cf i) L) as [E|E].
    + rewrite E, Q2 in Hd by assumption. congruence.
    + destruct (Q1 (left_ cf i) i) as (k & r' & E1 & _); [lia|assumption|]. congruence.
Qed.

(** The outcome is therefore unique, and reached. *)
Lemma steps_progress {A} n (ps : nat -> proc A) o : every_execution_ends n ps o ->
  forall wait m cf, steps n wait m (start ps) cf ->
  exists m' cf', steps n wait m' (start ps) cf' /\ (forall i, i < n -> prog cf' i = Done (o i)).
Proof.
  intros [(b & Hb) [Hp _]] wait m cf H.
  remember (b - m) as d eqn:Ed. revert m cf H Ed. induction d as [|d IH]; intros m cf H Ed.
  - destruct (Hp wait m cf H) as [(cf' & S)|F]; [|eauto].
    exfalso. pose proof (Hb wait (Datatypes.S m) cf' (StepsS _ _ _ _ _ _ H S)).
    pose proof (Hb wait m cf H). lia.
  - destruct (Hp wait m cf H) as [(cf' & S)|F]; [|eauto].
    apply (IH (Datatypes.S m) cf'); [econstructor; eauto|lia].
Qed.

(** * Runs in which some ranks hang *)

(** The calls posted in a round by the ranks that are still alive. *)
Definition looks {A} (n : nat) (alive : nat -> bool) (ps : nat -> proc A) : nat -> option call :=
  fun j => if (j <? n) && alive j
           then match ps j with Coll c _ => Some c | Done _ => None end
           else None.

Definition alive_after {A} n (alive : nat -> bool) (ps : nat -> proc A) : nat -> bool :=
  fun i => alive i &&
    match ps i with
    | Done _ => true
    | Coll _ _ => match respond n i (looks n alive ps) with Some _ => true | None => false end
    end.

Definition progs_after {A} n (alive : nat -> bool) (ps : nat -> proc A) : nat -> proc A :=
  fun i => match ps i with
           | Done r => Done r
           | Coll c k => match respond n i (looks n alive ps) with
                         | Some r => k r
                         | None => Coll c k
                         end
           end.

Inductive hruns {A} (n : nat) :
  (nat -> bool) -> (nat -> proc A) -> (nat -> option (result A)) -> Prop :=
| HEnd alive ps out :
    (forall i, i < n -> alive i = true -> exists r, ps i = Done r /\ out i = Some r) ->
    (forall i, i < n -> alive i = false -> out i = None) ->
    hruns n alive ps out
| HRound alive ps out :
    hruns n (alive_after n alive ps) (progs_after n alive ps) out ->
    hruns n alive ps out.

(** Trace form: rank [i] completes [K i] rounds and is then done or stuck. *)
Definition tlook {A} n (K : nat -> nat) (P : nat -> nat -> proc A) (m : nat) : nat -> option call :=
  fun j => if (j <? n) && (m <=? K j)
           then match P m j with Coll c _ => Some c | Done _ => None end
           else None.

Definition is_trace {A} n (ps : nat -> proc A) (out : nat -> option (result A))
    (K : nat -> nat) (P : nat -> nat -> proc A) : Prop :=
  (forall i, i < n -> P 0 i = ps i) /\
  (forall i m, i < n -> m < K i -> exists c k r,
     P m i = Coll c k /\ respond n i (tlook n K P m) = Some r /\ P (S m) i = k r) /\
  (forall i, i < n ->
     (exists r, P (K i) i = Done r /\ out i = Some r) \/
     (exists c k, P (K i) i = Coll c k /\ respond n i (tlook n K P (K i)) = None /\ out i = None)).

(** The same with ranks that are dead from the beginning. *)
Definition is_trace' {A} n (alive : nat -> bool) (ps : nat -> proc A)
    (out : nat -> option (result A)) (K : nat -> nat) (P : nat -> nat -> proc A) : Prop :=
  (forall i, i < n -> P 0 i = ps i) /\
  (forall i, i < n -> alive i = false -> K i = 0) /\
  (forall i m, i < n -> m < K i -> exists c k r,
     P m i = Coll c k /\
     respond n i (fun j => if alive j then tlook n K P m j else None) = Some r /\
     P (S m) i = k r) /\
  (forall i, i < n -> alive i = true ->
     (exists r, P (K i) i = Done r /\ out i = Some r) \/
     (exists c k, P (K i) i = Coll c k /\
        respond n i (fun j => if alive j then tlook n K P (K i) j else None) = None /\
        out i = None)) /\
  (forall i, i < n -> alive i = false -> out i = None).

Lemma hruns_trace' {A} n alive (ps : nat -> proc A) out :
  hruns n alive ps out -> exists K P, is_trace' n alive ps out K P.
Proof.
  induction 1 as [alive ps out H1 H2|alive ps out H (K & P & T0 & T1 & T2 & T3 & T4)].
  - exists (fun _ => 0), (fun _ => ps). split; [auto|]. split; [auto|]. split; [intros; lia|].
    split; [|auto]. intros i Hi Ha. left. auto.
  - set (moved := fun i => match ps i with
                 | Done _ => false
                 | Coll _ _ => alive i && match respond n i (looks n alive ps) with
                                          | Some _ => true | None => false end
                 end).
    exists (fun i => if moved i then S (K i) else 0),
           (fun m => match m with 0 => ps | S m' => P m' end).
    assert (L0 : forall j, (if alive j then
                   tlook n (fun i => if moved i then S (K i) else 0)
                     (fun m => match m with 0 => ps | S m' => P m' end) 0 j else None)
                   = looks n alive ps j).
    { intro j. unfold tlook, looks. simpl. destruct (alive j); simpl.
      - now rewrite !andb_true_r.
      - now rewrite andb_false_r. }
    assert (LS : forall m j, (if alive j then
                   tlook n (fun i => if moved i then S (K i) else 0)
                     (fun m => match m with 0 => ps | S m' => P m' end) (S m) j else None)
                   = (if alive_after n alive ps j then tlook n K P m j else None)).
    { intros m j. unfold tlook, alive_after.
      destruct (Nat.ltb_spec j n) as [Hj|Hj]; simpl; [|now destruct (alive j), (ps j), (respond n j (looks n alive ps))].
      destruct (alive j) eqn:Ea; simpl; auto.
      unfold moved. rewrite Ea. simpl.
      destruct (ps j) as [r|c k] eqn:Ep.
      - (* finished: P m j is Done as long as m <= K j, and K j = 0 *)
        specialize (T0 j Hj). unfold progs_after in T0. rewrite Ep in T0.
        assert (K j = 0).
        { destruct (K j) as [|kj] eqn:EK; auto. exfalso.
          destruct (T2 j 0 Hj) as (c & k & r' & E & _); [lia|]. congruence. }
        rewrite H0. simpl. destruct (m <=? 0) eqn:Em; auto.
        apply Nat.leb_le in Em. assert (m = 0) by lia. subst m. now rewrite T0.
      - destruct (respond n j (looks n alive ps)) eqn:Er; auto. }
    split; [auto|]. split; [|split; [|split]].
    + intros i Hi Ha. unfold moved. rewrite Ha. destruct (ps i); reflexivity.
    + intros i m Hi Hm. unfold moved in Hm.
      destruct (ps i) as [r|c k] eqn:Ep; [lia|].
      destruct (alive i) eqn:Ea; simpl in Hm; [|lia].
      destruct (respond n i (looks n alive ps)) as [r|] eqn:Er; [|lia].
      destruct m as [|m].
      * exists c, k, r. repeat split; auto.
        -- rewrite <- Er. apply respond_ext. exact L0.
        -- rewrite T0 by assumption. unfold progs_after. now rewrite Ep, Er.
      * destruct (T2 i m Hi) as (c' & k' & r' & E1 & E2 & E3); [lia|].
        exists c', k', r'. repeat split; auto.
        rewrite <- E2. apply respond_ext. intro j. rewrite LS.
        destruct (alive_after n alive ps j); reflexivity.
    + intros i Hi Ha. unfold moved. destruct (ps i) as [r|c k] eqn:Ep.
      * left. assert (AA : alive_after n alive ps i = true).
        { unfold alive_after. now rewrite Ha, Ep. }
        destruct (T3 i Hi AA) as [(r' & E1 & E2)|(c' & k' & E1 & E2 & E3)].
        -- assert (K i = 0).
           { destruct (K i) as [|kj] eqn:EK; auto. exfalso.
             destruct (T2 i 0 Hi) as (c & k & r'' & E & _); [lia|].
             rewrite T0 in E by assumption. unfold progs_after in E. rewrite Ep in E. discriminate. }
           rewrite H0 in E1. rewrite T0 in E1 by assumption.
           unfold progs_after in E1. rewrite Ep in E1. exists r'. split; congruence.
        -- exfalso. assert (K i = 0).
           { destruct (K i) as [|kj] eqn:EK; auto. exfalso.
             destruct (T2 i 0 Hi) as (c & k & r'' & E & _); [lia|].
             rewrite T0 in E by assumption. unfold progs_after in E. rewrite Ep in E. discriminate. }
           rewrite H0, T0 in E1 by assumption. unfold progs_after in E1. rewrite Ep in E1. discriminate.
      * rewrite Ha. simpl. destruct (respond n i (looks n alive ps)) as [r|] eqn:Er.
        -- assert (AA : alive_after n alive ps i = true).
           { unfold alive_after. now rewrite Ha, Ep, Er. }
           destruct (T3 i Hi AA) as [(r' & E1 & E2)|(c' & k' & E1 & E2 & E3)].
           ++ left. eauto.
           ++ right. exists c', k'. repeat split; auto. rewrite <- E2.
              apply respond_ext. intro j. rewrite LS.
              destruct (alive_after n alive ps j); reflexivity.
        -- right. exists c, k. split; auto. split.
           ++ rewrite <- Er. apply respond_ext. exact L0.
           ++ apply T4; auto. unfold alive_after. now rewrite Ha, Ep, Er.
    + intros i Hi Ha. apply T4; auto. unfold alive_after. now rewrite Ha.
Qed.

Lemma hruns_trace {A} n (ps : nat -> proc A) out :
  hruns n (fun _ => true) ps out -> exists K P, is_trace n ps out K P.
Proof.
  intro H. destruct (hruns_trace' _ _ _ _ H) as (K & P & T0 & T1 & T2 & T3 & T4).
  exists K, P. repeat split; auto.
Qed.

Section AsyncHang.
  Context {A : Type} (n : nat) (ps : nat -> proc A) (out : nat -> option (result A)).
  Variables (K : nat -> nat) (P : nat -> nat -> proc A).
  Hypothesis T : is_trace n ps out K P.
  Variable wait : nat -> nat -> bool.

  Let T0 := proj1 T.
  Let T1 := proj1 (proj2 T).
  Let T2 := proj2 (proj2 T).

  Definition tcall (m i : nat) : call :=
    match P m i with Coll c _ => c | Done _ => CBcastObj 0 ONone end.

  Definition hinv (cf : config A) : Prop := forall i, i < n ->
    left_ cf i <= K i /\ prog cf i = P (left_ cf i) i /\
    (length (posted cf i) = left_ cf i \/
     length (posted cf i) = S (left_ cf i) /\ exists c k, P (left_ cf i) i = Coll c k) /\
    posted cf i = map (fun m => tcall m i) (seq 0 (length (posted cf i))).

  Lemma hinv_coll cf i m : hinv cf -> i < n -> m < length (posted cf i) ->
    m <= K i /\ exists c k, P m i = Coll c k.
  Proof.
    intros H Hi Hm. destruct (H i Hi) as (J1 & J2 & J3 & J4).
    destruct (Nat.eq_dec m (left_ cf i)) as [->|Hne].
    - split; auto. destruct J3 as [J3|[_ J3]]; [lia|]. exact J3.
    - assert (Hlt : m < K i) by lia. split; [lia|].
      destruct (T1 i m Hi Hlt) as (c & k & r & E & _). eauto.
  Qed.

  Lemma hinv_nth cf i m : hinv cf -> i < n -> m < length (posted cf i) ->
    nth_error (posted cf i) m = Some (tcall m i).
  Proof.
    intros H Hi Hm. destruct (H i Hi) as (_ & _ & _ & E). rewrite E.
    rewrite E, map_length, seq_length in Hm.
    rewrite nth_error_map, nth_error_nth' with (d := 0) by (rewrite seq_length; exact Hm).
    rewrite seq_nth by exact Hm. reflexivity.
  Qed.

  Lemma hinv_sub cf m : hinv cf ->
    sub (fun j => if j <? n then nth_error (posted cf j) m else None) (tlook n K P m).
  Proof.
    intros H j c. unfold tlook. destruct (Nat.ltb_spec j n); [|discriminate]. intro E.
    assert (Hm : m < length (posted cf j)) by (apply nth_error_Some; congruence).
    destruct (hinv_coll cf j m H H0 Hm) as (Hk & c' & k & Ec).
    rewrite (hinv_nth cf j m H H0 Hm) in E. simpl.
    replace (m <=? K j) with true by (symmetry; now apply Nat.leb_le).
    unfold tcall in E. rewrite Ec in *. exact E.
  Qed.

  Lemma hinv_start : hinv (start ps).
  Proof.
    intros i Hi. simpl. repeat split; auto; try lia. now rewrite T0.
  Qed.

  Lemma hinv_step cf cf' : hinv cf -> step n wait cf cf' -> hinv cf'.
  Proof.
    intros H S. destruct S as [cf i c k Hi Hp Hl|cf i c k r Hi Hp Hl Hr Hw]; intros j Hj.
    - simpl. destruct (H j Hj) as (J1 & J2 & J3 & J4). unfold upd.
      destruct (Nat.eqb_spec j i) as [->|Hji]; [|auto].
      rewrite app_length. simpl.
      split; [assumption|]. split; [assumption|]. rewrite J2 in Hp.
      split; [right; split; [lia|eauto]|].
      rewrite Nat.add_1_r, seq_S, map_app, <- J4. simpl.
      unfold tcall. rewrite Hl, Hp. reflexivity.
    - simpl. destruct (H j Hj) as (J1 & J2 & J3 & J4). unfold upd.
      destruct (Nat.eqb_spec j i) as [->|Hji]; [|auto].
      pose proof (respond_mono _ _ _ _ _ (hinv_sub cf (left_ cf i) H) Hr) as E.
      assert (Hlt : left_ cf i < K i).
      { destruct (Nat.eq_dec (left_ cf i) (K i)) as [Ek|]; [|lia]. exfalso.
        destruct (T2 i Hi) as [(r' & E1 & _)|(c' & k' & E1 & E2 & _)].
        - rewrite J2, Ek, E1 in Hp. discriminate.
        - rewrite Ek in E. congruence. }
      destruct (T1 i _ Hi Hlt) as (c' & k' & r' & E1 & E2 & E3).
      rewrite J2, E1 in Hp. inversion Hp; subst c' k'.
      assert (r' = r) by congruence. subst r'.
      split; [lia|]. split; [auto|]. split; [left; lia|]. assumption.
  Qed.

  Lemma hinv_steps m cf : steps n wait m (start ps) cf -> hinv cf.
  Proof.
    intro H. remember (start ps) as c0 eqn:E. revert E. induction H; intros ->.
    - apply hinv_start.
    - eapply hinv_step; eauto.
  Qed.

  Lemma hinv_outcome cf i r : hinv cf -> i < n -> prog cf i = Done r -> out i = Some r.
  Proof.
    intros H Hi Hd. destruct (H i Hi) as (J1 & J2 & _). rewrite J2 in Hd.
    destruct (Nat.eq_dec (left_ cf i) (K i)) as [Ek|Ek].
    - rewrite Ek in Hd. destruct (T2 i Hi) as [(r' & E1 & E2)|(c' & k' & E1 & _)]; congruence.
    - destruct (T1 i (left_ cf i) Hi) as (c & k & r' & E1 & _); [lia|]. congruence.
  Qed.

  Lemma hwork_bound cf : hinv cf -> work n cf <= n * (2 * total K n + 1).
  Proof.
    intro H. apply total_le. intros i Hi. destruct (H i Hi) as (J1 & J2 & J3 & J4).
    assert (K i <= total K n).
    { clear - Hi. induction n as [|m IH]; [lia|]. simpl.
      destruct (Nat.eq_dec i m); [subst; lia|]. specialize (IH ltac:(lia)). lia. }
    lia.
  Qed.
End AsyncHang.

(** Decidable search below a bound. *)
Lemma bounded_dec (n : nat) (Q : nat -> Prop) : (forall i, {Q i} + {~ Q i}) ->
  (exists i, i < n /\ Q i) \/ (forall i, i < n -> ~ Q i).
Proof.
  intro D. induction n as [|n IH]; [right; lia|].
  destruct IH as [(i & Hi & Hq)|H]; [left; exists i; split; [lia|auto]|].
  destruct (D n) as [Hq|Hq]; [left; exists n; split; [lia|auto]|].
  right. intros i Hi. destruct (Nat.eq_dec i n); [now subst|]. apply H. lia.
Qed.

Lemma bounded_min (n : nat) (Q : nat -> Prop) (f : nat -> nat) :
  (forall i, {Q i} + {~ Q i}) -> (exists i, i < n /\ Q i) ->
  exists i, i < n /\ Q i /\ forall j, j < n -> Q j -> f i <= f j.
Proof.
  intro D. induction n as [|n IH]; intros (i & Hi & Hq); [lia|].
  destruct (bounded_dec n Q D) as [Hex|Hno].
  - destruct (IH Hex) as (a & Ha & Hqa & Hmin).
    destruct (D n) as [Hqn|Hqn].
    + destruct (le_lt_dec (f a) (f n)).
      * exists a. split; [lia|]. split; auto. intros j Hj Hqj.
        destruct (Nat.eq_dec j n); [now subst|]. apply Hmin; [lia|auto].
      * exists n. split; [lia|]. split; auto. intros j Hj Hqj.
        destruct (Nat.eq_dec j n); [subst; lia|]. specialize (Hmin j ltac:(lia) Hqj). lia.
    + exists a. split; [lia|]. split; auto. intros j Hj Hqj.
      destruct (Nat.eq_dec j n); [subst; contradiction|]. apply Hmin; [lia|auto].
  - assert (i = n) by (destruct (Nat.eq_dec i n); auto; exfalso; apply (Hno i); [lia|auto]).
    subst i. exists n. split; [lia|]. split; auto. intros j Hj Hqj.
    destruct (Nat.eq_dec j n); [now subst|]. exfalso. apply (Hno j); [lia|auto].
Qed.

Definition can_post {A} (cf : config A) (i : nat) : Prop :=
  (exists c k, prog cf i = Coll c k) /\ length (posted cf i) = left_ cf i.

Lemma can_post_dec {A} (cf : config A) i : {can_post cf i} + {~ can_post cf i}.
Proof.
  unfold can_post. destruct (prog cf i) as [r|c k] eqn:E.
  - right. intros [(c & k & H) _]. discriminate.
  - destruct (Nat.eq_dec (length (posted cf i)) (left_ cf i)); [left; eauto|right].
    intros [_ H]. contradiction.
Qed.

Lemma hprogress {A} n (ps : nat -> proc A) out K P cf :
  is_trace n ps out K P -> hinv n K P cf ->
  (exists cf', step n (fun _ _ => false) cf cf') \/
  (forall i r, i < n -> out i = Some r -> prog cf i = Done r).
Proof.
  intros T H. pose proof T as (T0 & T1 & T2).
  destruct (bounded_dec n (can_post cf) (can_post_dec cf)) as [(i & Hi & (c & k & Hp) & Hl)|Hno].
  { left. eexists. eapply StepPost; eauto. }
  destruct (bounded_dec n (fun i => left_ cf i < K i) (fun i => lt_dec (left_ cf i) (K i)))
    as [Hex|Hend].
  - left. destruct (bounded_min n _ (left_ cf) (fun i => lt_dec (left_ cf i) (K i)) Hex)
      as (i & Hi & Hlt & Hmin).
    destruct (H i Hi) as (J1 & J2 & J3 & J4).
    destruct (T1 i _ Hi Hlt) as (c & k & r & E1 & E2 & E3).
    assert (posted_all : forall j, j < n -> left_ cf i <= K j ->
              (exists c k, P (left_ cf i) j = Coll c k) -> left_ cf i < length (posted cf j)).
    { intros j Hj Hk (c' & k' & Ec). destruct (H j Hj) as (L1 & L2 & L3 & L4).
      destruct (lt_dec (left_ cf j) (K j)) as [Hlj|Hlj].
      - specialize (Hmin j Hj Hlj).
        destruct (T1 j _ Hj Hlj) as (c2 & k2 & r2 & F1 & _).
        assert (~ can_post cf j) by auto. unfold can_post in H0.
        rewrite L2, F1 in H0. destruct L3 as [L3|[L3 _]]; [|lia].
        exfalso. apply H0. split; eauto.
      - assert (left_ cf j = K j) by lia.
        destruct (Nat.eq_dec (left_ cf i) (K j)) as [Ek|Ek]; [|destruct L3; lia].
        assert (~ can_post cf j) by auto. unfold can_post in H1.
        rewrite L2, H0, <- Ek, Ec in H1. destruct L3 as [L3|[L3 _]]; [|lia].
        exfalso. apply H1. split; eauto. lia. }
    eexists. apply StepLeave with (i := i) (c := c) (k := k) (r := r); auto.
    + now rewrite J2.
    + assert (left_ cf i < length (posted cf i)) by (apply posted_all; eauto).
      destruct J3 as [J3|[J3 _]]; lia.
    + rewrite <- E2. apply respond_ext. intro j. unfold tlook.
      destruct (Nat.ltb_spec j n) as [Hj|Hj]; auto. simpl.
      destruct (Nat.leb_spec (left_ cf i) (K j)) as [Hk|Hk].
      * destruct (P (left_ cf i) j) as [r'|c' k'] eqn:Ep.
        -- apply nth_error_None. destruct (le_lt_dec (length (posted cf j)) (left_ cf i)); auto.
           exfalso. destruct (hinv_coll n ps out K P T cf j (left_ cf i) H Hj l) as (_ & c2 & k2 & F).
           congruence.
        -- rewrite (hinv_nth n K P cf j _ H Hj).
           ++ unfold tcall. now rewrite Ep.
           ++ apply posted_all; eauto.
      * apply nth_error_None. destruct (le_lt_dec (length (posted cf j)) (left_ cf i)); auto.
        exfalso. destruct (hinv_coll n ps out K P T cf j (left_ cf i) H Hj l) as (? & _). lia.
    + discriminate.
  - right. intros i r Hi Ho. destruct (H i Hi) as (J1 & J2 & J3 & J4).
    assert (E : left_ cf i = K i) by (specialize (Hend i Hi); lia).
    rewrite J2, E. destruct (T2 i Hi) as [(r' & E1 & E2)|(c & k & E1 & E2 & E3)]; congruence.
Qed.

Theorem hruns_async {A} n (ps : nat -> proc A) out :
  hruns n (fun _ => true) ps out -> every_execution_reaches n ps out.
Proof.
  intro R. destruct (hruns_trace n ps out R) as (K & P & T). split; [|split].
  - exists (n * (2 * total K n + 1)). intros wait m cf H.
    rewrite <- (work_steps n ps wait m cf H).
    eapply hwork_bound. eapply hinv_steps; eauto.
  - intros wait m cf H i r Hi Hd. eapply hinv_outcome; eauto. eapply hinv_steps; eauto.
  - intros m cf H. eapply hprogress; eauto. eapply hinv_steps; eauto.
Qed.

Lemma reaches_never {A} n (ps : nat -> proc A) out i :
  every_execution_reaches n ps out -> i < n -> out i = None -> never_returns n ps i.
Proof.
  intros (_ & H & _) Hi Ho wait m cf S r Hd. pose proof (H wait m cf S i r Hi Hd). congruence.
Qed.

(** A lock-step run followed by a run in which some ranks hang. *)
Lemma hruns_ext {A} n alive alive' (ps ps' : nat -> proc A) out out' :
  (forall i, i < n -> alive i = alive' i) -> (forall i, i < n -> ps i = ps' i) ->
  (forall i, i < n -> out i = out' i) -> hruns n alive ps out -> hruns n alive' ps' out'.
Proof.
  intros Ea Ep Eo H. revert alive' ps' out' Ea Ep Eo.
  induction H as [alive ps out H1 H2|alive ps out H IH]; intros.
  - apply HEnd; intros i Hi Ha.
    + rewrite <- Ea in Ha by assumption. destruct (H1 i Hi Ha) as (r & E1 & E2).
      exists r. rewrite <- Ep, <- Eo by assumption. auto.
    + rewrite <- Ea in Ha by assumption. rewrite <- Eo by assumption. auto.
  - apply HRound.
    assert (El : forall j, looks n alive ps j = looks n alive' ps' j).
    { intro j. unfold looks. destruct (Nat.ltb_spec j n); auto. simpl.
      now rewrite Ea, Ep by assumption. }
    apply IH; auto; intros i Hi.
    + unfold alive_after. rewrite Ea, Ep by assumption.
      rewrite (respond_ext n i _ _ El). reflexivity.
    + unfold progs_after. rewrite Ep by assumption.
      rewrite (respond_ext n i _ _ El). reflexivity.
Qed.

Lemma runs_hruns_bind {A B} n (ps : nat -> proc A) (fs : nat -> A -> proc B) a out :
  runs n ps (fun i => Ok (a i)) ->
  hruns n (fun _ => true) (fun i => fs i (a i)) out ->
  hruns n (fun _ => true) (fun i => pbind (ps i) (fs i)) out.
Proof.
  intros H. remember (fun i => Ok (a i)) as oa eqn:E.
  revert E. induction H as [ps oa H|ps oa cs ks rs H1 H2 H3 IH]; intros -> Hf.
  - eapply hruns_ext; [| | |exact Hf]; auto. intros i Hi. rewrite H by assumption. reflexivity.
  - apply HRound.
    assert (El : forall j, looks n (fun _ => true) (fun i => pbind (ps i) (fs i)) j
                  = (if j <? n then Some (cs j) else None)).
    { intro j. unfold looks. destruct (Nat.ltb_spec j n); auto. simpl. now rewrite H1. }
    eapply hruns_ext; [| | |exact (IH eq_refl Hf)]; auto.
    + intros i Hi. unfold alive_after. rewrite H1 by assumption. simpl.
      rewrite (respond_ext n i _ _ El), H2 by assumption. reflexivity.
    + intros i Hi. unfold progs_after. rewrite H1 by assumption. simpl.
      rewrite (respond_ext n i _ _ El), H2 by assumption. reflexivity.
Qed.

(** Sequencing after a local computation that may fail on some ranks. *)
Lemma hruns_runs {A} n (ps : nat -> proc A) o :
  runs n ps o -> hruns n (fun _ => true) ps (fun i => Some (o i)).
Proof.
  induction 1 as [ps o H|ps o cs ks rs H1 H2 H3 IH].
  - apply HEnd; [|discriminate]. intros i Hi _. exists (o i). auto.
  - apply HRound.
    assert (El : forall j, looks n (fun _ => true) ps j = (if j <? n then Some (cs j) else None)).
    { intro j. unfold looks. destruct (Nat.ltb_spec j n); auto. simpl. now rewrite H1. }
    eapply hruns_ext; [| | |exact IH]; auto.
    + intros i Hi. unfold alive_after. rewrite H1 by assumption. simpl.
      rewrite (respond_ext n i _ _ El), H2 by assumption. reflexivity.
    + intros i Hi. unfold progs_after. rewrite H1 by assumption.
      rewrite (respond_ext n i _ _ El), H2 by assumption. reflexivity.
Qed.

(** * From one complete execution to all of them *)

Definition actual {A} n (cf : config A) (m : nat) : nat -> option call :=
  fun j => if j <? n then nth_error (posted cf j) m else None.

Definition history {A} n (ps : nat -> proc A) (cf : config A) (P : nat -> nat -> proc A) : Prop :=
  (forall i, i < n -> P 0 i = ps i) /\
  (forall i, i < n -> P (left_ cf i) i = prog cf i) /\
  (forall i m, i < n -> m < left_ cf i -> exists c k r,
     P m i = Coll c k /\ nth_error (posted cf i) m = Some c /\
     respond n i (actual n cf m) = Some r /\ P (S m) i = k r) /\
  (forall i, i < n ->
     length (posted cf i) = left_ cf i \/
     (length (posted cf i) = S (left_ cf i) /\
      exists c k, prog cf i = Coll c k /\ nth_error (posted cf i) (left_ cf i) = Some c)).

Lemma nth_error_snoc {A} (l : list A) x m y :
  nth_error l m = Some y -> nth_error (l ++ [x]) m = Some y.
Proof.
  intro H. rewrite nth_error_app1; auto. apply nth_error_Some. congruence.
Qed.

Lemma history_steps {A} n wait (ps : nat -> proc A) m cf :
  steps n wait m (start ps) cf -> exists P, history n ps cf P.
Proof.
  intro H. remember (start ps) as c0 eqn:E. revert E. induction H as [|m cf0 cf cf' H IH S]; intros ->.
  - exists (fun _ => ps). split; [auto|]. split; [auto|]. split; [simpl; intros; lia|]. auto.
  - destruct (IH eq_refl) as (P & H0 & H1 & H2 & H3). clear IH H.
    destruct S as [cf i c k Hi Hp Hl|cf i c k r Hi Hp Hl Hr Hw].
    + exists P. simpl.
      assert (mono : forall m, sub (actual n cf m)
                (actual n (mkConfig (prog cf) (left_ cf) (upd (posted cf) i (posted cf i ++ [c]))) m)).
      { intros m' j c'. unfold actual. simpl. destruct (j <? n); auto. unfold upd.
        destruct (Nat.eqb_spec j i) as [->|]; auto. apply nth_error_snoc. }
      split; [auto|]. split; [auto|]. split.
      * intros j m' Hj Hm. destruct (H2 j m' Hj Hm) as (c' & k' & r' & E1 & E2 & E3 & E4).
        exists c', k', r'. split; auto. split; [|split; auto].
        -- simpl. unfold upd. destruct (Nat.eqb_spec j i) as [->|]; auto. now apply nth_error_snoc.
        -- eapply respond_mono; [apply mono|exact E3].
      * intros j Hj. simpl. unfold upd. destruct (Nat.eqb_spec j i) as [->|]; [|auto].
        right. rewrite app_length. simpl. split; [lia|]. exists c, k. split; auto.
        rewrite nth_error_app2 by lia. rewrite Hl, Nat.sub_diag. reflexivity.
    + exists (fun m' j => if (j =? i) && (m' =? S (left_ cf i)) then k r else P m' j).
      simpl.
      assert (ext : forall m', actual n cf m' =
                 actual n (mkConfig (upd (prog cf) i (k r)) (upd (left_ cf) i (S (left_ cf i))) (posted cf)) m')
        by reflexivity.
      split; [|split; [|split]].
      * intros j Hj. rewrite andb_false_r. auto.
      * intros j Hj. simpl. unfold upd. destruct (Nat.eqb_spec j i) as [->|Hji]; simpl.
        -- now rewrite Nat.eqb_refl.
        -- auto.
      * intros j m' Hj Hm. simpl in *. unfold upd in Hm.
        destruct (Nat.eqb_spec j i) as [->|Hji]; simpl.
        -- replace (m' =? S (left_ cf i)) with false by (symmetry; apply Nat.eqb_neq; lia).
           destruct (Nat.eq_dec m' (left_ cf i)) as [->|Hne].
           ++ rewrite Nat.eqb_refl. destruct (H3 i Hi) as [Hx|(_ & c' & k' & E1 & E2)]; [lia|].
              rewrite Hp in E1. inversion E1; subst c' k'.
              exists c, k, r. split; [now rewrite H1|]. auto.
           ++ replace (m' =? left_ cf i) with false by (symmetry; now apply Nat.eqb_neq).
              destruct (H2 i m' Hi) as (c' & k' & r' & E1 & E2 & E3 & E4); [lia|].
              exists c', k', r'. auto.
        -- destruct (H2 j m' Hj Hm) as (c' & k' & r' & E1 & E2 & E3 & E4).
           exists c', k', r'. auto.
      * intros j Hj. simpl. unfold upd. destruct (Nat.eqb_spec j i) as [->|Hji]; simpl.
        -- left. exact Hl.
        -- auto.
Qed.

(** A complete execution determines the trace. *)
Lemma complete_trace {A} n wait (ps : nat -> proc A) o m cf :
  steps n wait m (start ps) cf -> (forall i, i < n -> prog cf i = Done (o i)) ->
  exists P, is_trace n ps (fun i => Some (o i)) (left_ cf) P.
Proof.
  intros H Hd. destruct (history_steps _ _ _ _ _ H) as (P & H0 & H1 & H2 & H3).
  exists P.
  assert (Hlen : forall i, i < n -> length (posted cf i) = left_ cf i).
  { intros i Hi. destruct (H3 i Hi) as [E|(_ & c & k & E & _)]; auto.
    rewrite Hd in E by assumption. discriminate. }
  assert (El : forall m j, tlook n (left_ cf) P m j = actual n cf m j).
  { intros m' j. unfold tlook, actual. destruct (Nat.ltb_spec j n) as [Hj|]; auto. simpl.
    destruct (Nat.leb_spec m' (left_ cf j)) as [Hle|Hgt].
    - destruct (Nat.eq_dec m' (left_ cf j)) as [->|Hne].
      + rewrite H1, Hd by assumption. symmetry. apply nth_error_None. now rewrite Hlen.
      + destruct (H2 j m' Hj) as (c & k & r & E1 & E2 & _); [lia|]. now rewrite E1, E2.
    - symmetry. apply nth_error_None. rewrite Hlen by assumption. lia. }
  split; [auto|]. split.
  - intros i m' Hi Hm. destruct (H2 i m' Hi Hm) as (c & k & r & E1 & E2 & E3 & E4).
    exists c, k, r. split; auto. split; auto. rewrite <- E3. apply respond_ext. apply El.
  - intros i Hi. left. exists (o i). split; auto. now rewrite H1, Hd.
Qed.

Theorem one_execution_decides {A} n wait (ps : nat -> proc A) o m cf :
  steps n wait m (start ps) cf -> (forall i, i < n -> prog cf i = Done (o i)) ->
  every_execution_reaches n ps (fun i => Some (o i)).
Proof.
  intros H Hd. destruct (complete_trace _ _ _ _ _ _ H Hd) as (P & T).
  split; [|split].
  - exists (n * (2 * total (left_ cf) n + 1)). intros w k cf' H'.
    rewrite <- (work_steps n ps w k cf' H').
    eapply hwork_bound. eapply hinv_steps; eauto.
  - intros w k cf' H' i r Hi Hr.
    eapply (hinv_outcome n ps (fun i => Some (o i))); eauto. eapply hinv_steps; eauto.
  - intros k cf' H'. eapply hprogress; eauto. eapply hinv_steps; eauto.
Qed.

(** When all ranks take part in the same number of collectives the library may
    synchronize as much as it likes. *)
Theorem one_execution_decides_all {A} n wait (ps : nat -> proc A) o m cf L :
  steps n wait m (start ps) cf -> (forall i, i < n -> prog cf i = Done (o i)) ->
  (forall i, i < n -> left_ cf i = L) ->
  every_execution_ends n ps o.
Proof.
  intros H Hd HL. destruct (complete_trace _ _ _ _ _ _ H Hd) as (P & T0 & T1 & T2).
  set (C := fun m i => match P m i with Coll c _ => c | Done _ => CBcastObj 0 ONone end).
  assert (Q1 : forall m i, m < L -> i < n -> exists k r,
       P m i = Coll (C m i) k /\
       respond n i (fun j => if j <? n then Some (C m j) else None) = Some r /\
       P (S m) i = k r).
  { intros m' i Hm Hi. destruct (T1 i m' Hi) as (c & k & r & E1 & E2 & E3); [rewrite HL; auto|].
    exists k, r. split; [unfold C; now rewrite E1|]. split; auto.
    rewrite <- E2. apply respond_ext. intro j. unfold tlook.
    destruct (Nat.ltb_spec j n) as [Hj|]; auto. simpl. rewrite HL by assumption.
    replace (m' <=? L) with true by (symmetry; apply Nat.leb_le; lia).
    destruct (T1 j m' Hj) as (c' & k' & r' & E1' & _); [rewrite HL; auto|].
    unfold C. now rewrite E1'. }
  assert (Q2 : forall i, i < n -> P L i = Done (o i)).
  { intros i Hi. rewrite <- (HL i Hi). destruct (T2 i Hi) as [(r & E1 & E2)|(c & k & _ & _ & E)].
    - congruence.
    - discriminate. }
  split; [|split].
  - exists (n * (2 * L)). intros w k cf' H'.
    rewrite <- (work_steps n ps w k cf' H'). eapply work_bound. eapply inv_steps; eauto.
  - intros w k cf' H'. eapply progress; eauto. eapply inv_steps; eauto.
  - intros w k cf' H' i r Hi Hr.
    pose proof (inv_steps n ps o L P C T0 Q1 Q2 w k cf' H') as I.
    destruct (I i Hi) as (J1 & J2 & _). rewrite J2 in Hr.
    destruct (Nat.eq_dec (left_ cf' i) L) as [E|E].
    + rewrite E, Q2 in Hr by assumption. congruence.
    + destruct (Q1 (left_ cf' i) i) as (k' & r' & E1 & _); [lia|assumption|]. congruence.
Qed.
