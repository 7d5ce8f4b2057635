(** Lemmas about rank programs used for [fit]: ranks that can only hang once
    rank 0 no longer takes part. *)
From Coq Require Import ZArith List Bool Arith Lia.
From Verif Require Import Prelude F64 Model_Mpi Spec_Mpi Proofs_MpiSem Proofs_Mpi.
Import ListNotations.

(** [p], run on a rank other than 0, passes at most [d - 1] gathering calls and
    then waits for a broadcast from rank 0. *)
Fixpoint doomed {A} (d : nat) (p : proc A) : Prop :=
  match d with
  | 0 => False
  | S d' =>
      match p with
      | Coll (CBcastObj root _) _ => root = 0
      | Coll (CBcastBuf root _) _ => root = 0
      | Coll (CGather root _) k => root = 0 /\ doomed d' (k RNothing)
      | Coll (CReduceSum root _) k => root = 0 /\ doomed d' (k RNothing)
      | Coll (CGatherv root _ _) k => root = 0 /\ doomed d' (k RNothing)
      | Done _ => False
      end
  end.

Lemma doomed_bind {A B} (f : A -> proc B) d : forall p, doomed d p -> doomed d (pbind p f).
Proof.
  induction d as [|d IH]; intros p H; [destruct H|].
  destruct p as [r|c k]; [destruct H|].
  simpl in *. destruct c; auto; destruct H as [H1 H2]; auto.
Qed.

Lemma doomed_S {A} d : forall p : proc A, doomed d p -> doomed (S d) p.
Proof.
  induction d as [|d IH]; intros p H; [destruct H|].
  destruct p as [r|c k]; [destruct H|].
  destruct c; try exact H; destruct H as [H1 H2]; (split; [exact H1|exact (IH _ H2)]).
Qed.

Lemma doomed_gatherv {A} env i a rows rest (f : option nd -> proc A) d :
  i <> 0 -> nd_shape a = rows :: rest -> np2mpi (nd_dtype a) = true ->
  doomed d (f None) ->
  doomed (3 + d) (pbind (Gatherv_rows env i 0 (ArgNd a)) f).
Proof.
  intros Hi Hs Hd Hf. unfold Gatherv_rows.
  assert (Ec : contiguous a = a) by (unfold contiguous; rewrite Hs; reflexivity).
  simpl check_valid_ndarray. rewrite Ec, Hs, Hd.
  assert (E0 : (i =? 0) = false) by (apply Nat.eqb_neq; exact Hi).
  rewrite E0. simpl. auto.
Qed.

Lemma doomed_bcast {A} env i (f : nd -> proc A) : i <> 0 ->
  doomed 1 (pbind (Bcast_from_root env i 0 ArgNone) f).
Proof.
  intro Hi. unfold Bcast_from_root. simpl.
  assert (E0 : (i =? 0) = false) by (apply Nat.eqb_neq; exact Hi).
  rewrite E0. reflexivity.
Qed.

(** Rank 0 is absent: it has finished, or it is stuck. *)
Lemma doomed_hruns {A} n d : forall (alive : nat -> bool) (ps : nat -> proc A) out,
  1 <= n ->
  (alive 0 = true -> exists r, ps 0 = Done r /\ out 0 = Some r) ->
  (alive 0 = false -> out 0 = None) ->
  (forall i, 0 < i < n -> alive i = true ->
     (exists r, ps i = Done r /\ out i = Some r) \/ (doomed d (ps i) /\ out i = None)) ->
  (forall i, 0 < i < n -> alive i = false -> out i = None) ->
  hruns n alive ps out.
Proof.
  induction d as [|d IH]; intros alive ps out Hn H0 H0' Hi Hi'.
  - apply HEnd.
    + intros i Hlt Ha. destruct (Nat.eq_dec i 0) as [->|Hz]; [auto|].
      destruct (Hi i) as [H|[[] _]]; auto; lia.
    + intros i Hlt Ha. destruct (Nat.eq_dec i 0) as [->|Hz]; [auto|]. apply Hi'; auto; lia.
  - apply HRound.
    assert (L0 : looks n alive ps 0 = None).
    { unfold looks.
      destruct (alive 0) eqn:Ea.
      - destruct (H0 eq_refl) as (r & E & _). rewrite E. now destruct ((0 <? n) && true).
      - now rewrite andb_false_r. }
    assert (R : forall i c k, 0 < i < n -> alive i = true -> ps i = Coll c k ->
              looks n alive ps i = Some c).
    { intros i c k Hlt Ha E. unfold looks. rewrite E, Ha.
      assert (Hl : (i <? n) = true) by (apply Nat.ltb_lt; lia). rewrite Hl. reflexivity. }
    apply IH; auto.
    + intro Ha. unfold alive_after in Ha. apply andb_prop in Ha as [Ha _].
      destruct (H0 Ha) as (r & E & Eo). exists r. unfold progs_after. rewrite E. auto.
    + unfold alive_after. destruct (alive 0) eqn:Ea.
      * destruct (H0 eq_refl) as (r & E & Eo). rewrite E. discriminate.
      * intros _. auto.
    + intros i Hlt Ha. unfold alive_after in Ha. apply andb_prop in Ha as [Ha Hr].
      destruct (Hi i Hlt Ha) as [(r & E & Eo)|[Hd Eo]].
      * left. exists r. unfold progs_after. rewrite E. auto.
      * right. split; [|exact Eo]. unfold progs_after.
        destruct (ps i) as [r|c k] eqn:E; [destruct Hd|].
        pose proof (R i c k Hlt Ha E) as Lk.
        assert (Hne : (i =? 0) = false) by (apply Nat.eqb_neq; lia).
        destruct c as [root o|root o|root o|root m|root s rv]; simpl in Hd.
        -- subst root. unfold respond in Hr. rewrite Lk, Hne, L0 in Hr. discriminate.
        -- subst root. unfold respond in Hr. rewrite Lk, Hne, L0 in Hr. discriminate.
        -- destruct Hd as [-> Hd]. unfold respond. rewrite Lk, Hne. exact Hd.
        -- destruct Hd as [-> Hd]. unfold respond. rewrite Lk, Hne. exact Hd.
        -- destruct Hd as [-> Hd]. unfold respond. rewrite Lk, Hne. exact Hd.
    + intros i Hlt Ha. destruct (alive i) eqn:Eai; [|auto].
      unfold alive_after in Ha. rewrite Eai in Ha. simpl in Ha.
      destruct (Hi i Hlt Eai) as [(r & E & Eo)|[_ Eo]]; [|exact Eo].
      rewrite E in Ha. discriminate.
Qed.

(** Rank 0 waits in a gather in which some rank will not take part, or has
    finished itself. *)
Lemma stuck_hruns {A} n d (ps : nat -> proc A) out r0 :
  1 <= n -> r0 < n -> (exists r, ps r0 = Done r) ->
  ((exists r, ps 0 = Done r /\ out 0 = Some r) \/
   (exists o k, ps 0 = Coll (CGather 0 o) k /\ out 0 = None)) ->
  (forall i, 0 < i < n ->
     (exists r, ps i = Done r /\ out i = Some r) \/ (doomed d (ps i) /\ out i = None)) ->
  hruns n (fun _ => true) ps out.
Proof.
  intros Hn Hr0 (rr & Er0) [(r & E & Eo)|(o & k & E & Eo)] Hi.
  - apply (doomed_hruns n d); auto; try discriminate. intros _. eauto.
  - apply HRound.
    assert (Hresp : respond n 0 (looks n (fun _ => true) ps) = None).
    { assert (L0 : looks n (fun _ => true) ps 0 = Some (CGather 0 o)).
      { unfold looks. rewrite E. assert (H : (0 <? n) = true) by (apply Nat.ltb_lt; lia).
        rewrite H. reflexivity. }
      unfold respond. rewrite L0. simpl.
      destruct (collect n (looks n (fun _ => true) ps) (the_gather 0)) eqn:Ec; [|reflexivity].
      exfalso. unfold collect in Ec.
      assert (G : forall l x, all_some (map (fun j => obind (looks n (fun _ => true) ps j) (the_gather 0)) l) = Some x ->
                  In r0 l -> False).
      { induction l0 as [|j l0 IH]; intros x Hx Hin; [destruct Hin|].
        simpl in Hx. destruct Hin as [->|Hin].
        - unfold looks in Hx at 1. rewrite Er0 in Hx. destruct ((r0 <? n) && true); discriminate.
        - destruct (obind (looks n (fun _ => true) ps j) (the_gather 0)); [|discriminate].
          destruct (all_some (map (fun j => obind (looks n (fun _ => true) ps j) (the_gather 0)) l0)) eqn:E2;
            [|discriminate].
          exact (IH _ eq_refl Hin). }
      apply (G _ _ Ec). apply in_seq. lia. }
    assert (R : forall i c kk, 0 < i < n -> ps i = Coll c kk ->
              looks n (fun _ => true) ps i = Some c).
    { intros i c kk Hlt Ei. unfold looks. rewrite Ei.
      assert (Hl : (i <? n) = true) by (apply Nat.ltb_lt; lia). rewrite Hl. reflexivity. }
    apply (doomed_hruns n d); auto.
    + unfold alive_after. rewrite E, Hresp. discriminate.
    + intros i Hlt Ha. unfold alive_after in Ha. simpl in Ha.
      destruct (Hi i Hlt) as [(r & Ei & Eoi)|[Hd Eoi]].
      * left. exists r. unfold progs_after. rewrite Ei. auto.
      * right. split; [|exact Eoi]. unfold progs_after.
        destruct (ps i) as [r|c kk] eqn:Ei; [destruct d; destruct Hd|].
        destruct (respond n i (looks n (fun _ => true) ps)) eqn:Er; [|discriminate].
        destruct d as [|d]; [destruct Hd|].
        pose proof (R i c kk Hlt Ei) as Lk.
        assert (Hne : (i =? 0) = false) by (apply Nat.eqb_neq; lia).
        unfold respond in Er. rewrite Lk in Er.
        destruct c as [root o'|root o'|root o'|root m|root s rv]; simpl in Hd.
        -- subst root. rewrite Hne in Er.
           assert (L0 : looks n (fun _ => true) ps 0 = Some (CGather 0 o)).
           { unfold looks. rewrite E. assert (H : (0 <? n) = true) by (apply Nat.ltb_lt; lia).
             rewrite H. reflexivity. }
           rewrite L0 in Er. discriminate.
        -- subst root. rewrite Hne in Er.
           assert (L0 : looks n (fun _ => true) ps 0 = Some (CGather 0 o)).
           { unfold looks. rewrite E. assert (H : (0 <? n) = true) by (apply Nat.ltb_lt; lia).
             rewrite H. reflexivity. }
           rewrite L0 in Er. discriminate.
        -- destruct Hd as [-> Hd]. rewrite Hne in Er. injection Er as <-.
           exact (doomed_S d _ Hd).
        -- destruct Hd as [-> Hd]. rewrite Hne in Er. injection Er as <-.
           exact (doomed_S d _ Hd).
        -- destruct Hd as [-> Hd]. rewrite Hne in Er. injection Er as <-.
           exact (doomed_S d _ Hd).
    + intros i Hlt Ha. unfold alive_after in Ha. simpl in Ha.
      destruct (Hi i Hlt) as [(r & Ei & Eoi)|[_ Eoi]]; [|exact Eoi].
      rewrite Ei in Ha. discriminate.
Qed.

(** A finished rank keeps its outcome. *)
Lemma hruns_done {A} n alive (ps : nat -> proc A) out : hruns n alive ps out ->
  forall i r, i < n -> alive i = true -> ps i = Done r -> out i = Some r.
Proof.
  induction 1 as [alive ps out H1 H2|alive ps out H IH]; intros i r Hi Ha E.
  - destruct (H1 i Hi Ha) as (r' & E' & Eo). congruence.
  - apply IH; auto.
    + unfold alive_after. rewrite Ha, E. reflexivity.
    + unfold progs_after. rewrite E. reflexivity.
Qed.

(** If no rank gets past [ps], neither does any get past [ps] followed by [fs]. *)
Definition failing {A B} (o : option (result A)) : option (result B) :=
  match o with Some (Raise e) => Some (Raise e) | _ => None end.

Lemma hruns_bind_fail {A B} n alive (ps : nat -> proc A) (fs : nat -> A -> proc B) out :
  hruns n alive ps out ->
  (forall i a, i < n -> out i <> Some (Ok a)) ->
  hruns n alive (fun i => pbind (ps i) (fs i)) (fun i => failing (out i)).
Proof.
  induction 1 as [alive ps out H1 H2|alive ps out H IH]; intros Hno.
  - apply HEnd.
    + intros i Hi Ha. destruct (H1 i Hi Ha) as (r & E & Eo).
      destruct r as [a|e]; [exfalso; exact (Hno i a Hi Eo)|].
      exists (Raise e). rewrite E, Eo. split; reflexivity.
    + intros i Hi Ha. rewrite (H2 i Hi Ha). reflexivity.
  - assert (Hd : forall i, i < n -> alive i = true -> forall a, ps i <> Done (Ok a)).
    { intros i Hi Ha a E. apply (Hno i a Hi).
      exact (hruns_done n alive ps out (HRound _ _ _ _ H) i (Ok a) Hi Ha E). }
    specialize (IH Hno). apply HRound.
    assert (El : forall j, looks n alive (fun i => pbind (ps i) (fs i)) j = looks n alive ps j).
    { intro j. unfold looks. destruct ((j <? n) && alive j) eqn:Ej; [|reflexivity].
      apply andb_prop in Ej as [Ej1 Ej2]. apply Nat.ltb_lt in Ej1.
      destruct (ps j) as [[a|e]|c k] eqn:E; try reflexivity.
      exfalso. exact (Hd j Ej1 Ej2 a E). }
    (* dead ranks keep arbitrary programs; compare only the living *)
    assert (G : forall alive1 (p1 p2 : nat -> proc B) o, hruns n alive1 p1 o ->
       (forall i, i < n -> alive1 i = true -> p1 i = p2 i) -> hruns n alive1 p2 o).
    { clear. intros alive1 p1 p2 o H. revert p2.
      induction H as [alive ps out H1 H2|alive ps out H IH]; intros p2 Heq.
      - apply HEnd; auto. intros i Hi Ha. destruct (H1 i Hi Ha) as (r & E & Eo).
        exists r. rewrite <- Heq by assumption. auto.
      - apply HRound.
        assert (El : forall j, looks n alive p2 j = looks n alive ps j).
        { intro j. unfold looks. destruct ((j <? n) && alive j) eqn:Ej; [|reflexivity].
          apply andb_prop in Ej as [Ej1 Ej2]. apply Nat.ltb_lt in Ej1.
          rewrite Heq by assumption. reflexivity. }
        assert (Ea : forall i, i < n -> alive_after n alive ps i = alive_after n alive p2 i).
        { intros i Hi. unfold alive_after. destruct (alive i) eqn:Eai; [|reflexivity].
          rewrite Heq by assumption. rewrite (respond_ext n i _ _ El). reflexivity. }
        apply (hruns_ext n (alive_after n alive ps) _ (progs_after n alive p2) _ out); auto.
        apply IH. intros i Hi Ha. unfold alive_after in Ha. apply andb_prop in Ha as [Ha _].
        unfold progs_after. rewrite Heq by assumption.
        rewrite (respond_ext n i _ _ El). reflexivity. }
    apply (hruns_ext n (alive_after n alive ps) _
             (progs_after n alive (fun i => pbind (ps i) (fs i))) _ (fun i => failing (out i))); auto.
    + intros i Hi. unfold alive_after. destruct (alive i) eqn:Eai; [|reflexivity].
      destruct (ps i) as [[a|e]|c k] eqn:E; simpl; try reflexivity.
      * exfalso. exact (Hd i Hi Eai a E).
      * rewrite (respond_ext n i _ _ El). reflexivity.
    + apply (G _ _ _ _ IH). intros i Hi Ha.
      unfold alive_after in Ha. apply andb_prop in Ha as [Ha Hr].
      unfold progs_after. destruct (ps i) as [[a|e]|c k] eqn:E; simpl; try reflexivity.
      * exfalso. exact (Hd i Hi Ha a E).
      * rewrite (respond_ext n i _ _ El).
        destruct (respond n i (looks n alive ps)); [reflexivity|discriminate].
Qed.

Lemma hruns_bind_fail' {A B} n alive (ps : nat -> proc A) (fs : nat -> A -> proc B) out out' :
  hruns n alive ps out ->
  (forall i a, i < n -> out i <> Some (Ok a)) ->
  (forall i, i < n -> failing (out i) = out' i) ->
  hruns n alive (fun i => pbind (ps i) (fs i)) out'.
Proof.
  intros H1 H2 H3.
  apply (hruns_ext n alive alive (fun i => pbind (ps i) (fs i)) _ (fun i => failing (out i))); auto.
  apply hruns_bind_fail; auto.
Qed.
