(** Proofs for column subset selection. *)
From Coq Require Import ZArith List Bool Arith Reals Permutation Sorted Lia Lra.
From Verif Require Import Prelude F64 Num Spec_Rescale Spec_Poisson Model_Thresholds Model_Cur Spec_Cur Proofs_Rescale Proofs_Poisson.
Import ListNotations.

(** ** Lists *)
Lemma filter_sorted (f : nat -> bool) l : StronglySorted lt l -> StronglySorted lt (filter f l).
Proof.
  induction 1 as [|a l S IH F]; simpl; [constructor|].
  destruct (f a); [|exact IH]. constructor; [exact IH|].
  rewrite Forall_forall in *. intros x Hx. apply filter_In in Hx. now apply F.
Qed.
Lemma seq_sorted n a : StronglySorted lt (seq a n).
Proof.
  revert a. induction n; intro a; simpl; constructor; [apply IHn|].
  rewrite Forall_forall. intros x Hx. apply in_seq in Hx. lia.
Qed.
Lemma sorted_NoDup l : StronglySorted lt l -> NoDup l.
Proof.
  induction 1 as [|a l S IH F]; constructor; [|exact IH].
  intro H. rewrite Forall_forall in F. specialize (F a H). lia.
Qed.

(** ** check_ks_and_cs *)
Definition arr_of (c : counts) : arr := match c with CountsInt l => ArrInt l | CountsFloat l => ArrFloat l end.

Lemma denotes_int_value v z : denotes_int v z -> int_value v = z.
Proof. now destruct 1 as [|[]]. Qed.
Lemma denotes_float_value v x : denotes_float v x -> float_value v = x /\ is_number v = true.
Proof. destruct 1 as [x|v z []]; now split. Qed.
Lemma number_denotes v : is_number v = true -> denotes_float v (float_value v).
Proof.
  destruct v; intro H; try discriminate H; [constructor|apply float_int; constructor|].
  apply float_int. exact (denotes_PyBool b).
Qed.
Lemma int_denotes v : is_number v = true -> isinstance_float v = false -> denotes_int v (int_value v).
Proof. destruct v; intros H F; try discriminate; [constructor|exact (denotes_PyBool b)]. Qed.
Lemma numeric_list l : Forall (fun x => exists y, denotes_float x y) l -> forallb is_number l = true.
Proof.
  intro H. apply forallb_forall. intros v Hv. rewrite Forall_forall in H. destruct (H v Hv) as [y Hy].
  now apply denotes_float_value in Hy.
Qed.
Lemma Forall2_map_r {A B} (P : A -> B -> Prop) f l : (forall x, In x l -> P x (f x)) -> Forall2 P l (map f l).
Proof. induction l; simpl; intro H; constructor; [apply H; now left|]. apply IHl. intros. apply H. now right. Qed.
Lemma Forall2_fun {A B} (P : A -> B -> Prop) f l v : (forall x y, P x y -> f x = y) -> Forall2 P l v -> map f l = v.
Proof. intros H. induction 1; simpl; [easy|]. now rewrite (H _ _ H0), IHForall2. Qed.
Lemma Forall2_In_l {A B} (P : A -> B -> Prop) l v x : Forall2 P l v -> In x l -> exists y, P x y.
Proof. induction 1; intros []; [subst; eauto|auto]. Qed.

(** The dtype of an array made from a list of numbers. *)
Lemma np_array_cases l : forallb is_number l = true ->
  (np_array l = Ok (ArrFloat (map float_value l)) /\ (l = [] \/ exists x, In (PyFloat x) l)) \/
  (np_array l = Ok (ArrInt (map int_value l)) /\ (exists z, In (PyInt z) l) /\ Forall (fun v => isinstance_float v = false) l) \/
  (np_array l = Ok (ArrBool (map bool_value l)) /\ l <> [] /\ Forall (fun v => exists b, v = PyBool b) l).
Proof.
  intro H. unfold np_array. rewrite H. cbn [negb].
  destruct (existsb isinstance_float l) eqn:F.
  - left. split; [easy|]. right. apply existsb_exists in F. destruct F as (v & Hv & Fv). destruct v; try discriminate Fv. eauto.
  - assert (NF : Forall (fun v => isinstance_float v = false) l).
    { rewrite Forall_forall. intros v Hv. destruct (isinstance_float v) eqn:E; [|easy].
      rewrite <- F. symmetry. apply existsb_exists. eauto. }
    destruct (Nat.eqb_spec (length l) 0) as [E|E].
    + left. split; [easy|]. left. now apply length_zero_iff_nil.
    + cbn [orb]. destruct (existsb is_int_value l) eqn:I'.
      * right; left. split; [easy|]. split; [|exact NF]. apply existsb_exists in I'. destruct I' as (v & Hv & Fv). destruct v; try discriminate Fv. eauto.
      * right; right. split; [easy|]. split; [now intros ->|]. rewrite Forall_forall in *. intros v Hv.
        specialize (NF v Hv). rewrite forallb_forall in H. specialize (H v Hv).
        destruct v; try discriminate; [|eauto]. exfalso. assert (existsb is_int_value l = true) by (apply existsb_exists; exists (PyInt z); easy). congruence.
Qed.
Lemma no_float l v : Forall2 denotes_int l v -> ~ exists x, In (PyFloat x) l.
Proof. intros F (x & Hx). destruct (Forall2_In_l _ _ _ _ F Hx) as [y Hy]. inversion Hy. Qed.
Lemma ints_number l v : Forall2 denotes_int l v -> forallb is_number l = true.
Proof.
  intro F. apply forallb_forall. intros x Hx. destruct (Forall2_In_l _ _ _ _ F Hx) as [y Hy]. now destruct Hy.
Qed.
Lemma np_array_int l v : Forall2 denotes_int l v -> (exists z, In (PyInt z) l) -> np_array l = Ok (ArrInt v).
Proof.
  intros F (z & Hz). destruct (np_array_cases l (ints_number _ _ F)) as [(E & [->|C])|[(E & _)|(E & _ & B)]].
  - destruct Hz.
  - now destruct (no_float _ _ F).
  - rewrite E. now rewrite (Forall2_fun _ _ _ _ denotes_int_value F).
  - rewrite Forall_forall in B. now destruct (B _ Hz).
Qed.
Lemma np_array_float l v : Forall2 denotes_float l v -> (l = [] \/ exists x, In (PyFloat x) l) -> np_array l = Ok (ArrFloat v).
Proof.
  intros F C.
  assert (Hn : forallb is_number l = true).
  { apply forallb_forall. intros x Hx. destruct (Forall2_In_l _ _ _ _ F Hx) as [y Hy]. now apply denotes_float_value in Hy. }
  assert (Em : map float_value l = v) by (apply (Forall2_fun denotes_float); [intros x y Hy; now apply denotes_float_value in Hy|exact F]).
  destruct (np_array_cases l Hn) as [(E & _)|[(E & (z & Hz) & B)|(E & N0 & B)]].
  - now rewrite E, Em.
  - destruct C as [->|(x & Hx)]; [destruct Hz|]. rewrite Forall_forall in B. discriminate (B _ Hx).
  - destruct C as [->|(x & Hx)]; [easy|]. rewrite Forall_forall in B. now destruct (B _ Hx).
Qed.

Lemma check_ranks_iff m a l : check_ranks m a = Ok l <-> a = ArrInt l /\ Forall (in_range m) l.
Proof.
  unfold check_ranks. destruct a as [l0|l0|l0]; [|split; [discriminate|now intros [E _]]|split; [discriminate|now intros [E _]]].
  destruct (forallb (fun k => (k <=? m)%Z) l0 && forallb (fun k => (0 <? k)%Z) l0) eqn:E.
  - apply andb_prop in E. destruct E as [E1 E2]. rewrite forallb_forall in E1, E2. split.
    + intro H; injection H as <-. split; [easy|]. rewrite Forall_forall. intros k Hk.
      specialize (E1 k Hk). specialize (E2 k Hk). apply Z.leb_le in E1. apply Z.ltb_lt in E2. unfold in_range. lia.
    + intros [H _]. now injection H as ->.
  - split; [discriminate|]. intros [H F]. injection H as ->. exfalso. apply andb_false_iff in E. rewrite Forall_forall in F.
    destruct E as [E|E]; apply Bool.not_true_iff_false in E; apply E; apply forallb_forall; intros k Hk; specialize (F k Hk); unfold in_range in F; [apply Z.leb_le|apply Z.ltb_lt]; lia.
Qed.
Lemma check_ranks_raise m a : (exists l, check_ranks m a = Ok l) \/ check_ranks m a = Raise ValueError.
Proof. unfold check_ranks. destruct a; auto. destruct (_ && _); eauto. Qed.

Lemma ks_valid m ks l : (exists a, ks_array m ks = Ok a /\ check_ranks m a = Ok l) <-> valid_ks m ks l.
Proof.
  split.
  - intros (a & Ea & Ec). apply check_ranks_iff in Ec. destruct Ec as [-> F].
    destruct ks as [v|]; [|cbn in Ea; injection Ea as <-].
    + destruct v; cbn in Ea; try discriminate Ea.
      * injection Ea as <-. apply ks_int. now inversion F.
      * destruct (forallb is_number l0) eqn:En; [|unfold np_array in Ea; rewrite En in Ea; discriminate].
        destruct (np_array_cases l0 En) as [(E & _)|[(E & Hz & B)|(E & _)]]; rewrite E in Ea; try discriminate Ea.
        injection Ea as <-. apply ks_list; [|exact Hz|exact F].
        apply Forall2_map_r. intros x Hx. rewrite forallb_forall in En. rewrite Forall_forall in B. apply int_denotes; auto.
      * injection Ea as ->. now apply ks_nd.
    + apply ks_default; [now rewrite map_length, seq_length|]. intros i Hi. rewrite map_length, seq_length in Hi.
      rewrite (nth_indep _ 0%Z (1 + Z.of_nat 0)%Z) by (now rewrite map_length, seq_length).
      rewrite map_nth with (f := fun i => (1 + Z.of_nat i)%Z), seq_nth by easy. now rewrite Nat.add_0_l.
  - destruct 1 as [l L E|z Hz|l F|l v F2 Hz F].
    + exists (ArrInt l). cbn [ks_array]. assert (El : map (fun i => (1 + Z.of_nat i)%Z) (seq 0 (Z.to_nat m)) = l).
      { apply nth_ext with (d := 0%Z) (d' := 0%Z); [now rewrite map_length, seq_length, L|]. intros i Hi. rewrite map_length, seq_length in Hi.
        rewrite E by lia. rewrite (nth_indep _ 0%Z (1 + Z.of_nat 0)%Z) by (now rewrite map_length, seq_length).
        rewrite map_nth with (f := fun i => (1 + Z.of_nat i)%Z), seq_nth by easy. now rewrite Nat.add_0_l. }
      rewrite El. split; [easy|]. apply check_ranks_iff. split; [easy|]. rewrite Forall_forall. intros k Hk.
      destruct (In_nth _ _ 0%Z Hk) as (i & Hi & <-). rewrite E by easy. unfold in_range. lia.
    + exists (ArrInt [z]). split; [easy|]. apply check_ranks_iff. split; [easy|]. now constructor.
    + exists (ArrInt l). split; [easy|]. now apply check_ranks_iff.
    + exists (ArrInt v). split; [now apply np_array_int|]. now apply check_ranks_iff.
Qed.

Lemma check_counts_iff n a c : check_counts n (arr_of c) = Ok a <-> a = arr_of c /\ positive c /\ n_counts c = n.
Proof.
  unfold check_counts.
  assert (P : (match arr_of c with ArrInt l => forallb (fun c => (0 <? c)%Z) l | ArrFloat l => forallb (fun c => fltb fzero c) l | ArrBool _ => false end) = true <-> positive c).
  { destruct c as [l|l]; cbn; rewrite forallb_forall, Forall_forall; [|easy]. split; intros H x Hx; specialize (H x Hx); now apply Z.ltb_lt. }
  assert (Q : arr_size (arr_of c) = n_counts c) by now destruct c.
  rewrite Q. destruct (match arr_of c with ArrInt l => _ | ArrFloat l => _ | ArrBool _ => _ end) eqn:E; cbn [andb].
  - destruct (Nat.eqb_spec (n_counts c) n) as [En|En]; split.
    + intro H; injection H as <-. split; [easy|]. split; [now apply P|easy].
    + now intros [-> _].
    + discriminate.
    + now intros (_ & _ & ?).
  - split; [discriminate|]. intros (_ & H & _). apply P in H. congruence.
Qed.
Lemma check_counts_arr n a c : check_counts n a = Ok c -> exists c', a = arr_of c' /\ c = arr_of c'.
Proof.
  unfold check_counts. destruct a as [l|l|l]; cbn; try discriminate.
  - destruct (_ && _); [|discriminate]. intro H; injection H as <-. now exists (CountsInt l).
  - destruct (_ && _); [|discriminate]. intro H; injection H as <-. now exists (CountsFloat l).
Qed.
Lemma arr_of_inj c c' : arr_of c = arr_of c' -> c = c'.
Proof. destruct c, c'; cbn; congruence. Qed.
Lemma repeat_map {A B} (f : A -> B) x n : map f (repeat x n) = repeat (f x) n.
Proof. induction n; simpl; congruence. Qed.

Lemma cs_denotes ks cs c : cs_array ks cs = Ok (arr_of c) <-> denotes_counts ks cs c.
Proof.
  split.
  - intro E. destruct cs as [v|]; cbn in E.
    + destruct v; cbn in E; try discriminate E.
      * injection E as E. destruct c; [discriminate E|]. injection E as <-. rewrite repeat_map. apply cs_scalar. constructor.
      * injection E as E. destruct c; [discriminate E|]. injection E as <-. rewrite repeat_map. apply cs_scalar. apply float_int. constructor.
      * injection E as E. destruct c; [discriminate E|]. injection E as <-. rewrite repeat_map. apply cs_scalar. apply float_int. exact (denotes_PyBool b).
      * destruct (forallb is_number l) eqn:En; [|unfold np_array in E; rewrite En in E; discriminate].
        destruct (np_array_cases l En) as [(E' & D)|[(E' & Hz & B)|(E' & _)]]; rewrite E' in E; injection E as E.
        -- destruct c; [discriminate E|]. injection E as <-. apply cs_float_list; [|exact D].
           apply Forall2_map_r. intros x Hx. rewrite forallb_forall in En. apply number_denotes; auto.
        -- destruct c; [|discriminate E]. injection E as <-. apply cs_int_list; [|exact Hz].
           apply Forall2_map_r. intros x Hx. rewrite forallb_forall in En. rewrite Forall_forall in B. apply int_denotes; auto.
        -- destruct c; discriminate E.
      * injection E as E. destruct c; [discriminate E|]. injection E as <-. constructor.
      * injection E as E. destruct c; [|discriminate E]. injection E as <-. constructor.
      * injection E as E. destruct c; discriminate E.
    + injection E as E. destruct c; [|discriminate E]. injection E as <-. constructor.
  - destruct 1 as [|v x Hx|l|l|l v F2 Hz|l v F2 D]; cbn; try easy.
    + destruct Hx as [x|v z []]; cbn; now rewrite repeat_map.
    + now apply np_array_int.
    + now apply np_array_float.
Qed.

Lemma check_valid m ks cs v c : check_ks_and_cs m ks cs = Ok (v, arr_of c) <-> valid_ks m ks v /\ valid_cs v cs c.
Proof.
  unfold check_ks_and_cs, valid_cs. rewrite <- ks_valid, <- cs_denotes. split.
  - destruct (ks_array m ks) as [a|] eqn:E1; [|discriminate]. cbn [bind].
    destruct (check_ranks m a) as [l|] eqn:E2; [|discriminate]. cbn [bind].
    destruct (cs_array l cs) as [a'|] eqn:E3; [|discriminate]. cbn [bind].
    destruct (check_counts (length l) a') as [c0|] eqn:E4; [|discriminate]. cbn [bind].
    intro H. injection H as <- ->. destruct (check_counts_arr _ _ _ E4) as (c' & -> & Ec). apply arr_of_inj in Ec. subst c'.
    apply check_counts_iff in E4. split; [now exists a|]. now split.
  - intros [(a & E1 & E2) (E3 & P)]. rewrite E1. cbn [bind]. rewrite E2. cbn [bind]. rewrite E3. cbn [bind].
    replace (check_counts (length v) (arr_of c)) with (Ok (arr_of c)); [easy|]. symmetry. apply check_counts_iff. tauto.
Qed.
Lemma check_result m ks cs : numeric ks -> numeric cs ->
  (exists v c, check_ks_and_cs m ks cs = Ok (v, arr_of c)) \/ check_ks_and_cs m ks cs = Raise ValueError.
Proof.
  intros N1 N2. unfold check_ks_and_cs.
  assert (A1 : (exists a, ks_array m ks = Ok a) \/ ks_array m ks = Raise ValueError).
  { destruct ks as [[]|]; cbn; eauto. left. destruct (np_array_cases l (numeric_list _ N1)) as [(E & _)|[(E & _)|(E & _)]]; rewrite E; eauto. }
  destruct A1 as [(a & ->)| ->]; [|now right]. cbn [bind].
  destruct (check_ranks_raise m a) as [(l & ->)| ->]; [|now right]. cbn [bind].
  assert (A2 : (exists a, cs_array l cs = Ok a) \/ cs_array l cs = Raise ValueError).
  { destruct cs as [[]|]; cbn; eauto. left. destruct (np_array_cases l0 (numeric_list _ N2)) as [(E & _)|[(E & _)|(E & _)]]; rewrite E; eauto. }
  destruct A2 as [(a' & ->)| ->]; [|now right]. cbn [bind].
  destruct (check_counts (length l) a') as [c0|] eqn:E4; cbn [bind].
  - left. destruct (check_counts_arr _ _ _ E4) as (c' & _ & ->). eauto.
  - right. unfold check_counts in E4. destruct (_ && _); [discriminate|]. now injection E4 as <-.
Qed.
Lemma check_raises m ks cs : numeric ks -> numeric cs -> (forall v c, ~ (valid_ks m ks v /\ valid_cs v cs c)) ->
  check_ks_and_cs m ks cs = Raise ValueError.
Proof.
  intros N1 N2 H. destruct (check_result m ks cs N1 N2) as [(v & c & E)|E]; [|exact E].
  apply check_valid in E. now apply H in E.
Qed.
