From Coq Require Import List Arith Lia Bool.
From Verif Require Import Prelude Model_Mpi Spec_Mpi Proofs_MpiSem.
Import ListNotations.

(** * np.array_split *)

Lemma piece_start_0 n size : piece_start n size 0 = 0.
Proof. unfold piece_start. rewrite Nat.min_0_l. lia. Qed.

Lemma piece_start_S n size r :
  piece_start n size (S r) = piece_start n size r + piece_len n size r.
Proof.
  unfold piece_start, piece_len. rewrite Nat.mul_succ_l.
  generalize (n mod size) (n / size). intros m q.
  destruct (Nat.ltb_spec r m); lia.
Qed.

Lemma piece_start_end n size : 1 <= size -> piece_start n size size = n.
Proof.
  intro H. unfold piece_start. pose proof (Nat.mod_upper_bound n size).
  rewrite Nat.min_r by lia. pose proof (Nat.div_mod n size). lia.
Qed.

Lemma array_split_prefix n size k :
  concat (map (array_split_arange n size) (seq 0 k)) = seq 0 (piece_start n size k).
Proof.
  induction k as [|k IH].
  - now rewrite piece_start_0.
  - rewrite seq_S, map_app, concat_app, IH. simpl. rewrite app_nil_r, piece_start_S.
    unfold array_split_arange. rewrite seq_app. reflexivity.
Qed.

Theorem array_split_concat n size : 1 <= size ->
  concat (map (array_split_arange n size) (seq 0 size)) = seq 0 n.
Proof. intro H. rewrite array_split_prefix, piece_start_end by assumption. reflexivity. Qed.

Theorem array_split_balanced n size r r' :
  length (array_split_arange n size r) <= S (length (array_split_arange n size r')).
Proof.
  unfold array_split_arange. rewrite !seq_length. unfold piece_len.
  destruct (r <? n mod size), (r' <? n mod size); lia.
Qed.

Theorem array_split_once n size task : 1 <= size -> task < n ->
  exists r, r < size /\ In task (array_split_arange n size r) /\
    forall r', r' < size -> In task (array_split_arange n size r') -> r' = r.
Proof.
  intros Hs Ht.
  assert (mono : forall a b, a <= b -> piece_start n size a <= piece_start n size b).
  { intros a b Hab. induction Hab; auto. rewrite piece_start_S. lia. }
  assert (E : exists r, r < size /\ piece_start n size r <= task < piece_start n size (S r)).
  { pose proof (piece_start_end n size Hs) as Ee. clear mono.
    assert (G : forall k, task < piece_start n size k -> exists r, r < k /\
              piece_start n size r <= task < piece_start n size (S r)).
    { induction k as [|k IH]; [rewrite piece_start_0; lia|]. intro Hk.
      destruct (le_lt_dec (piece_start n size k) task).
      - exists k. split; [lia|]. split; auto.
      - destruct (IH l) as (r & Hr & H). exists r. split; [lia|auto]. }
    apply G. rewrite Ee. exact Ht. }
  destruct E as (r & Hr & H1 & H2). rewrite piece_start_S in H2.
  exists r. split; auto. split.
  - unfold array_split_arange. apply in_seq. lia.
  - intros r' Hr' Hin. unfold array_split_arange in Hin. apply in_seq in Hin.
    destruct (lt_eq_lt_dec r' r) as [[Hlt| ->]|Hlt]; auto; exfalso.
    + pose proof (mono (S r') r ltac:(lia)). rewrite piece_start_S in H. lia.
    + pose proof (mono (S r) r' ltac:(lia)). rewrite piece_start_S in H. lia.
Qed.

(** * Broadcasts *)

Lemma if_lt {T} n i (x y : T) : i < n -> (if i <? n then x else y) = x.
Proof. intro H. apply Nat.ltb_lt in H. now rewrite H. Qed.

Lemma dtype_eqb_refl d : dtype_eqb d d = true.
Proof. destruct d; simpl; auto. apply Nat.eqb_refl. Qed.
Lemma dtype_eqb_eq a b : dtype_eqb a b = true <-> a = b.
Proof.
  destruct a, b; simpl; split; intro H; try congruence; try discriminate.
  - apply Nat.eqb_eq in H. congruence.
  - inversion H. apply Nat.eqb_refl.
Qed.

Lemma runs_bcast_obj n root (os : nat -> obj) : root < n ->
  runs n (fun i => bcast_obj root (os i)) (fun _ => Ok (os root)).
Proof.
  intro Hr.
  apply RunColl with (fun i => CBcastObj root (os i))
    (fun _ r => match r with RObj o' => Done (Ok o') | _ => Done (Raise OtherError) end)
    (fun _ => RObj (os root)).
  - reflexivity.
  - intros i Hi. unfold respond. rewrite !if_lt by assumption.
    destruct (Nat.eqb_spec i root) as [->|]; auto. now rewrite Nat.eqb_refl.
  - apply RunDone. reflexivity.
Qed.

Lemma runs_bcast_buf n root (a : nat -> nd) (d : nat -> dtype) : root < n ->
  (forall i, i < n -> np2mpi (d i) = true) ->
  (forall i, i < n -> nd_shape (a i) = nd_shape (a root) /\
     nd_dtype (a i) = nd_dtype (a root) /\
     length (nd_data (a i)) = length (nd_data (a root))) ->
  runs n (fun i => bcast_buf root (a i) (d i)) (fun _ => Ok (a root)).
Proof.
  intros Hr Hd Ha.
  apply RunColl with (fun i => CBcastBuf root (a i))
    (fun _ r => match r with RNd b => Done (Ok b) | _ => Done (Raise OtherError) end)
    (fun _ => RNd (a root)).
  - intros i Hi. unfold bcast_buf. now rewrite Hd.
  - intros i Hi. unfold respond. rewrite !if_lt by assumption.
    destruct (Nat.eqb_spec i root) as [->|]; auto. rewrite Nat.eqb_refl.
    destruct (Ha i Hi) as (E1 & E2 & E3). rewrite E1, E2, E3, dtype_eqb_refl, Nat.eqb_refl.
    simpl. destruct (a root); reflexivity.
  - apply RunDone. reflexivity.
Qed.

Lemma runs_lift {A} n (r : nat -> result A) : runs n (fun i => lift (r i)) r.
Proof. apply RunDone. reflexivity. Qed.

Lemma np_empty_length env s d : length (nd_data (np_empty env s d)) = prod s.
Proof. simpl. now rewrite map_length, seq_length. Qed.

Lemma wf_contiguous a : wf_nd a -> wf_nd (contiguous a).
Proof. unfold wf_nd, contiguous. destruct (nd_shape a) eqn:E; simpl; rewrite ?E; auto. Qed.

(** Bcast_from_root with root 0 and a supported dtype. *)
Theorem bcast_root0_runs env n (sends : nat -> arg) a :
  1 <= n -> sends 0 = ArgNd a -> wf_nd a -> np2mpi (nd_dtype a) = true ->
  (forall i, 0 < i < n -> sends i <> ArgOther) ->
  runs n (fun i => Bcast_from_root env i 0 (sends i)) (fun _ => Ok (contiguous a)).
Proof.
  intros Hn H0 Hw Hd Hs.
  set (b := contiguous a).
  assert (Hw' : wf_nd b) by now apply wf_contiguous.
  assert (Hdb : nd_dtype b = nd_dtype a) by (unfold b, contiguous; destruct (nd_shape a); reflexivity).
  set (os1 := fun i => if i =? 0 then OShape (nd_shape b) else ONone).
  set (os2 := fun i => if i =? 0 then ODtype (nd_dtype b) else ONone).
  set (arr := fun i => if i =? 0 then b else np_empty env (nd_shape b) (nd_dtype b)).
  apply runs_ext with
    (ps := fun i => pbind (bcast_obj 0 (os1 i)) (fun shape =>
                    pbind (bcast_obj 0 (os2 i)) (fun d =>
                    pbind (lift (if i =? 0 then Ok b else empty_of_obj env shape d)) (fun c =>
                    pbind (lift (dtype_of_obj d)) (fun d => bcast_buf 0 c d)))))
    (o := fun _ => Ok b); [|reflexivity|].
  - intros i Hi. unfold Bcast_from_root.
    destruct (Nat.eqb_spec i 0) as [->|Hi0].
    + rewrite H0. reflexivity.
    + unfold check_valid_ndarray. specialize (Hs i ltac:(lia)).
      unfold os1, os2. destruct (sends i); try congruence; simpl;
        destruct (Nat.eqb_spec i 0); try lia; reflexivity.
  - apply (runs_bind n _ _ (fun _ => os1 0)); [apply runs_bcast_obj; lia|].
    apply (runs_bind n _ _ (fun _ => os2 0)); [apply runs_bcast_obj; lia|].
    apply (runs_bind n _ _ arr).
    { eapply runs_ext; [| |apply (runs_lift n (fun i => Ok (arr i)))]; auto.
      intros i Hi. unfold arr, os1, os2. destruct (i =? 0); reflexivity. }
    apply (runs_bind n _ _ (fun _ => nd_dtype b)); [apply runs_lift|].
    change (fun _ : nat => Ok b) with (fun _ : nat => Ok (arr 0)).
    apply (runs_bcast_buf n 0 arr (fun _ => nd_dtype b)); [lia| |].
    + intros. now rewrite Hdb.
    + intros i Hi. unfold arr. simpl. destruct (i =? 0); auto.
      rewrite np_empty_length. repeat split. symmetry. exact Hw'.
Qed.

(** Unsupported dtype: every rank raises KeyError. *)
Theorem bcast_root0_keyerror env n (sends : nat -> arg) a :
  1 <= n -> sends 0 = ArgNd a -> np2mpi (nd_dtype a) = false ->
  (forall i, 0 < i < n -> sends i <> ArgOther) ->
  runs n (fun i => Bcast_from_root env i 0 (sends i)) (fun _ => Raise KeyError).
Proof.
  intros Hn H0 Hd Hs.
  set (b := contiguous a).
  assert (Hdb : nd_dtype b = nd_dtype a) by (unfold b, contiguous; destruct (nd_shape a); reflexivity).
  set (os1 := fun i => if i =? 0 then OShape (nd_shape b) else ONone).
  set (os2 := fun i => if i =? 0 then ODtype (nd_dtype b) else ONone).
  set (arr := fun i => if i =? 0 then b else np_empty env (nd_shape b) (nd_dtype b)).
  apply runs_ext with
    (ps := fun i => pbind (bcast_obj 0 (os1 i)) (fun shape =>
                    pbind (bcast_obj 0 (os2 i)) (fun d =>
                    pbind (lift (if i =? 0 then Ok b else empty_of_obj env shape d)) (fun c =>
                    pbind (lift (dtype_of_obj d)) (fun d => bcast_buf 0 c d)))))
    (o := fun _ => Raise KeyError); [|reflexivity|].
  - intros i Hi. unfold Bcast_from_root.
    destruct (Nat.eqb_spec i 0) as [->|Hi0].
    + rewrite H0. reflexivity.
    + unfold check_valid_ndarray. specialize (Hs i ltac:(lia)).
      unfold os1, os2. destruct (sends i); try congruence; simpl;
        destruct (Nat.eqb_spec i 0); try lia; reflexivity.
  - apply (runs_bind n _ _ (fun _ => os1 0)); [apply runs_bcast_obj; lia|].
    apply (runs_bind n _ _ (fun _ => os2 0)); [apply runs_bcast_obj; lia|].
    apply (runs_bind n _ _ arr).
    { eapply runs_ext; [| |apply (runs_lift n (fun i => Ok (arr i)))]; auto.
      intros i Hi. unfold arr, os1, os2. destruct (i =? 0); reflexivity. }
    apply (runs_bind n _ _ (fun _ => nd_dtype b)); [apply runs_lift|].
    apply RunDone. intros i Hi. unfold bcast_buf. now rewrite Hdb, Hd.
Qed.

(** Rank 0 passes None: it raises, everybody else hangs. *)
Theorem bcast_root0_none env n (sends : nat -> arg) :
  1 <= n -> sends 0 = ArgNone ->
  (forall i, 0 < i < n -> sends i <> ArgOther) ->
  hruns n (fun _ => true) (fun i => Bcast_from_root env i 0 (sends i))
    (fun i => if i =? 0 then Some (Raise AttributeError) else None).
Proof.
  intros Hn H0 Hs. apply HRound.
  set (ps := fun i => Bcast_from_root env i 0 (sends i)).
  assert (E0 : ps 0 = Done (Raise AttributeError)) by (unfold ps, Bcast_from_root; now rewrite H0).
  assert (Ei : forall i, 0 < i < n -> exists k, ps i = Coll (CBcastObj 0 ONone) k).
  { intros i Hi. unfold ps, Bcast_from_root. specialize (Hs i Hi).
    destruct (Nat.eqb_spec i 0); [lia|].
    destruct (sends i); try congruence; simpl; eexists; reflexivity. }
  assert (L0 : looks n (fun _ => true) ps 0 = None).
  { unfold looks. rewrite E0. destruct (0 <? n); reflexivity. }
  assert (R : forall i, 0 < i < n -> respond n i (looks n (fun _ => true) ps) = None).
  { intros i Hi. destruct (Ei i Hi) as (k & E). unfold respond.
    replace (looks n (fun _ => true) ps i) with (Some (CBcastObj 0 ONone))
      by (unfold looks; rewrite E; destruct (Nat.ltb_spec i n); [reflexivity|lia]).
    rewrite L0. destruct (Nat.eqb_spec i 0); [lia|reflexivity]. }
  apply HEnd; intros i Hi Ha; unfold alive_after, progs_after in *;
    destruct (Nat.eqb_spec i 0) as [->|Hi0].
  - rewrite E0. eexists; split; reflexivity.
  - exfalso. destruct (Ei i ltac:(lia)) as (k & E). rewrite E, R in Ha by lia. discriminate.
  - rewrite E0 in Ha. discriminate.
  - reflexivity.
Qed.

(** For any root, on every other rank than 0 the array passed has no influence
    at all on what the rank does. *)
Theorem bcast_send_ignored env rank root (a b : nd) : rank <> 0 ->
  Bcast_from_root env rank root (ArgNd a) = Bcast_from_root env rank root (ArgNd b) /\
  Bcast_from_root env rank root (ArgNd a) = Bcast_from_root env rank root ArgNone.
Proof.
  intro H. unfold Bcast_from_root. apply Nat.eqb_neq in H. simpl. rewrite H. split; reflexivity.
Qed.

(** With a non-zero root, if np.empty(None) raises e, all ranks but 0 raise e
    and rank 0 never gets further. *)
Lemma respond_bcast n root (look : nat -> option call) i o o' :
  look i = Some (CBcastObj root o) -> look root = Some (CBcastObj root o') ->
  respond n i look = Some (RObj o').
Proof.
  intros E1 E2. unfold respond. rewrite E1.
  destruct (Nat.eqb_spec i root) as [->|].
  - rewrite E2 in E1. congruence.
  - rewrite E2, Nat.eqb_refl. reflexivity.
Qed.

Theorem bcast_nonzero_root env n root (sends : nat -> arg) e a0 :
  0 < root < n -> empty_none env = Raise e ->
  sends 0 = ArgNd a0 -> np2mpi (nd_dtype a0) = true ->
  (forall i, 0 < i < n -> sends i <> ArgOther) ->
  hruns n (fun _ => true) (fun i => Bcast_from_root env i root (sends i))
    (fun i => if i =? 0 then None else Some (Raise e)).
Proof.
  intros Hr He H0 Hd Hs.
  set (b := contiguous a0).
  assert (Hdb : nd_dtype b = nd_dtype a0) by (unfold b, contiguous; destruct (nd_shape a0); reflexivity).
  set (os1 := fun i => if i =? 0 then OShape (nd_shape b) else ONone).
  set (os2 := fun i => if i =? 0 then ODtype (nd_dtype b) else ONone).
  eapply hruns_ext with
    (ps := fun i => pbind (bcast_obj root (os1 i)) (fun shape =>
                    pbind (bcast_obj root (os2 i)) (fun d =>
                    pbind (lift (if i =? 0 then Ok b else empty_of_obj env shape d)) (fun c =>
                    pbind (lift (dtype_of_obj d)) (fun d => bcast_buf root c d)))));
    [reflexivity| |reflexivity|].
  - intros i Hi. unfold Bcast_from_root.
    destruct (Nat.eqb_spec i 0) as [->|Hi0].
    + rewrite H0. reflexivity.
    + unfold check_valid_ndarray. specialize (Hs i ltac:(lia)).
      unfold os1, os2. destruct (sends i); try congruence; simpl;
        destruct (Nat.eqb_spec i 0); try lia; reflexivity.
  - assert (Eo1 : os1 root = ONone) by (unfold os1; destruct (Nat.eqb_spec root 0); [lia|reflexivity]).
    assert (Eo2 : os2 root = ONone) by (unfold os2; destruct (Nat.eqb_spec root 0); [lia|reflexivity]).
    apply (runs_hruns_bind n _ _ (fun _ => os1 root)); [apply runs_bcast_obj; lia|].
    apply (runs_hruns_bind n _ _ (fun _ => os2 root)); [apply runs_bcast_obj; lia|].
    rewrite Eo1, Eo2. simpl dtype_of_obj. simpl empty_of_obj. rewrite He.
    (* rank 0 posts a Bcast buffer; the others are done *)
    apply HRound.
    set (ps := fun i => pbind (lift (if i =? 0 then Ok b else Raise e))
                  (fun c => pbind (lift (Ok Float64)) (fun d => bcast_buf root c d))).
    assert (E0 : exists k, ps 0 = Coll (CBcastBuf root b) k) by (eexists; reflexivity).
    assert (Ei : forall i, i <> 0 -> ps i = Done (Raise e)).
    { intros i Hi. unfold ps. destruct (Nat.eqb_spec i 0); [lia|reflexivity]. }
    assert (R : respond n 0 (looks n (fun _ => true) ps) = None).
    { destruct E0 as (k & E). unfold respond.
      replace (looks n (fun _ => true) ps 0) with (Some (CBcastBuf root b))
        by (unfold looks; rewrite E; destruct (Nat.ltb_spec 0 n); [reflexivity|lia]).
      replace (looks n (fun _ => true) ps root) with (@None call)
        by (unfold looks; rewrite Ei by lia; destruct (root <? n); reflexivity).
      destruct (Nat.eqb_spec 0 root); [lia|reflexivity]. }
    apply HEnd; intros i Hi Ha; unfold alive_after, progs_after in *;
      destruct (Nat.eqb_spec i 0) as [->|Hi0].
    + exfalso. destruct E0 as (k & E). rewrite E, R in Ha. discriminate.
    + rewrite Ei by lia. eexists; split; reflexivity.
    + reflexivity.
    + rewrite Ei in Ha by lia. discriminate.
Qed.

(** Old numpy: np.empty(None) is a 0-d double; all other ranks get that array
    filled... nobody gets root's array: root itself returns its own
    uninitialized buffer. *)
Theorem bcast_nonzero_root_old env n root (sends : nat -> arg) z a0 :
  0 < root < n -> empty_none env = Ok z -> nd_dtype z = Float64 ->
  sends 0 = ArgNd a0 ->
  (nd_dtype a0 <> Float64 \/ length (nd_data a0) <> length (nd_data z)) ->
  (forall i, 0 < i < n -> sends i <> ArgOther) ->
  hruns n (fun _ => true) (fun i => Bcast_from_root env i root (sends i))
    (fun i => if i =? 0 then None else Some (Ok z)).
Proof.
  intros Hr He Hz H0 Hd Hs.
  set (b := contiguous a0).
  assert (Hdb : nd_dtype b = nd_dtype a0) by (unfold b, contiguous; destruct (nd_shape a0); reflexivity).
  assert (Hlb : nd_data b = nd_data a0) by (unfold b, contiguous; destruct (nd_shape a0); reflexivity).
  set (os1 := fun i => if i =? 0 then OShape (nd_shape b) else ONone).
  set (os2 := fun i => if i =? 0 then ODtype (nd_dtype b) else ONone).
  eapply hruns_ext with
    (ps := fun i => pbind (bcast_obj root (os1 i)) (fun shape =>
                    pbind (bcast_obj root (os2 i)) (fun d =>
                    pbind (lift (if i =? 0 then Ok b else empty_of_obj env shape d)) (fun c =>
                    pbind (lift (dtype_of_obj d)) (fun d => bcast_buf root c d)))));
    [reflexivity| |reflexivity|].
  - intros i Hi. unfold Bcast_from_root.
    destruct (Nat.eqb_spec i 0) as [->|Hi0].
    + rewrite H0. reflexivity.
    + unfold check_valid_ndarray. specialize (Hs i ltac:(lia)).
      unfold os1, os2. destruct (sends i); try congruence; simpl;
        destruct (Nat.eqb_spec i 0); try lia; reflexivity.
  - assert (Eo1 : os1 root = ONone) by (unfold os1; destruct (Nat.eqb_spec root 0); [lia|reflexivity]).
    assert (Eo2 : os2 root = ONone) by (unfold os2; destruct (Nat.eqb_spec root 0); [lia|reflexivity]).
    apply (runs_hruns_bind n _ _ (fun _ => os1 root)); [apply runs_bcast_obj; lia|].
    apply (runs_hruns_bind n _ _ (fun _ => os2 root)); [apply runs_bcast_obj; lia|].
    rewrite Eo1, Eo2. simpl dtype_of_obj. simpl empty_of_obj. rewrite He.
    apply HRound.
    set (ps := fun i => pbind (lift (if i =? 0 then Ok b else Ok z))
                  (fun c => pbind (lift (Ok Float64)) (fun d => bcast_buf root c d))).
    set (kk := fun r => match r with RNd b => Done (Ok b) | _ => Done (Raise OtherError) end : proc nd).
    assert (E0 : ps 0 = Coll (CBcastBuf root b) kk) by reflexivity.
    assert (Ei : forall i, i <> 0 -> ps i = Coll (CBcastBuf root z) kk).
    { intros i Hi. unfold ps. destruct (Nat.eqb_spec i 0); [lia|reflexivity]. }
    assert (Lr : looks n (fun _ => true) ps root = Some (CBcastBuf root z)).
    { unfold looks. rewrite Ei by lia. destruct (Nat.ltb_spec root n); [reflexivity|lia]. }
    assert (R0 : respond n 0 (looks n (fun _ => true) ps) = None).
    { unfold respond.
      replace (looks n (fun _ => true) ps 0) with (Some (CBcastBuf root b))
        by (unfold looks; rewrite E0; destruct (Nat.ltb_spec 0 n); [reflexivity|lia]).
      rewrite Lr. destruct (Nat.eqb_spec 0 root); [lia|]. rewrite Nat.eqb_refl. simpl.
      rewrite Hdb, Hz, Hlb. destruct (dtype_eqb (nd_dtype a0) Float64) eqn:Ed; auto.
      apply dtype_eqb_eq in Ed. destruct Hd as [Hd|Hd]; [contradiction|].
      apply Nat.eqb_neq in Hd. now rewrite Hd. }
    assert (Ri : forall i, 0 < i < n -> respond n i (looks n (fun _ => true) ps) = Some (RNd z)).
    { intros i Hi. unfold respond.
      replace (looks n (fun _ => true) ps i) with (Some (CBcastBuf root z))
        by (unfold looks; rewrite Ei by lia; destruct (Nat.ltb_spec i n); [reflexivity|lia]).
      rewrite Lr. destruct (i =? root); auto. rewrite !Nat.eqb_refl, dtype_eqb_refl. simpl.
      destruct z; reflexivity. }
    apply HEnd; intros i Hi Ha; unfold alive_after, progs_after in *;
      destruct (Nat.eqb_spec i 0) as [->|Hi0].
    + exfalso. rewrite E0, R0 in Ha. discriminate.
    + rewrite Ei, Ri by lia. exists (Ok z). split; reflexivity.
    + reflexivity.
    + rewrite Ei, Ri in Ha by lia. discriminate.
Qed.

(** * Gatherv_rows *)

Lemma all_some_map {A B} (f : A -> B) (l : list A) :
  all_some (map (fun x => Some (f x)) l) = Some (map f l).
Proof. induction l as [|x l IH]; simpl; auto. now rewrite IH. Qed.

Lemma collect_all {A} n (cs : nat -> call) (f : call -> option A) (g : nat -> A) :
  (forall i, i < n -> f (cs i) = Some (g i)) ->
  collect n (fun j => if j <? n then Some (cs j) else None) f = Some (map g (seq 0 n)).
Proof.
  intro H. unfold collect. rewrite <- all_some_map. f_equal. apply map_ext_in.
  intros j Hj. apply in_seq in Hj. rewrite if_lt by lia. simpl. now rewrite H by lia.
Qed.

Lemma runs_gather n root (os : nat -> obj) {A} (k : nat -> resp -> proc A) o : root < n ->
  runs n (fun i => k i (if i =? root then RObjs (map os (seq 0 n)) else RNothing)) o ->
  runs n (fun i => Coll (CGather root (os i)) (k i)) o.
Proof.
  intros Hr H.
  apply RunColl with (fun i => CGather root (os i)) k
    (fun i => if i =? root then RObjs (map os (seq 0 n)) else RNothing); auto.
  intros i Hi. unfold respond. rewrite if_lt by assumption.
  rewrite (collect_all n (fun i => CGather root (os i)) (the_gather root) os).
  - destruct (i =? root); reflexivity.
  - intros. simpl. now rewrite Nat.eqb_refl.
Qed.

Lemma runs_reduce n root (ms : nat -> nat) {A} (k : nat -> resp -> proc A) o : root < n ->
  runs n (fun i => k i (if i =? root then RInt (fold_right Nat.add 0 (map ms (seq 0 n))) else RNothing)) o ->
  runs n (fun i => Coll (CReduceSum root (ms i)) (k i)) o.
Proof.
  intros Hr H.
  apply RunColl with (fun i => CReduceSum root (ms i)) k
    (fun i => if i =? root then RInt (fold_right Nat.add 0 (map ms (seq 0 n))) else RNothing); auto.
  intros i Hi. unfold respond. rewrite if_lt by assumption.
  rewrite (collect_all n (fun i => CReduceSum root (ms i)) (the_reduce root) ms).
  - destruct (i =? root); reflexivity.
  - intros. simpl. now rewrite Nat.eqb_refl.
Qed.

Definition sum (l : list nat) : nat := fold_right Nat.add 0 l.

Lemma place_concat d (sends : list nd) : forall pre buf,
  (forall s, In s sends -> nd_dtype s = d) ->
  length buf = sum (map (fun s => length (nd_data s)) sends) ->
  place d (pre ++ buf) sends (map (fun s => length (nd_data s)) sends)
    (offsets (length pre) (map (fun s => length (nd_data s)) sends))
  = Some (pre ++ concat (map nd_data sends)).
Proof.
  induction sends as [|s sends IH]; simpl; intros pre buf Hd Hl.
  - destruct buf; [reflexivity|discriminate].
  - rewrite Nat.eqb_refl. rewrite Hd by auto. rewrite dtype_eqb_refl. simpl.
    unfold overwrite. rewrite app_length.
    replace (length pre + length (nd_data s) <=? length pre + length buf) with true
      by (symmetry; apply Nat.leb_le; lia).
    simpl. rewrite firstn_app, Nat.sub_diag, firstn_O, app_nil_r, firstn_all.
    rewrite skipn_app.
    rewrite (skipn_all2 pre) by lia. simpl.
    replace (length pre + length (nd_data s) - length pre) with (length (nd_data s)) by lia.
    rewrite app_assoc. rewrite <- app_length.
    rewrite IH.
    + now rewrite <- app_assoc.
    + intros. apply Hd. auto.
    + rewrite skipn_length. lia.
Qed.

Lemma sum_map_mul (f : nat -> nat) p l : sum (map (fun i => f i * p) l) = sum (map f l) * p.
Proof. unfold sum. induction l as [|x l IH]; simpl; auto. rewrite IH. lia. Qed.

Definition gather_result (n : nat) (rest : list nat) (rows : nat -> nat) (a : nat -> nd) : nd :=
  mkNd (sum (map rows (seq 0 n)) :: rest) (nd_dtype (a 0))
       (concat (map (fun i => nd_data (a i)) (seq 0 n))).

Theorem gatherv_root0_runs env n (a : nat -> nd) rest (rows : nat -> nat) :
  1 <= n ->
  (forall i, i < n -> nd_shape (a i) = rows i :: rest) ->
  (forall i, i < n -> wf_nd (a i)) ->
  (forall i, i < n -> nd_dtype (a i) = nd_dtype (a 0)) ->
  np2mpi (nd_dtype (a 0)) = true ->
  runs n (fun i => Gatherv_rows env i 0 (ArgNd (a i)))
    (fun i => Ok (if i =? 0 then Some (gather_result n rest rows a) else None)).
Proof.
  intros Hn Hs Hw Hd Hm.
  eapply runs_ext with
    (ps := fun i =>
       Coll (CGather 0 (OInt (rows i))) (fun rs =>
       Coll (CReduceSum 0 (rows i)) (fun rt =>
          let recv :=
            if i =? 0 then
              let rank_sizes := match rs with RObjs l => map obj_int l | _ => [] end in
              let tot := match rt with RInt t => t | _ => 0 end in
              let sizes := map (fun s => s * prod rest) rank_sizes in
              Some (np_empty env (tot :: rest) (nd_dtype (a 0)), sizes, offsets 0 sizes)
            else None in
            Coll (CGatherv 0 (a i) recv) (fun r =>
              match r with
              | RNd filled => Done (Ok (Some filled))
              | _ => Done (Ok (match recv with
                               | Some (rec, _, _) => Some rec
                               | None => None end))
              end)))); [|reflexivity|].
  - intros i Hi. unfold Gatherv_rows, check_valid_ndarray, contiguous.
    rewrite (Hs i Hi), (Hs i Hi). rewrite (Hd i Hi), Hm. reflexivity.
  - apply (runs_gather n 0 (fun i => OInt (rows i))); [lia|].
    apply (runs_reduce n 0 rows); [lia|].
    set (tot := sum (map rows (seq 0 n))).
    set (sizes := map (fun i => rows i * prod rest) (seq 0 n)).
    set (recv := fun i => if i =? 0
           then Some (np_empty env (tot :: rest) (nd_dtype (a 0)), sizes, offsets 0 sizes)
           else None).
    apply RunColl with (fun i => CGatherv 0 (a i) (recv i))
      (fun i r => match r with
              | RNd filled => Done (Ok (Some filled))
              | _ => Done (Ok (match recv i with
                               | Some (rec, _, _) => Some rec
                               | None => None end))
              end)
      (fun i => if i =? 0 then RNd (gather_result n rest rows a) else RNothing).
    + intros i Hi. destruct (Nat.eqb_spec i 0) as [->|Hi0]; unfold recv.
      * simpl. rewrite !map_map. reflexivity.
      * destruct (Nat.eqb_spec i 0); [lia|]. reflexivity.
    + intros i Hi. unfold respond. rewrite if_lt by assumption.
      rewrite (collect_all n (fun i => CGatherv 0 (a i) (recv i)) (the_gatherv 0) a)
        by reflexivity.
      destruct (Nat.eqb_spec i 0) as [->|]; auto.
      unfold recv. simpl (0 =? 0). cbv iota.
      assert (Esz : sizes = map (fun s => length (nd_data s)) (map a (seq 0 n))).
      { unfold sizes. rewrite map_map. apply map_ext_in. intros j Hj. apply in_seq in Hj.
        rewrite (Hw j) by lia. rewrite Hs by lia. reflexivity. }
      rewrite Esz.
      pose proof (place_concat (nd_dtype (a 0)) (map a (seq 0 n)) []
                   (nd_data (np_empty env (tot :: rest) (nd_dtype (a 0))))) as Hp.
      change (nd_dtype (np_empty env (tot :: rest) (nd_dtype (a 0)))) with (nd_dtype (a 0)).
      rewrite !app_nil_l in Hp. change (length (@nil scalar)) with 0 in Hp. rewrite Hp.
      * unfold gather_result. rewrite map_map. reflexivity.
      * intros s Hin. apply in_map_iff in Hin. destruct Hin as (j & <- & Hj).
        apply in_seq in Hj. apply Hd. lia.
      * rewrite <- Esz. unfold sizes. rewrite sum_map_mul, np_empty_length. reflexivity.
    + apply RunDone. intros i Hi. unfold recv. destruct (i =? 0); reflexivity.
Qed.

(** Non-zero root: the last Gatherv still goes to rank 0, which has no buffer. *)
Theorem gatherv_nonzero_root env n root (a : nat -> nd) rest (rows : nat -> nat) :
  0 < root < n ->
  (forall i, i < n -> nd_shape (a i) = rows i :: rest) ->
  (forall i, i < n -> nd_dtype (a i) = nd_dtype (a 0)) ->
  np2mpi (nd_dtype (a 0)) = true ->
  (exists i, i < n /\ nd_data (a i) <> []) ->
  hruns n (fun _ => true) (fun i => Gatherv_rows env i root (ArgNd (a i)))
    (fun i => if i =? 0 then None
              else Some (Ok (if i =? root
                             then Some (np_empty env (sum (map rows (seq 0 n)) :: rest) (nd_dtype (a 0)))
                             else None))).
Proof.
  intros Hr Hs Hd Hm (w & Hw & Hne).
  assert (Hpair : runs n (fun i =>
       Coll (CGather root (OInt (rows i))) (fun rs =>
       Coll (CReduceSum root (rows i)) (fun rt => Done (Ok (rs, rt)))))
       (fun i => Ok ((if i =? root then RObjs (map (fun i => OInt (rows i)) (seq 0 n)) else RNothing),
                     (if i =? root then RInt (sum (map rows (seq 0 n))) else RNothing)))).
  { apply (runs_gather n root (fun i => OInt (rows i))); [lia|].
    apply (runs_reduce n root rows); [lia|]. apply RunDone. reflexivity. }
  set (tl := fun (i : nat) (rr : resp * resp) =>
          let recv :=
            if i =? root then
              let rank_sizes := match fst rr with RObjs l => map obj_int l | _ => [] end in
              let tot := match snd rr with RInt t => t | _ => 0 end in
              let sizes := map (fun s => s * prod rest) rank_sizes in
              Some (np_empty env (tot :: rest) (nd_dtype (a 0)), sizes, offsets 0 sizes)
            else None in
            Coll (CGatherv 0 (a i) recv) (fun r =>
              match r with
              | RNd filled => Done (Ok (Some filled))
              | _ => Done (Ok (match recv with
                               | Some (rec, _, _) => Some rec
                               | None => None end))
              end)).
  eapply hruns_ext; [reflexivity| |reflexivity|].
  2: { apply (runs_hruns_bind n _ tl _ _ Hpair).
    apply HRound.
    set (ps := fun i => tl i ((if i =? root then RObjs (map (fun i => OInt (rows i)) (seq 0 n)) else RNothing),
                     (if i =? root then RInt (sum (map rows (seq 0 n))) else RNothing))).
    assert (Ep : forall i, exists rv k, ps i = Coll (CGatherv 0 (a i) rv) k /\ (i = 0 -> rv = None)).
    { intro i. unfold ps, tl. eexists. eexists. split; [reflexivity|]. intros ->.
      destruct (Nat.eqb_spec 0 root); [lia|reflexivity]. }
    assert (R0 : respond n 0 (looks n (fun _ => true) ps) = None).
    { unfold respond. destruct (Ep 0) as (rv & k & E & Erv). specialize (Erv eq_refl). subst rv.
      replace (looks n (fun _ => true) ps 0) with (Some (CGatherv 0 (a 0) None))
        by (unfold looks; rewrite E; destruct (Nat.ltb_spec 0 n); [reflexivity|lia]).
      simpl (0 =? 0). cbv iota.
      replace (collect n (looks n (fun _ => true) ps) (the_gatherv 0)) with (Some (map a (seq 0 n))).
      - replace (forallb (fun s => length (nd_data s) =? 0) (map a (seq 0 n))) with false; auto.
        symmetry. apply not_true_iff_false. intro F. rewrite forallb_forall in F.
        specialize (F (a w)). rewrite Nat.eqb_eq in F. apply Hne.
        apply length_zero_iff_nil. apply F. apply in_map. apply in_seq. lia.
      - symmetry. unfold collect. rewrite <- all_some_map. f_equal. apply map_ext_in.
        intros j Hj. apply in_seq in Hj. unfold looks.
        destruct (Ep j) as (rv & k' & E' & _). rewrite E'.
        destruct (Nat.ltb_spec j n); [|lia]. reflexivity. }
    assert (Ri : forall i, 0 < i < n -> respond n i (looks n (fun _ => true) ps) = Some RNothing).
    { intros i Hi. unfold respond. destruct (Ep i) as (rv & k & E & _).
      replace (looks n (fun _ => true) ps i) with (Some (CGatherv 0 (a i) rv))
        by (unfold looks; rewrite E; destruct (Nat.ltb_spec i n); [reflexivity|lia]).
      destruct (Nat.eqb_spec i 0); [lia|reflexivity]. }
    apply HEnd; intros i Hi Ha; unfold alive_after, progs_after in *.
    - destruct (Nat.eqb_spec i 0) as [->|Hi0].
      + exfalso. destruct (Ep 0) as (rv & k & E & _). rewrite E, R0 in Ha. discriminate.
      + rewrite Ri by lia. unfold ps, tl. eexists. split; [reflexivity|].
        simpl. destruct (i =? root); reflexivity.
    - destruct (Nat.eqb_spec i 0) as [->|Hi0]; auto.
      destruct (Ep i) as (rv & k & E & _). rewrite E, Ri in Ha by lia. discriminate. }
  intros i Hi. unfold tl, Gatherv_rows, check_valid_ndarray, contiguous.
  rewrite (Hs i Hi), (Hs i Hi), (Hd i Hi), Hm. reflexivity.
Qed.

(** * load_data_MPI *)

Theorem load_data_runs env n root X y :
  root < n -> wf_nd X -> wf_nd y ->
  np2mpi (nd_dtype X) = true -> np2mpi (nd_dtype y) = true ->
  runs n (fun i => load_data_MPI env (Ok (X, y)) i root) (fun _ => Ok (X, y)).
Proof.
  intros Hr HwX Hwy HdX Hdy. unfold load_data_MPI.
  apply (runs_bind n _ _ (fun i => if i =? root then Some (X, y) else None)).
  { apply RunDone. intros i Hi. destruct (i =? root); reflexivity. }
  apply (runs_bind n _ _ (fun _ => OShape (nd_shape X))).
  { eapply runs_ext; [reflexivity| |apply (runs_bcast_obj n root); assumption].
    intros; simpl; now rewrite Nat.eqb_refl. }
  apply (runs_bind n _ _ (fun _ => ODtype (nd_dtype X))).
  { eapply runs_ext; [reflexivity| |apply (runs_bcast_obj n root); assumption].
    intros; simpl; now rewrite Nat.eqb_refl. }
  apply (runs_bind n _ _ (fun _ => OShape (nd_shape y))).
  { eapply runs_ext; [reflexivity| |apply (runs_bcast_obj n root); assumption].
    intros; simpl; now rewrite Nat.eqb_refl. }
  apply (runs_bind n _ _ (fun _ => ODtype (nd_dtype y))).
  { eapply runs_ext; [reflexivity| |apply (runs_bcast_obj n root); assumption].
    intros; simpl; now rewrite Nat.eqb_refl. }
  set (aX := fun i => if i =? root then X else np_empty env (nd_shape X) (nd_dtype X)).
  set (ay := fun i => if i =? root then y else np_empty env (nd_shape y) (nd_dtype y)).
  apply (runs_bind n _ _ aX).
  { apply RunDone. intros i Hi. unfold aX. destruct (i =? root); reflexivity. }
  apply (runs_bind n _ _ ay).
  { apply RunDone. intros i Hi. unfold ay. destruct (i =? root); reflexivity. }
  assert (EX : aX root = X) by (unfold aX; now rewrite Nat.eqb_refl).
  assert (Ey : ay root = y) by (unfold ay; now rewrite Nat.eqb_refl).
  apply (runs_bind n _ _ (fun _ => X)).
  { eapply runs_ext; [reflexivity| |apply (runs_bcast_buf n root aX (fun i => nd_dtype (aX i))); auto].
    - intros. now rewrite EX.
    - intros i Hi. unfold aX. destruct (i =? root); assumption.
    - intros i Hi. rewrite EX. unfold aX. destruct (i =? root); auto.
      rewrite np_empty_length. repeat split. symmetry. exact HwX. }
  apply (runs_bind n _ _ (fun _ => y)).
  { eapply runs_ext; [reflexivity| |apply (runs_bcast_buf n root ay (fun i => nd_dtype (ay i))); auto].
    - intros. now rewrite Ey.
    - intros i Hi. unfold ay. destruct (i =? root); assumption.
    - intros i Hi. rewrite Ey. unfold ay. destruct (i =? root); auto.
      rewrite np_empty_length. repeat split. symmetry. exact Hwy. }
  apply RunDone. reflexivity.
Qed.

Theorem load_data_fails env n root e :
  root < n ->
  hruns n (fun _ => true) (fun i => load_data_MPI env (Raise e) i root)
    (fun i => if i =? root then Some (Raise e) else None).
Proof.
  intro Hr. apply HRound.
  set (ps := fun i => load_data_MPI env (Raise e) i root).
  assert (E0 : ps root = Done (Raise e)) by (unfold ps, load_data_MPI; rewrite Nat.eqb_refl; reflexivity).
  assert (Ei : forall i, i <> root -> exists k, ps i = Coll (CBcastObj root ONone) k).
  { intros i Hi. unfold ps, load_data_MPI. apply Nat.eqb_neq in Hi. rewrite Hi. simpl.
    eexists. reflexivity. }
  assert (L0 : looks n (fun _ => true) ps root = None).
  { unfold looks. rewrite E0. destruct (root <? n); reflexivity. }
  assert (R : forall i, i <> root -> i < n -> respond n i (looks n (fun _ => true) ps) = None).
  { intros i Hi Hin. destruct (Ei i Hi) as (k & E). unfold respond.
    replace (looks n (fun _ => true) ps i) with (Some (CBcastObj root ONone))
      by (unfold looks; rewrite E; destruct (Nat.ltb_spec i n); [reflexivity|lia]).
    rewrite L0. destruct (Nat.eqb_spec i root); [lia|reflexivity]. }
  apply HEnd; intros i Hi Ha; unfold alive_after, progs_after in *;
    destruct (Nat.eqb_spec i root) as [->|Hi0].
  - rewrite E0. eexists; split; reflexivity.
  - exfalso. destruct (Ei i Hi0) as (k & E). rewrite E, R in Ha by assumption. discriminate.
  - rewrite E0 in Ha. discriminate.
  - reflexivity.
Qed.

Theorem bcast_root0_ends env n (sends : nat -> arg) a :
  1 <= n -> sends 0 = ArgNd a -> wf_nd a -> np2mpi (nd_dtype a) = true ->
  (forall i, 0 < i < n -> sends i <> ArgOther) ->
  nd_shape a <> [] ->
  every_execution_ends n (fun i => Bcast_from_root env i 0 (sends i)) (fun _ => Ok a).
Proof.
  intros H1 H2 H3 H4 H5 H6. apply runs_async.
  assert (E : contiguous a = a).
  { unfold contiguous. destruct (nd_shape a) eqn:E; [congruence|reflexivity]. }
  rewrite <- E. now apply bcast_root0_runs.
Qed.

Theorem root_array_ignored env root (sends : nat -> arg) a b :
  root <> 0 ->
  forall i, Bcast_from_root env i root (if i =? root then ArgNd a else sends i)
          = Bcast_from_root env i root (if i =? root then ArgNd b else sends i).
Proof.
  intros H i. destruct (Nat.eqb_spec i root) as [->|]; auto.
  exact (proj1 (bcast_send_ignored env root root a b H)).
Qed.

(** C75: an argument that is not an array never starts a communication. *)
Lemma bcast_not_array env rank root : Bcast_from_root env rank root ArgOther = Done (Raise ValueError).
Proof. reflexivity. Qed.
Lemma gatherv_not_array env rank root :
  Gatherv_rows env rank root ArgOther = Done (Raise ValueError) /\
  Gatherv_rows env rank root ArgNone = Done (Raise AttributeError).
Proof. split; reflexivity. Qed.
