(** Property theorems C114 (more selection bootstraps). *)
From Coq Require Import ZArith List Bool Arith Lia.
From Verif Require Import Prelude F64 Model_Intersection Model_Thresholds Model_Mpi Model_Fit Spec_Intersection Spec_Mpi Spec_Fit Spec_Boots
  Proofs_FitFind Proofs_Boots.
Import ListNotations.

(** C114.  stability_selection=1.0, the same data and the same seed: every candidate support with
    more selection bootstraps lies inside one with fewer, and every one with fewer contains one
    with more. *)
Theorem C114_all : forall S E Rng env d1 d2 (sol : solver S E) (draw : bool -> Rng -> result (split * Rng)) post1 post2 Inv G n1 n2
    (R1 R2 : nat -> Rng) s1 s2 F1 F2 rows1 rows2,
  more_boots d1 d2 -> shapes_ok d1 sol -> shapes_ok d2 sol -> preserved sol Inv -> from_reset d1 sol Inv G ->
  1 <= n1 <= n_boots_sel d1 -> 1 <= n2 <= n_boots_sel d2 -> (forall i, Inv (s1 i)) -> (forall i, Inv (s2 i)) -> R1 0 = R2 0 ->
  returned env d1 (fun _ => sol) draw post1 n1 false R1 s1 F1 -> returned env d2 (fun _ => sol) draw post2 n2 false R2 s2 F2 ->
  asks (PyFloat fone) d1 -> asks (PyFloat fone) d2 -> has_supports F1 rows1 -> has_supports F2 rows2 ->
  (forall m2, In m2 rows2 -> exists m1, In m1 rows1 /\ within m2 m1) /\ (forall m1, In m1 rows1 -> exists m2, In m2 rows2 /\ within m2 m1).
Proof.
  intros S E Rng env d1 d2 sol draw post1 post2 Inv G n1 n2 R1 R2 s1 s2 F1 F2 rows1 rows2 M H1 H2 H3 H4 H5 H6 H7 H8 H9 H10 H11 A1 A2.
  pose proof M as (_ & _ & _ & _ & _ & _ & B1 & B2).
  pose proof (asks_all d1 B1 A1) as C1. pose proof (asks_all d2 ltac:(lia) A2) as C2.
  apply (shrink env d1 d2 sol draw post1 post2 Inv G n1 n2 R1 R2 s1 s2 F1 F2 M H1 H2 H3 H4 H5 H6 H7 H8 H9); auto; unfold all_bootstraps in *; [rewrite C1|rewrite C2]; discriminate.
Qed.
Print Assumptions C114_all.

(** A feature that no candidate support contains is never selected with more bootstraps: its
    coefficient is zero. *)
Theorem C114_never_again : forall S E Rng env d1 d2 (sol : solver S E) (draw : bool -> Rng -> result (split * Rng)) post1 post2 Inv G n1 n2
    (R1 R2 : nat -> Rng) s1 s2 F1 F2 rows1 k,
  more_boots d1 d2 -> shapes_ok d1 sol -> shapes_ok d2 sol -> preserved sol Inv -> from_reset d1 sol Inv G ->
  1 <= n1 <= n_boots_sel d1 -> 1 <= n2 <= n_boots_sel d2 -> (forall i, Inv (s1 i)) -> (forall i, Inv (s2 i)) -> R1 0 = R2 0 ->
  returned env d1 (fun _ => sol) draw post1 n1 false R1 s1 F1 -> returned env d2 (fun _ => sol) draw post2 n2 false R2 s2 F2 ->
  asks (PyFloat fone) d1 -> asks (PyFloat fone) d2 ->
  keeps_zeros post2 -> (shared d2 = true \/ respects_mask d2 sol) -> 1 <= n_boots_est d2 ->
  has_supports F1 rows1 -> k < n_feat d1 -> (forall m, In m rows1 -> nth k m false = false) ->
  nonzero64 (num (nth k (nd_data (f_coef F2)) (SFlt fzero))) = false.
Proof.
  intros S E Rng env d1 d2 sol draw post1 post2 Inv G n1 n2 R1 R2 s1 s2 F1 F2 rows1 k M H1 H2 H3 H4 H5 H6 H7 H8 H9 H10 H11 A1 A2.
  pose proof M as (_ & _ & _ & _ & _ & _ & B1 & B2).
  pose proof (asks_all d1 B1 A1) as C1. pose proof (asks_all d2 ltac:(lia) A2) as C2.
  apply (never_again env d1 d2 sol draw post1 post2 Inv G n1 n2 R1 R2 s1 s2 F1 F2 M H1 H2 H3 H4 H5 H6 H7 H8 H9); auto; unfold all_bootstraps in *; [rewrite C1|rewrite C2]; discriminate.
Qed.
Print Assumptions C114_never_again.

(** stability_selection given as numbers of bootstraps: the candidate supports can only grow. *)
Theorem C114_counts : forall S E Rng env d1 d2 (sol : solver S E) (draw : bool -> Rng -> result (split * Rng)) post1 post2 Inv G n1 n2
    (R1 R2 : nat -> Rng) s1 s2 F1 F2 rows1 rows2 ss,
  more_boots d1 d2 -> shapes_ok d1 sol -> shapes_ok d2 sol -> preserved sol Inv -> from_reset d1 sol Inv G ->
  1 <= n1 <= n_boots_sel d1 -> 1 <= n2 <= n_boots_sel d2 -> (forall i, Inv (s1 i)) -> (forall i, Inv (s2 i)) -> R1 0 = R2 0 ->
  returned env d1 (fun _ => sol) draw post1 n1 false R1 s1 F1 -> returned env d2 (fun _ => sol) draw post2 n2 false R2 s2 F2 ->
  counts ss -> asks ss d1 -> asks ss d2 -> has_supports F1 rows1 -> has_supports F2 rows2 ->
  (forall m1, In m1 rows1 -> exists m2, In m2 rows2 /\ within m1 m2) /\ (forall m2, In m2 rows2 -> exists m1, In m1 rows1 /\ within m1 m2).
Proof.
  intros S E Rng env d1 d2 sol draw post1 post2 Inv G n1 n2 R1 R2 s1 s2 F1 F2 rows1 rows2 ss M H1 H2 H3 H4 H5 H6 H7 H8 H9 H10 H11 Ct A1 A2.
  destruct (asks_counts ss d1 d2 Ct A1 A2) as [T N].
  apply (grow env d1 d2 sol draw post1 post2 Inv G n1 n2 R1 R2 s1 s2 F1 F2 M H1 H2 H3 H4 H5 H6 H7 H8 H9); auto; now rewrite <- T.
Qed.
Print Assumptions C114_counts.

(** Neither holds for a proportion (finding): with stability_selection=0.5 the supports of two
    bootstraps and of four can be disjoint. *)
Theorem C114_half_refuted :
  ~ (forall (S E Rng : Type) env d1 d2 (sol : solver S E) (draw : bool -> Rng -> result (split * Rng)) post Inv G
      (R : nat -> Rng) s F1 F2 rows1 rows2,
    more_boots d1 d2 -> shapes_ok d1 sol -> shapes_ok d2 sol -> preserved sol Inv -> from_reset d1 sol Inv G ->
    (forall i, Inv (s i)) ->
    returned env d1 (fun _ => sol) draw post 1 false R s F1 -> returned env d2 (fun _ => sol) draw post 1 false R s F2 ->
    asks (PyFloat (fdiv fone (f64_of_Z 2))) d1 -> asks (PyFloat (fdiv fone (f64_of_Z 2))) d2 ->
    has_supports F1 rows1 -> has_supports F2 rows2 ->
    (forall m1, In m1 rows1 -> exists m2, In m2 rows2 /\ within m1 m2) \/ (forall m1, In m1 rows1 -> exists m2, In m2 rows2 /\ within m2 m1)).
Proof.
  intro H.
  specialize (H unit (list f64) nat ex_np (bt_dims 2 [1%Z]) (bt_dims 4 [2%Z]) (row_solver sw_row) ex_draw ex_post (fun _ => True)
    (fun tr => Ok (map (fun r => sw_row r tr) (seq 0 2))) (fun _ => 0) (fun _ => tt) (bt_fit sw_row 2 [1%Z]) (bt_fit sw_row 4 [2%Z]) [[false; true]] [[true; false]]).
  destruct H as [H|H].
  - unfold more_boots. cbn. repeat split; lia.
  - apply row_shapes; reflexivity.
  - apply row_shapes; reflexivity.
  - apply row_preserved.
  - apply row_reset.
  - auto.
  - apply serial_returned. vm_compute. reflexivity.
  - apply serial_returned. vm_compute. reflexivity.
  - split; vm_compute; [discriminate|reflexivity].
  - split; vm_compute; [discriminate|reflexivity].
  - eexists _, _. split; vm_compute; reflexivity.
  - eexists _, _. split; vm_compute; reflexivity.
  - destruct (H _ (or_introl eq_refl)) as (m2 & [<-|[]] & W). specialize (W 1 eq_refl). discriminate.
  - destruct (H _ (or_introl eq_refl)) as (m2 & [<-|[]] & W). specialize (W 0 eq_refl). discriminate.
Qed.
Print Assumptions C114_half_refuted.

(** Two and four bootstraps with stability_selection=1.0: the parameter 1 selects the first
    feature only; with four bootstraps the parameter 0 selects nothing. *)
Example C114_ex : more_boots (bt_dims 2 [2%Z]) (bt_dims 4 [4%Z]) /\
  asks (PyFloat fone) (bt_dims 2 [2%Z]) /\ asks (PyFloat fone) (bt_dims 4 [4%Z]) /\
  returned ex_np (bt_dims 2 [2%Z]) (fun _ => row_solver bt_row) ex_draw ex_post 1 false (fun _ => 0) (fun _ => tt) (bt_fit bt_row 2 [2%Z]) /\
  returned ex_np (bt_dims 4 [4%Z]) (fun _ => row_solver bt_row) ex_draw ex_post 1 false (fun _ => 0) (fun _ => tt) (bt_fit bt_row 4 [4%Z]) /\
  supports_of (bt_fit bt_row 2 [2%Z]) = [[true; false]] /\ supports_of (bt_fit bt_row 4 [4%Z]) = [[false; false]; [true; false]].
Proof.
  split; [unfold more_boots; cbn; repeat split; lia|].
  split; [split; vm_compute; [discriminate|reflexivity]|]. split; [split; vm_compute; [discriminate|reflexivity]|].
  split; [apply serial_returned; vm_compute; reflexivity|]. split; [apply serial_returned; vm_compute; reflexivity|].
  split; vm_compute; reflexivity.
Qed.
(** stability_selection=2 for two and for four bootstraps: the second feature joins. *)
Example C114_ex_counts : counts (Model_Thresholds.PyInt 2) /\ asks (Model_Thresholds.PyInt 2) (bt_dims 2 [2%Z]) /\ asks (Model_Thresholds.PyInt 2) (bt_dims 4 [2%Z]) /\
  returned ex_np (bt_dims 4 [2%Z]) (fun _ => row_solver bt_row) ex_draw ex_post 1 false (fun _ => 0) (fun _ => tt) (bt_fit bt_row 4 [2%Z]) /\
  supports_of (bt_fit bt_row 4 [2%Z]) = [[true; false]; [true; true]].
Proof.
  split; [constructor|]. split; [split; vm_compute; [discriminate|reflexivity]|]. split; [split; vm_compute; [discriminate|reflexivity]|].
  split; [apply serial_returned; vm_compute; reflexivity|vm_compute; reflexivity].
Qed.
