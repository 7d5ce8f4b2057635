(** Property theorems C115 (bootstraps that do not contain every class). *)
From Coq Require Import ZArith List Bool Arith Lia Permutation.
From Verif Require Import Prelude F64 Model_Intersection Model_Mpi Model_Fit Model_Labels Model_Classes Spec_Mpi Spec_Fit Spec_Labels
  Spec_Classes Proofs_FitFind Proofs_Classes Proofs_Classes2.
Import ListNotations.

(** C115.  If UoI_L1Logistic.fit returns, every class occurs in the training part of every
    selection bootstrap: a bootstrap that lacks a class makes it raise. *)
Theorem C115_selection : forall S E Rng env d search search_est multinomial y (base : nat -> solver S E)
    (draw : bool -> Rng -> result (split * Rng)) post n R s0 F,
  let sol i := logistic_solver (search i) (search_est i) multinomial d y (base i) in
  1 <= n_boots_sel d -> out_dim d = output_dim multinomial (length (uoi_classes y)) -> 1 <= n_reg d ->
  (forall i c a, fit_int (base i) c = Ok a -> wf_nd a /\ np2mpi (nd_dtype a) = true /\ nd_shape a <> []) ->
  (forall i, right_number (search i)) -> valid_rows draw (length y) -> 2 <= n_feat d ->
  returned env d sol draw post n false R s0 F ->
  exists sps r1, drawn draw true (R 0) sps r1 /\ length sps = n_boots_sel d /\
    forall b, b < n_boots_sel d -> sees_all y (fst (nth b sps ([], []))).
Proof.
  intros S E Rng env d search search_est multinomial y base draw post n R s0 F sol H1 H2 H3 H4 H5 H6.
  exact (selection_sees_all env d search search_est multinomial y base draw post H1 H2 H3 H4 H5 H6 n R s0 F).
Qed.
Print Assumptions C115_selection.

(** The estimation bootstraps, too, with one exception (finding): two of three or more classes
    in the training part and a support of one feature.  Then the coefficient that separates
    these two classes is stored for all classes alike. *)
Theorem C115_estimation : forall S E Rng env d search search_est multinomial y (base : nat -> solver S E)
    (draw : bool -> Rng -> result (split * Rng)) post n R s0 F,
  let sol i := logistic_solver (search i) (search_est i) multinomial d y (base i) in
  1 <= n_boots_sel d -> out_dim d = output_dim multinomial (length (uoi_classes y)) ->
  (forall i c a, fit_int (base i) c = Ok a -> wf_nd a /\ np2mpi (nd_dtype a) = true /\ nd_shape a <> []) ->
  (forall i, right_number (search i)) -> (forall i, right_number_est (search_est i) (est_coef (base i))) -> valid_rows draw (length y) ->
  2 <= length (thresholds d) * n_reg d -> 2 <= n_coef d ->
  returned env d sol draw post n false R s0 F ->
  exists sel p rows sps r1 sps2 r2,
    f_sel F = Some sel /\ s_supports sel = Arr2 p rows /\ drawn draw true (R 0) sps r1 /\ length sps = n_boots_sel d /\ drawn draw false r1 sps2 r2 /\
    forall b j, b < n_boots_est d -> j < length rows -> (exists k, nth k (nth j rows []) false = true) ->
      sees_all y (fst (nth b sps2 ([], []))) \/
      (multinomial = false /\ 3 <= length (uoi_classes y) /\ sees_two y (fst (nth b sps2 ([], []))) /\
       (if shared d then Prelude.count (fun b => b) (nth j rows []) = 1 else n_feat d = 1) /\
       exists v, forall k, k < n_coef d ->
         at3 (s_estimates sel) b j k = if (if shared d then nth (k mod n_feat d) (nth j rows []) false else true) then v else fzero).
Proof.
  intros S E Rng env d search search_est multinomial y base draw post n R s0 F sol H1 H2 H4 H5 H6 H7 H8 H9.
  assert (H3 : 1 <= n_reg d) by nia.
  exact (estimation_classes env d search search_est multinomial y base draw post H1 H2 H3 H4 H5 H6 H7 n R s0 F H8 H9).
Qed.
Print Assumptions C115_estimation.

(** With stratify=y and more than half of the samples for training, no bootstrap lacks a class. *)
Theorem C115_stratified : forall divide_first n_train extra perm shuffle rows train y,
  grouped y rows -> (forall i, i < length rows -> Permutation (perm i) (nth i rows [])) -> (forall l, Permutation (shuffle l) l) ->
  (Z.of_nat (length (concat rows)) < 2 * n_train)%Z -> (n_train <= Z.of_nat (length (concat rows)))%Z ->
  (Z.of_nat (length (concat rows)) * Z.of_nat (length (concat rows)) <= 2 ^ 53)%Z ->
  stratified_train divide_first n_train extra perm shuffle rows = Ok train -> sees_all y train.
Proof. exact stratified_sees. Qed.
Print Assumptions C115_stratified.

(** How many samples of each class a stratified bootstrap contains: the exact share, rounded
    down, and the one more that the remainders may add; never more than there are. *)
Theorem C115_proportional : forall n_train extra perm shuffle rows train,
  NoDup (concat rows) -> (forall i, i < length rows -> Permutation (perm i) (nth i rows [])) -> (forall l, Permutation (shuffle l) l) ->
  (n_train <= Z.of_nat (length (concat rows)))%Z -> (Z.of_nat (length (concat rows)) * Z.of_nat (length (concat rows)) < 2 ^ 53)%Z ->
  stratified_train false n_train extra perm shuffle rows = Ok train -> forall i, i < length rows ->
  Prelude.count (fun r => existsb (Nat.eqb r) (nth i rows [])) train =
    Nat.min (length (nth i rows [])) (Z.to_nat (n_train * Z.of_nat (length (nth i rows [])) / Z.of_nat (length (concat rows))) + if extra i then 1 else 0).
Proof. exact stratified_count. Qed.
Print Assumptions C115_proportional.
(** Ten rows of three classes, seven of them for training. *)
Example C115_ex_proportional :
  stratified_train false 7 (fun i => i =? 1) (fun i => nth i [[0; 3; 6; 7; 8]; [9; 4; 1]; [5; 2]] []) (@rev nat) [[0; 3; 6; 7; 8]; [1; 4; 9]; [2; 5]] = Ok [5; 1; 4; 9; 6; 3; 0] /\
  map (fun c => Z.to_nat (7 * c / 10)) [5; 3; 2]%Z = [3; 2; 1].
Proof. split; vm_compute; reflexivity. Qed.

(** Three classes and two features; the call returns although the first estimation bootstrap
    lacks the class 9, and the estimate of that bootstrap is the same for all classes. *)
Example C115_ex : out_dim cl_dims = output_dim false (length (uoi_classes cl_y)) /\ 2 <= length (uoi_classes cl_y) /\
  right_number cl_search /\ right_number_est cl_est (fun e => e) /\ valid_rows cl_draw (length cl_y) /\
  (forall c a, fit_int cl_solver c = Ok a -> wf_nd a /\ np2mpi (nd_dtype a) = true /\ nd_shape a <> []) /\
  returned cl_env cl_dims (fun _ => cl_solver) cl_draw cl_post 1 false (fun _ => 0) (fun _ => tt) cl_fitted /\
  match f_sel cl_fitted with
  | Some sel => s_supports sel = Arr2 2 [[true; false]] /\ map (at3 (s_estimates sel) 0 0) (seq 0 6) = [fone; fzero; fone; fzero; fone; fzero]
  | None => False
  end /\ sees_all cl_y [0; 4; 5] /\ sees_two cl_y [0; 1; 4].
Proof.
  split; [reflexivity|]. split; [vm_compute; lia|]. split.
  { intros s r tr m s' v H. injection H as <- <-. now rewrite map_length, seq_length. }
  split; [intros mask tr m e H; injection H as <-; apply repeat_length|]. split.
  { intros sel r sp r' H. injection H as <- _. cbn [fst]. destruct sel; [|destruct (r =? 2)]; repeat constructor. }
  split; [intros c a H; injection H as <-; repeat split; discriminate|].
  split; [apply serial_returned; vm_compute; reflexivity|]. split; [vm_compute; split; reflexivity|]. split.
  - intros l H. cbn in H. destruct H as [<-|[<-|[<-|[<-|[<-|[<-|[]]]]]]].
    all: first [now (exists 0; split; [cbn; tauto|reflexivity])|now (exists 4; split; [cbn; tauto|reflexivity])|exists 5; split; [cbn; tauto|reflexivity]].
  - exists (LInt 5), (LInt 7). split; [discriminate|]. split; [exists 0; split; [cbn; tauto|reflexivity]|]. split; [exists 1; split; [cbn; tauto|reflexivity]|].
    intros i [<-|[<-|[<-|[]]]]; cbn; tauto.
Qed.
(** Six rows of three classes, four of them for training. *)
Example C115_ex_stratified : grouped cl_y [[0; 3]; [1; 4]; [2; 5]] /\
  stratified_train true 4 (fun i => i =? 0) (fun i => nth i [[3; 0]; [1; 4]; [5; 2]] []) (@rev nat) [[0; 3]; [1; 4]; [2; 5]] = Ok [5; 1; 0; 3].
Proof.
  split; [|vm_compute; reflexivity]. intros l H. cbn in H. destruct H as [<-|[<-|[<-|[<-|[<-|[<-|[]]]]]]].
  all: first [exists [0; 3]; split; [cbn; tauto|intros i [<-|[<-|[]]]; reflexivity]|exists [1; 4]; split; [cbn; tauto|intros i [<-|[<-|[]]]; reflexivity]|
    exists [2; 5]; split; [cbn; tauto|intros i [<-|[<-|[]]]; reflexivity]].
Qed.
