(** Specification vocabulary for the number of selection bootstraps (C114). *)
From Coq Require Import ZArith List Bool Arith.
From Verif Require Import Prelude F64 Model_Intersection Model_Thresholds Model_Fit.
Import ListNotations.

(** The same options, with one response and two or more parameters and features, but possibly
    more selection bootstraps, other thresholds and another number of estimation bootstraps. *)
Definition more_boots (d1 d2 : dims) : Prop :=
  n_feat d1 = n_feat d2 /\ out_dim d1 = 1 /\ out_dim d2 = 1 /\ n_reg d1 = n_reg d2 /\
  2 <= n_feat d1 /\ 2 <= n_reg d1 /\ 1 <= n_boots_sel d1 /\ n_boots_sel d1 <= n_boots_sel d2.

(** The thresholds are those of the value given for stability_selection (C01, C02). *)
Definition asks (ss : pyval) (d : dims) : Prop :=
  (Z.of_nat (n_boots_sel d) <= 2 ^ 53)%Z /\
  stability_selection_to_threshold ss (Z.of_nat (n_boots_sel d)) = Ok (thresholds d).

(** stability_selection given as one or more numbers of bootstraps. *)
Inductive counts : pyval -> Prop :=
| ct_int z : counts (Model_Thresholds.PyInt z)
| ct_list z l : counts (PyList (map Model_Thresholds.PyInt (z :: l)))
| ct_array z l : counts (PyNdInt (z :: l)).

(** Every feature of one support is in the other. *)
Definition within (m m' : list bool) : Prop := forall j, nth j m false = true -> nth j m' false = true.

(** The supports of a fitted model. *)
Definition has_supports (F : fitted) (rows : list (list bool)) : Prop :=
  exists sel p, f_sel F = Some sel /\ s_supports sel = Arr2 p rows.
