(** Specification vocabulary for the zero points of the features (C131), in real numbers. *)
From Coq Require Import List Reals.
From Verif Require Import Spec_Rescale Spec_Poisson.
Import ListNotations.
Local Open Scope R_scope.

(** The same measurements with feature [j] larger by [d j]. *)
Definition displaced (d : list R) (X : list (list R)) : list (list R) :=
  map (fun x => map (fun j => entry x j + entry d j) (seq 0 (length d))) X.
(** What these displacements contribute to the predictions of a model with coefficients [c]. *)
Definition offset (d c : list R) : R := Sum (length d) (fun j => entry d j * entry c j).
(** The same predictions as the model [r], from the displaced features. *)
Definition moved_model (d : list R) (r : list R * R) : list R * R := (fst r, snd r - offset d (fst r)).
