(** Specification vocabulary for the optimizer in binary64 arithmetic (C104). *)
From Coq Require Import ZArith List Bool.
From Verif Require Import Num Model_Lbfgs.
Import ListNotations.

Section Objective.
  Context {N : NumOps} {St : Type}.
  (** At every point with [n] coordinates the callable computes the value [F x] and the
      gradient [G x] (any functions) and leaves x alone; it may do anything else. *)
  Definition evaluates (n : nat) (f : objective N St) (F : list N -> N) (G : list N -> list N) : Prop :=
    forall st x g, length x = n -> snd (f st x g) = (x, G x, Value (F x)) /\ length (G x) = n.

  (** The value that is minimized, as computed: F(x) + (|x_0| + ... + |x_{n-1}|) c. *)
  Definition total (c : N) (F : list N -> N) (x : list N) : N :=
    if neqb c nzero then F x else nadd (F x) (nmul (fold_left nadd (map nabs x) nzero) c).

  (** The L1 term covers all [n] coordinates. *)
  Definition covers (O : options N) (n : nat) : Prop :=
    o_start O = 0%Z /\ (o_end O < 0 \/ o_end O = Z.of_nat n)%Z.

  (** No coordinate is so small that its square vanishes: each is 0, NaN or of magnitude
      2^-530 at least. *)
  Definition ordinary (x : list N) : Prop :=
    Forall (fun v => nltb nzero (nabs v) && nltb (nabs v) (ndiv none (nofZ (2 ^ 530))) = false) x.
End Objective.
