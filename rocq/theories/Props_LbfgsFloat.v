(** C104: in binary64 arithmetic the optimizer does not move to a larger value. *)
From Coq Require Import String ZArith List Bool Floats.SpecFloat.
From Flocq Require Import IEEE754.BinarySingleNaN.
From Verif Require Import F64 F64Facts Num Num64 Model_Lbfgs Spec_Lbfgs Spec_LbfgsFloat Proofs_Num64 Proofs_LbfgsFloat.
Import ListNotations.

(** The numbers of [Bnum] compute like those of [Fnum], the model used elsewhere. *)
Theorem C104_same_arithmetic : forall (eb lb : bf -> bf) (ef lf : f64 -> f64) (x y : bf) (z : Z),
  B2SF (nadd (n := Bnum eb lb) x y) = nadd (n := Fnum ef lf) (B2SF x) (B2SF y) /\
  B2SF (nsub (n := Bnum eb lb) x y) = nsub (n := Fnum ef lf) (B2SF x) (B2SF y) /\
  B2SF (nmul (n := Bnum eb lb) x y) = nmul (n := Fnum ef lf) (B2SF x) (B2SF y) /\
  B2SF (ndiv (n := Bnum eb lb) x y) = ndiv (n := Fnum ef lf) (B2SF x) (B2SF y) /\
  B2SF (nopp (n := Bnum eb lb) x) = nopp (n := Fnum ef lf) (B2SF x) /\
  B2SF (nabs (n := Bnum eb lb) x) = nabs (n := Fnum ef lf) (B2SF x) /\
  B2SF (nsqrt (n := Bnum eb lb) x) = nsqrt (n := Fnum ef lf) (B2SF x) /\
  B2SF (nofZ (n := Bnum eb lb) z) = nofZ (n := Fnum ef lf) z /\
  nleb (n := Bnum eb lb) x y = nleb (n := Fnum ef lf) (B2SF x) (B2SF y) /\
  nltb (n := Bnum eb lb) x y = nltb (n := Fnum ef lf) (B2SF x) (B2SF y) /\
  neqb (n := Bnum eb lb) x y = neqb (n := Fnum ef lf) (B2SF x) (B2SF y).
Proof. exact operations_agree. Qed.
Print Assumptions C104_same_arithmetic.

(** Every accepted step, whatever the callable computes: with a penalty if the step starts
    from an ordinary point.  The reported values are those of the points. *)
Theorem C104_descends : forall (exp64 ln64 : bf -> bf) (St : Type) n (O : options (Bnum exp64 ln64))
    (f : objective (Bnum exp64 ln64) St) progress F G fuel lsfuel st x0 st' log out,
  evaluates n f F G -> length x0 = n -> is_nan (o_min_step O : bf) = false ->
  (neqb (o_c O) nzero = true -> o_line_search O = "default"%string \/ o_line_search O = "morethuente"%string) ->
  (neqb (o_c O) nzero = false -> covers O n) ->
  recorded O f progress fuel lsfuel st x0 = Some (st', log, out) ->
  chain (fun x y => (neqb (o_c O) nzero = false -> ordinary x) -> nleb (total (o_c O) F y) (total (o_c O) F x) = true)
        x0 (map r_x log) /\
  Forall (fun q => r_fx q = total (o_c O) F (r_x q)) log /\
  forall x w, out = Returned x w -> x = last (map r_x log) x0.
Proof. intros exp64 ln64 St n. exact (float_descends exp64 ln64 n). Qed.
Print Assumptions C104_descends.

(** The returned point. *)
Theorem C104_never_worse : forall (exp64 ln64 : bf -> bf) (St : Type) n (O : options (Bnum exp64 ln64))
    (f : objective (Bnum exp64 ln64) St) progress F G fuel lsfuel st x0 st' log x w,
  evaluates n f F G -> length x0 = n -> is_nan (o_min_step O : bf) = false ->
  (neqb (o_c O) nzero = true -> o_line_search O = "default"%string \/ o_line_search O = "morethuente"%string) ->
  (neqb (o_c O) nzero = false -> covers O n /\ Forall ordinary (x0 :: map r_x log)) ->
  recorded O f progress fuel lsfuel st x0 = Some (st', log, Returned x w) ->
  x = x0 \/ nleb (total (o_c O) F x) (total (o_c O) F x0) = true.
Proof. intros exp64 ln64 St n. exact (float_never_worse exp64 ln64 n). Qed.
Print Assumptions C104_never_worse.

(** Without a penalty, directly. *)
Theorem C104_plain : forall (exp64 ln64 : bf -> bf) (St : Type) n (O : options (Bnum exp64 ln64))
    (f : objective (Bnum exp64 ln64) St) progress F G fuel lsfuel st x0 st' x w,
  evaluates n f F G -> length x0 = n -> is_nan (o_min_step O : bf) = false ->
  neqb (o_c O) nzero = true -> o_line_search O = "default"%string \/ o_line_search O = "morethuente"%string ->
  fmin_lbfgs O f progress fuel lsfuel st x0 = Some (st', Returned x w) ->
  x = x0 \/ nleb (F x) (F x0) = true.
Proof. intros exp64 ln64 St n. exact (float_never_worse_plain exp64 ln64 n). Qed.
Print Assumptions C104_plain.

(** F(x, y) = (x - 3)^4 + (y + 1/10)^2 from (1, 1). *)
Definition ex_num := Bnum (fun x => x) (fun x => x).
Definition ex_F (x : list ex_num) : ex_num :=
  let u := nsub (nth 0 x nzero) (nofZ 3) in
  let v := nadd (nth 1 x nzero) (ndiv none (nofZ 10)) in
  nadd (nmul (nmul u u) (nmul u u)) (nmul v v).
Definition ex_G (x : list ex_num) : list ex_num :=
  let u := nsub (nth 0 x nzero) (nofZ 3) in
  let v := nadd (nth 1 x nzero) (ndiv none (nofZ 10)) in
  [nmul (nofZ 4) (nmul u (nmul u u)); nmul (nofZ 2) v].
Definition ex_f : objective ex_num unit := fun st x _ => (st, (x, ex_G x, Value (ex_F x))).
Definition ex_run c := recorded (default_options (N := ex_num) c "default") ex_f None 100 20 tt [none; none].
Definition ex_values c := match ex_run c with Some (_, log, Returned _ w) => Some (map (fun q : report ex_num => B2SF (r_fx q : bf)) log, w) | _ => None end.

Definition ex_opts (c : ex_num) : options ex_num := default_options c "default".

Example C104_ex_hypotheses :
  evaluates 2 ex_f ex_F ex_G /\ covers (ex_opts none) 2 /\
  is_nan (o_min_step (ex_opts nzero) : bf) = false.
Proof.
  split; [intros st x g Hl; split; reflexivity|].
  split; [split; [reflexivity|left; reflexivity]|vm_compute; reflexivity].
Qed.

(** Seventeen steps without a penalty; the values go down to about 1e-8. *)
Example C104_ex_plain :
  match ex_values nzero with
  | Some (l, w) => length l = 18%nat /\ w = None /\
                   hd S754_nan l = S754_finite false 4668574551781438 (-51) /\
                   last l S754_nan = S754_finite false 6913879718393459 (-79)
  | None => False end.
Proof. vm_compute. repeat split. Qed.

(** Eight steps with the penalty |x| + |y|; every point is ordinary. *)
Example C104_ex_penalty :
  ex_values none =
    Some ([S754_finite false 5525907223553192 (-50); S754_finite false 4818171735088039 (-50);
           S754_finite false 6304150788494746 (-51); S754_finite false 5729738236595945 (-51);
           S754_finite false 5716967588881512 (-51); S754_finite false 5714037108945882 (-51);
           S754_finite false 5714008736971798 (-51); S754_finite false 5714008694663884 (-51)], None) /\
  match ex_run none with Some (_, log, _) => Forall ordinary ([none; none] :: map r_x log) | None => False end.
Proof.
  split; [vm_compute; reflexivity|].
  assert (E : match ex_run none with
              | Some (_, log, _) => forallb (forallb (fun v : ex_num =>
                    negb (nltb nzero (nabs v) && nltb (nabs v) (ndiv none (nofZ (2 ^ 530)))))) ([none; none] :: map r_x log)
              | None => false end = true) by (vm_compute; reflexivity).
  destruct (ex_run none) as [[[st log] out]|]; [|discriminate E].
  rewrite forallb_forall in E. apply Forall_forall. intros x Hx. specialize (E x Hx).
  rewrite forallb_forall in E. apply Forall_forall. intros v Hv. specialize (E v Hv).
  apply negb_true_iff in E. exact E.
Qed.

(** [ordinary] cannot be dropped: from x = 2^-600 the step to 0 is accepted although the
    value computed there is larger; the product of x with the gradient is 0. *)
Definition tiny : ex_num := ndiv none (nofZ (2 ^ 600)).
Definition tiny_F (x : list ex_num) : ex_num :=
  match x with
  | [v] => if neqb v tiny then nopp tiny else if neqb v nzero then ndiv tiny (nofZ (2 ^ 14)) else none
  | _ => none
  end.
Definition tiny_G (x : list ex_num) : list ex_num :=
  match x with
  | [v] => [if neqb v tiny then nopp (nofZ 2) else nzero]
  | _ => map (fun _ => nzero) x
  end.
Definition tiny_f : objective ex_num unit := fun st x _ => (st, (x, tiny_G x, Value (tiny_F x))).
Definition tiny_opts : options ex_num :=
  mkOptions none 0 (-1) 10 (ndiv none (nofZ 100000)) 0 nzero 0 "default" 2000
    nzero (nofZ 100000000000000000000)
    (ndiv none (nofZ 10000)) (ndiv (nofZ 9) (nofZ 10)) (ndiv (nofZ 9) (nofZ 10))
    (ndiv (nofZ 178405961588245) (nofZ (2 ^ 147))).
Example C104_ex_tiny :
  evaluates 1 tiny_f tiny_F tiny_G /\ covers tiny_opts 1 /\
  match recorded tiny_opts tiny_f None 100 2000 tt [tiny] with
  | Some (_, [q], Returned x None) =>
    map (B2SF : ex_num -> f64) x = [S754_zero false] /\
    B2SF (total none tiny_F [tiny] : bf) = S754_zero false /\
    B2SF (r_fx q : bf) = S754_finite false 4503599627370496 (-666)
  | _ => False
  end.
Proof.
  split; [|split; [split; [reflexivity|left; reflexivity]|vm_compute; repeat split]].
  intros st [|v [|w x]] g Hl; try discriminate Hl. split; reflexivity.
Qed.
