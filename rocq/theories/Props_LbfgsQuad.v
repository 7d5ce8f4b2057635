(** C105: what the default line search does on quadratic objectives. *)
From Coq Require Import String ZArith List Bool Arith Reals Lra Lia Floats.SpecFloat.
From Verif Require Import Prelude F64 Num Spec_Rescale Model_Lbfgs Spec_Lbfgs Spec_LbfgsQuad Proofs_Rescale Proofs_LbfgsQuad3 Proofs_LbfgsEx.
Import ListNotations.
Local Open Scope R_scope.

(** Every accepted step. *)
Theorem C105_steps : forall (St : Type) n z (O : options Rnum) (f : objective Rnum St) progress F G fuel lsfuel st x0 st' log out,
  computes n z f F G -> length x0 = n -> vanishes z x0 -> searches O MoreThuente ->
  quadratic n F G -> sensible O -> o_min_step O * norm n (G x0) <= 1 ->
  recorded O f progress fuel lsfuel st x0 = Some (st', log, out) ->
  quadratic_steps O n F G (1 / norm n (G x0)) x0 log.
Proof. intros. eapply quadratic_call; eassumption. Qed.
Print Assumptions C105_steps.

(** The optimizer gives up only where the lowest point of the line is out of reach. *)
Theorem C105_gives_up : forall (St : Type) n z (O : options Rnum) (f : objective Rnum St) progress F G fuel lsfuel st x0 st' log out,
  computes n z f F G -> length x0 = n -> vanishes z x0 -> searches O MoreThuente ->
  quadratic n F G -> sensible O -> o_min_step O * norm n (G x0) <= 1 ->
  documented O MoreThuente n -> never_stops progress -> (3 <= o_max_linesearch O)%Z -> (o_xtol O : R) < 1 ->
  recorded O f progress fuel lsfuel st x0 = Some (st', log, out) -> gave_up out ->
  out_of_reach O n F G (match log with [] => 1 / norm n (G x0) | _ => 1 end) (last (map r_x log) x0).
Proof. intros. eapply quadratic_call; eassumption. Qed.
Print Assumptions C105_gives_up.

(** F(x, y) = (2 x^2 + 2 x y + 3 y^2) / 2 - x, and the default options. *)
Definition ex_H (i j : nat) : R := match i, j with 0%nat, 0%nat => 2 | 1%nat, 1%nat => 3 | _, _ => 1 end.
Definition ex_F (x : list R) : R :=
  (2 * entry x 0 * entry x 0 + 2 * entry x 0 * entry x 1 + 3 * entry x 1 * entry x 1) / 2 - entry x 0.
Definition ex_G (x : list R) : list R := [2 * entry x 0 + entry x 1 - 1; entry x 0 + 3 * entry x 1].
Definition ex_f : objective Rnum unit := fun st x _ => (st, (x, ex_G x, Value (N := Rnum) (ex_F x))).
Definition ex_O : options Rnum := default_options (N := Rnum) 0 "default".

Example C105_ex_hypotheses :
  computes 2 nowhere ex_f ex_F ex_G /\ quadratic 2 ex_F ex_G /\ searches ex_O MoreThuente /\ sensible ex_O /\
  documented ex_O MoreThuente 2 /\ (3 <= o_max_linesearch ex_O)%Z /\ (o_xtol ex_O : R) < 1 /\
  o_min_step ex_O * norm 2 (ex_G [0; 0]) <= 1.
Proof.
  split; [|split; [|split; [|split; [|split; [|split; [|split]]]]]].
  - intros st x g Hx _. split; [reflexivity|]. split; [reflexivity|intros i Hi; discriminate].
  - exists ex_H, (fun i => match i with 0%nat => 1 | _ => 0 end), 0. split; [|split].
    + intros [|[|i]] [|[|j]]; reflexivity.
    + intros d Hd (i & Hi & Hn). unfold form, Sum. cbn [seq map fold_right ex_H].
      set (u := entry d 0) in *. set (v := entry d 1) in *.
      assert (E : u <> 0 \/ v <> 0) by (destruct i as [|[|i]]; [left; exact Hn|right; exact Hn|lia]).
      assert (Hu : 0 <= u * u) by apply Rle_0_sqr. assert (Hv : 0 <= v * v) by apply Rle_0_sqr.
      assert (Hw : 0 <= (u + v) * (u + v)) by apply Rle_0_sqr.
      assert (0 < u * u + v * v); [|nra].
      destruct E as [E|E]; apply Rlt_0_sqr in E; unfold Rsqr in E; lra.
    + intros x Hx. unfold form, Sum, ex_F. cbn [seq map fold_right ex_H]. split; [field|].
      intros [|[|i]] Hi; [unfold entry at 1; cbn; ring|unfold entry at 1; cbn; ring|lia].
  - right. split; reflexivity.
  - unfold sensible, ex_O, default_options. cbn [o_ftol o_gtol o_min_step o_max_step]. cbn. lra.
  - unfold documented, ex_O, default_options. cbn. repeat split; try lia; try lra; destruct H as [H|H]; discriminate H.
  - cbn. lia.
  - cbn. lra.
  - assert (E : norm 2 (ex_G [0; 0]) = 1).
    { unfold norm. assert (D : dot 2 (ex_G [0; 0]) (ex_G [0; 0]) = 1) by (unfold dot, Sum, ex_G, entry; cbn; ring).
      rewrite D. apply sqrt_1. }
    rewrite E. cbn. lra.
Qed.

(** Runs of the model in binary64: F(x) = a x^2 / 2 from x0 with the default options.  The
    trials of each search, and the step lengths. *)
Definition run64 (a x0 : f64) :=
  let N := Fnum (fun x => x) (fun x => x) in
  let f : objective N unit := fun st x _ =>
    let u := nth 0 x fzero in (st, (x, [nmul (n := N) a u], Value (N := N) (ndiv (n := N) (nmul (n := N) a (nmul (n := N) u u)) (nofZ (n := N) 2)))) in
  match recorded (default_options (N := N) fzero "default") f None 20 20 tt [x0] with
  | Some (_, log, Returned x w) => Some (map (fun q : report N => (r_ls q, r_step q, r_x q)) log, w)
  | _ => None
  end.

(** From 1024 with a = 1 the step grows from 1/1024 to (about) 341/1024 in five trials;
    from 1/1024 with a = 256 the first trial overshoots and the second is the minimum. *)
Example C105_ex_runs :
  match run64 (f64_of_Z 1) (f64_of_Z 1024) with Some (log, w) => (map (fun q => (fst (fst q))) log, w) | None => ([], None) end = ([5; 1], None)%Z /\
  run64 (f64_of_Z 256) (fdiv (f64_of_Z 1) (f64_of_Z 1024)) = Some ([(2%Z, fdiv (f64_of_Z 1) (f64_of_Z 256), [fzero])], None).
Proof. split; vm_compute; reflexivity. Qed.
