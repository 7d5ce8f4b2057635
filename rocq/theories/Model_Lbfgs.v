(** Model of the L-BFGS / OWL-QN optimizer: liblbfgs/lbfgs.c, liblbfgs/lbfgs.h,
    liblbfgs/arithmetic_ansi.h (setup.py does not define USE_SSE),
    src/pyuoi/lbfgs/_lowlevel.pyx and src/pyuoi/lbfgs/__init__.py.

    The user's callables are arbitrary functions of a state [St] (everything a Python
    function can read or change) and of the arrays they are given.  The objective may
    write into the array x: both arrays are views of the optimizer's own buffers.  The
    model assumes that the progress callable leaves its arrays unchanged.

    Left out: overflow of C ints (k, count), failing malloc for sizes that fit, the
    shape of x0 (arrays are flat lists). *)
From Coq Require Import String ZArith List Bool Arith.
From Verif Require Import Prelude Num.
Import ListNotations.
Local Open Scope Z_scope.

(** ** Return codes, lbfgs.h (the enum of _lowlevel.pyx:21-57) *)
Definition LBFGS_ALLZERO : Z := -2048.
Definition LBFGS_SUCCESS : Z := 0.
Definition LBFGS_STOP : Z := 1.
Definition LBFGS_ALREADY_MINIMIZED : Z := 2.
Definition LBFGSERR_UNKNOWNERROR : Z := -1024.
Definition LBFGSERR_LOGICERROR : Z := -1023.
Definition LBFGSERR_OUTOFMEMORY : Z := -1022.
Definition LBFGSERR_CANCELED : Z := -1021.
Definition LBFGSERR_INVALID_N : Z := -1020.
Definition LBFGSERR_INVALID_N_SSE : Z := -1019.
Definition LBFGSERR_INVALID_X_SSE : Z := -1018.
Definition LBFGSERR_INVALID_EPSILON : Z := -1017.
Definition LBFGSERR_INVALID_TESTPERIOD : Z := -1016.
Definition LBFGSERR_INVALID_DELTA : Z := -1015.
Definition LBFGSERR_INVALID_LINESEARCH : Z := -1014.
Definition LBFGSERR_INVALID_MINSTEP : Z := -1013.
Definition LBFGSERR_INVALID_MAXSTEP : Z := -1012.
Definition LBFGSERR_INVALID_FTOL : Z := -1011.
Definition LBFGSERR_INVALID_WOLFE : Z := -1010.
Definition LBFGSERR_INVALID_GTOL : Z := -1009.
Definition LBFGSERR_INVALID_XTOL : Z := -1008.
Definition LBFGSERR_INVALID_MAXLINESEARCH : Z := -1007.
Definition LBFGSERR_INVALID_ORTHANTWISE : Z := -1006.
Definition LBFGSERR_INVALID_ORTHANTWISE_START : Z := -1005.
Definition LBFGSERR_INVALID_ORTHANTWISE_END : Z := -1004.
Definition LBFGSERR_OUTOFINTERVAL : Z := -1003.
Definition LBFGSERR_INCORRECT_TMINMAX : Z := -1002.
Definition LBFGSERR_ROUNDING_ERROR : Z := -1001.
Definition LBFGSERR_MINIMUMSTEP : Z := -1000.
Definition LBFGSERR_MAXIMUMSTEP : Z := -999.
Definition LBFGSERR_MAXIMUMLINESEARCH : Z := -998.
Definition LBFGSERR_MAXIMUMITERATION : Z := -997.
Definition LBFGSERR_WIDTHTOOSMALL : Z := -996.
Definition LBFGSERR_INVALIDPARAMETERS : Z := -995.
Definition LBFGSERR_INCREASEGRADIENT : Z := -994.

(** Keys of _ERROR_MESSAGES, _lowlevel.pyx:172-218. *)
Definition error_codes : list Z :=
  [LBFGSERR_UNKNOWNERROR; LBFGSERR_LOGICERROR; LBFGSERR_OUTOFMEMORY; LBFGSERR_CANCELED;
   LBFGSERR_INVALID_N; LBFGSERR_INVALID_N_SSE; LBFGSERR_INVALID_X_SSE; LBFGSERR_INVALID_EPSILON;
   LBFGSERR_INVALID_TESTPERIOD; LBFGSERR_INVALID_DELTA; LBFGSERR_INVALID_LINESEARCH;
   LBFGSERR_INVALID_MINSTEP; LBFGSERR_INVALID_MAXSTEP; LBFGSERR_INVALID_FTOL;
   LBFGSERR_INVALID_WOLFE; LBFGSERR_INVALID_GTOL; LBFGSERR_INVALID_XTOL;
   LBFGSERR_INVALID_MAXLINESEARCH; LBFGSERR_INVALID_ORTHANTWISE;
   LBFGSERR_INVALID_ORTHANTWISE_START; LBFGSERR_INVALID_ORTHANTWISE_END;
   LBFGSERR_OUTOFINTERVAL; LBFGSERR_INCORRECT_TMINMAX; LBFGSERR_ROUNDING_ERROR;
   LBFGSERR_MINIMUMSTEP; LBFGSERR_MAXIMUMSTEP; LBFGSERR_MAXIMUMLINESEARCH;
   LBFGSERR_MAXIMUMITERATION; LBFGSERR_WIDTHTOOSMALL; LBFGSERR_INVALIDPARAMETERS;
   LBFGSERR_INCREASEGRADIENT].

(** _lowlevel.pyx:13-19 *)
Inductive algorithm := MoreThuente | Armijo | Wolfe | StrongWolfe.

Section Lbfgs.
  Context {N : NumOps} {St : Type}.

  (** ** Vectors, arithmetic_ansi.h:49-141 *)
  Definition vecdot (x y : list N) : N :=
    fold_left (fun s p => nadd s (nmul (fst p) (snd p))) (combine x y) nzero.
  Definition vecadd (y x : list N) (c : N) : list N := map2 (fun a b => nadd a (nmul c b)) y x.
  Definition vecdiff (x y : list N) : list N := map2 nsub x y.
  Definition vecscale (y : list N) (c : N) : list N := map (fun a => nmul a c) y.
  Definition vecncpy (x : list N) : list N := map nopp x.
  Definition vec2norm (x : list N) : N := nsqrt (vecdot x x).
  Definition vec2norminv (x : list N) : N := ndiv none (vec2norm x).

  (** fsigndiff(x, y), arithmetic_ansi.h:34 *)
  Definition fsigndiff (x y : N) : bool := nltb (nmul x (ndiv y (nabs y))) nzero.
  (** lbfgs.c:92-94 *)
  Definition min2 (a b : N) : N := if nleb a b then a else b.
  Definition max2 (a b : N) : N := if nleb b a then a else b.
  Definition max3 (a b c : N) : N := max2 (max2 a b) c.

  Definition half : N := ndiv none (nofZ 2).              (* 0.5 *)
  Definition inc : N := ndiv (nofZ 21) (nofZ 10).         (* 2.1 *)
  Definition two_thirds : N := ndiv (nofZ 66) (nofZ 100). (* 0.66 *)

  (** ** Parameters, lbfgs.h / _lowlevel.pyx:71-88 *)
  Record params := mkParams {
    p_m : Z; p_epsilon : N; p_past : Z; p_delta : N; p_max_iterations : Z;
    p_linesearch : algorithm; p_max_linesearch : Z; p_min_step : N; p_max_step : N;
    p_ftol : N; p_wolfe : N; p_gtol : N; p_xtol : N;
    p_c : N; p_start : Z; p_end : Z
  }.
  Variable P : params.

  (** param.orthantwise_c != 0. *)
  Definition owl : bool := nnonzero (p_c P).

  (** ** Callbacks, _lowlevel.pyx:109-148 *)

  (** What the user's f does: return a number, or raise (also: return something that
      is not a number). *)
  Inductive answer := Value (v : N) | Raised.
  (** f receives x and g and leaves both arrays, possibly changed. *)
  Definition objective := St -> list N -> list N -> St * (list N * list N * answer).
  (** The progress callable returns None, an integer, or raises. *)
  Inductive reply := NoReply | Code (z : Z) | Failed.
  Record report := mkReport {
    r_x : list N; r_g : list N; r_fx : N; r_xnorm : N; r_gnorm : N; r_step : N; r_k : Z; r_ls : Z
  }.
  Definition observer := St -> report -> St * reply.
  Variable f : objective.
  Variable progress : option observer.

  Record point := mkPoint { pt_st : St; pt_x : list N; pt_g : list N; pt_f : N }.

  (** call_eval: declared noexcept, so that an exception is printed and 0 is returned. *)
  Definition call_eval (st : St) (x g : list N) : point :=
    let r := f st x g in
    let a := snd r in
    mkPoint (fst r) (fst (fst a)) (snd (fst a)) (match snd a with Value v => v | Raised => nzero end).

  (** call_progress; noexcept as well. *)
  Definition call_progress (st : St) (r : report) : St * Z :=
    match progress with
    | None => (st, 0)
    | Some h => let a := h st r in
                (fst a, match snd a with Code z => z | NoReply => 0 | Failed => 0 end)
    end.

  (** ** OWL-QN, lbfgs.c:1298-1371; [b], [e]: orthantwise_start, orthantwise_end *)

  Definition in_range (b e i : nat) : bool := Nat.leb b i && Nat.ltb i e.
  Fixpoint mapi_from {A B} (i : nat) (h : nat -> A -> B) (l : list A) : list B :=
    match l with [] => [] | a :: r => h i a :: mapi_from (S i) h r end.
  Definition mapi {A B} (h : nat -> A -> B) (l : list A) : list B := mapi_from 0 h l.

  Definition owlqn_x1norm (x : list N) (b e : nat) : N :=
    fold_left (fun s i => nadd s (nabs (nth i x nzero))) (seq b (e - b)) nzero.

  Definition pseudo_entry (c x g : N) : N :=
    if nltb x nzero then nsub g c
    else if nltb nzero x then nadd g c
    else if nltb g (nopp c) then nadd g c
    else if nltb c g then nsub g c
    else nzero.
  Definition owlqn_pseudo_gradient (x g : list N) (c : N) (b e : nat) : list N :=
    mapi (fun i xg => if in_range b e i then pseudo_entry c (fst xg) (snd xg) else snd xg) (combine x g).

  Definition owlqn_project (d sign : list N) (b e : nat) : list N :=
    mapi (fun i ds => if in_range b e i && nleb (nmul (fst ds) (snd ds)) nzero then nzero else fst ds)
         (combine d sign).

  (** ** Line searches.  A search ends with the new point, the step and a return value:
      the number of evaluations, or a negative error code. *)
  Record search := mkSearch { s_pt : point; s_step : N; s_ret : Z }.

  (** lbfgs.c:645-734.  [fuel] bounds the number of rounds of the loop; running out of
      it is None. *)
  Fixpoint backtracking_loop (fuel : nat) (xp s : list N) (finit dginit dgtest : N)
      (st : St) (g : list N) (stp : N) (count : Z) : option search :=
    match fuel with
    | O => None
    | S fuel' =>
      let pt := call_eval st (vecadd xp s stp) g in
      let count := count + 1 in
      let dg := vecdot (pt_g pt) s in
      let verdict :=                 (* None: accepted, Some w: factor for the step *)
        if nltb (nadd finit (nmul stp dgtest)) (pt_f pt) then Some half
        else match p_linesearch P with
             | Armijo => None
             | alg =>
               if nltb dg (nmul (p_wolfe P) dginit) then Some inc
               else match alg with
                    | Wolfe => None
                    | _ => if nltb (nmul (nopp (p_wolfe P)) dginit) dg then Some half else None
                    end
             end in
      match verdict with
      | None => Some (mkSearch pt stp count)
      | Some width =>
        if nltb stp (p_min_step P) then Some (mkSearch pt stp LBFGSERR_MINIMUMSTEP)
        else if nltb (p_max_step P) stp then Some (mkSearch pt stp LBFGSERR_MAXIMUMSTEP)
        else if p_max_linesearch P <=? count then Some (mkSearch pt stp LBFGSERR_MAXIMUMLINESEARCH)
        else backtracking_loop fuel' xp s finit dginit dgtest (pt_st pt) (pt_g pt) (nmul stp width) count
      end
    end.

  Definition line_search_backtracking (fuel : nat) (pt : point) (s : list N) (stp : N) : option search :=
    if nleb stp nzero then Some (mkSearch pt stp LBFGSERR_INVALIDPARAMETERS)
    else
      let dginit := vecdot (pt_g pt) s in
      if nltb nzero dginit then Some (mkSearch pt stp LBFGSERR_INCREASEGRADIENT)
      else backtracking_loop fuel (pt_x pt) s (pt_f pt) dginit (nmul (p_ftol P) dginit)
                             (pt_st pt) (pt_g pt) stp 0.

  (** lbfgs.c:738-808; [gp] is the pseudo-gradient. *)
  Fixpoint owlqn_loop (fuel : nat) (b e : nat) (xp s gp wp : list N) (finit : N)
      (st : St) (g : list N) (stp : N) (count : Z) : option search :=
    match fuel with
    | O => None
    | S fuel' =>
      let pt := call_eval st (owlqn_project (vecadd xp s stp) wp b e) g in
      let norm := owlqn_x1norm (pt_x pt) b e in
      let pt := mkPoint (pt_st pt) (pt_x pt) (pt_g pt) (nadd (pt_f pt) (nmul norm (p_c P))) in
      let count := count + 1 in
      let dgtest := vecdot (vecdiff (pt_x pt) xp) gp in
      if nleb (pt_f pt) (nadd finit (nmul (p_ftol P) dgtest)) then Some (mkSearch pt stp count)
      else if nltb stp (p_min_step P) then Some (mkSearch pt stp LBFGSERR_MINIMUMSTEP)
      else if nltb (p_max_step P) stp then Some (mkSearch pt stp LBFGSERR_MAXIMUMSTEP)
      else if p_max_linesearch P <=? count then Some (mkSearch pt stp LBFGSERR_MAXIMUMLINESEARCH)
      else owlqn_loop fuel' b e xp s gp wp finit (pt_st pt) (pt_g pt) (nmul stp half) count
    end.

  Definition line_search_owlqn (fuel : nat) (b e : nat) (pt : point) (s gp : list N) (stp : N) : option search :=
    if nleb stp nzero then Some (mkSearch pt stp LBFGSERR_INVALIDPARAMETERS)
    else
      let wp := map2 (fun x g => if neqb x nzero then nopp g else x) (pt_x pt) gp in
      owlqn_loop fuel b e (pt_x pt) s gp wp (pt_f pt) (pt_st pt) (pt_g pt) stp 0.

  (** CUBIC_MINIMIZER, lbfgs.c:1021-1036 *)
  Definition cubic_minimizer (u fu du v fv dv : N) : N :=
    let d := nsub v u in
    let theta := nadd (nadd (ndiv (nmul (nsub fu fv) (nofZ 3)) d) du) dv in
    let s := max3 (nabs theta) (nabs du) (nabs dv) in
    let a := ndiv theta s in
    let gamma := nmul s (nsqrt (nsub (nmul a a) (nmul (ndiv du s) (ndiv dv s)))) in
    let gamma := if nltb v u then nopp gamma else gamma in
    let p := nadd (nsub gamma du) theta in
    let q := nadd (nadd (nsub gamma du) gamma) dv in
    nadd u (nmul (ndiv p q) d).
  (** CUBIC_MINIMIZER2, lbfgs.c:1051-1072 *)
  Definition cubic_minimizer2 (u fu du v fv dv xmin xmax : N) : N :=
    let d := nsub v u in
    let theta := nadd (nadd (ndiv (nmul (nsub fu fv) (nofZ 3)) d) du) dv in
    let s := max3 (nabs theta) (nabs du) (nabs dv) in
    let a := ndiv theta s in
    let gamma := nmul s (nsqrt (max2 nzero (nsub (nmul a a) (nmul (ndiv du s) (ndiv dv s))))) in
    let gamma := if nltb u v then nopp gamma else gamma in
    let p := nadd (nsub gamma dv) theta in
    let q := nadd (nadd (nsub gamma dv) gamma) du in
    let r := ndiv p q in
    if nltb r nzero && nnonzero gamma then nsub v (nmul r d)
    else if nltb a nzero then xmax else xmin.
  (** QUARD_MINIMIZER and QUARD_MINIMIZER2, lbfgs.c:1082-1094 *)
  Definition quard_minimizer (u fu du v fv : N) : N :=
    let a := nsub v u in
    nadd u (nmul (ndiv (ndiv du (nadd (ndiv (nsub fu fv) a) du)) (nofZ 2)) a).
  Definition quard_minimizer2 (u du v dv : N) : N :=
    let a := nsub u v in
    nadd v (nmul (ndiv dv (nsub dv du)) a).

  (** The interval of uncertainty: best step, other end, trial step. *)
  Record interval := mkInterval {
    i_x : N; i_fx : N; i_dx : N; i_y : N; i_fy : N; i_dy : N; i_t : N; i_brackt : bool
  }.

  (** update_trial_interval, lbfgs.c:1125-1292, with its return value. *)
  Definition update_trial_interval (iv : interval) (ft dt tmin tmax : N) : interval * Z :=
    let 'mkInterval x fx dx y fy dy t brackt := iv in
    let dsign := fsigndiff dt dx in
    if brackt && (nleb t (min2 x y) || nleb (max2 x y) t) then (iv, LBFGSERR_OUTOFINTERVAL)
    else if brackt && nleb nzero (nmul dx (nsub t x)) then (iv, LBFGSERR_INCREASEGRADIENT)
    else if brackt && nltb tmax tmin then (iv, LBFGSERR_INCORRECT_TMINMAX)
    else
      (* new trial value, bound, brackt *)
      let '(newt, bound, brackt') :=
        if nltb fx ft then
          let mc := cubic_minimizer x fx dx t ft dt in
          let mq := quard_minimizer x fx dx t ft in
          (if nltb (nabs (nsub mc x)) (nabs (nsub mq x)) then mc
           else nadd mc (nmul half (nsub mq mc)), true, true)
        else if dsign then
          let mc := cubic_minimizer x fx dx t ft dt in
          let mq := quard_minimizer2 x dx t dt in
          (if nltb (nabs (nsub mq t)) (nabs (nsub mc t)) then mc else mq, false, true)
        else if nltb (nabs dt) (nabs dx) then
          let mc := cubic_minimizer2 x fx dx t ft dt tmin tmax in
          let mq := quard_minimizer2 x dx t dt in
          (if brackt
           then (if nltb (nabs (nsub t mc)) (nabs (nsub t mq)) then mc else mq)
           else (if nltb (nabs (nsub t mq)) (nabs (nsub t mc)) then mc else mq), true, brackt)
        else
          (if brackt then cubic_minimizer t ft dt y fy dy
           else if nltb x t then tmax else tmin, false, brackt) in
      let '(x, fx, dx, y, fy, dy) :=
        if nltb fx ft then (x, fx, dx, t, ft, dt)
        else if dsign then (t, ft, dt, x, fx, dx)
        else (t, ft, dt, y, fy, dy) in
      let newt := if nltb tmax newt then tmax else newt in
      let newt := if nltb newt tmin then tmin else newt in
      let newt :=
        if brackt' && bound then
          let mq := nadd x (nmul two_thirds (nsub y x)) in
          if nltb x y then (if nltb mq newt then mq else newt)
          else (if nltb newt mq then mq else newt)
        else newt in
      (mkInterval x fx dx y fy dy newt brackt', 0).

  (** lbfgs.c:812-1001: the loop's variables; the step is the trial value of the
      interval. *)
  Record mt_vars := mkMt {
    mt_iv : interval; mt_stage1 : bool; mt_uinfo : Z; mt_width : N; mt_prev_width : N;
    mt_st : St; mt_g : list N; mt_count : Z
  }.

  (** lbfgs.c:873-884: stmin and stmax. *)
  Definition mt_stmin (iv : interval) : N :=
    if i_brackt iv then min2 (i_x iv) (i_y iv) else i_x iv.
  Definition mt_stmax (iv : interval) : N :=
    if i_brackt iv then max2 (i_x iv) (i_y iv)
    else nadd (i_t iv) (nmul (nofZ 4) (nsub (i_t iv) (i_x iv))).
  Definition mt_narrow (iv : interval) : bool :=
    nleb (nsub (mt_stmax iv) (mt_stmin iv)) (nmul (p_xtol P) (mt_stmax iv)).
  Definition mt_outside (iv : interval) (stp : N) : bool :=
    nleb stp (mt_stmin iv) || nleb (mt_stmax iv) stp.

  (** lbfgs.c:886-896: the step that is evaluated. *)
  Definition mt_step (v : mt_vars) : N :=
    let iv := mt_iv v in
    let stp := i_t iv in
    let stp := if nltb stp (p_min_step P) then p_min_step P else stp in
    let stp := if nltb (p_max_step P) stp then p_max_step P else stp in
    if (i_brackt iv && (mt_outside iv stp || (p_max_linesearch P <=? mt_count v + 1) || negb (mt_uinfo v =? 0)))
       || (i_brackt iv && mt_narrow iv)
    then i_x iv else stp.

  (** lbfgs.c:940-998: the rest of the loop body after an evaluation that does not end
      the search. *)
  Definition mt_next (finit dginit dgtest : N) (v : mt_vars) (stp : N) (pt : point) (dg : N) : mt_vars :=
    let iv := mt_iv v in
    let ftest1 := nadd finit (nmul stp dgtest) in
    let stage1 := if mt_stage1 v && nleb (pt_f pt) ftest1 && nleb (nmul (min2 (p_ftol P) (p_gtol P)) dginit) dg
                  then false else mt_stage1 v in
    let r :=
      if stage1 && nltb ftest1 (pt_f pt) && nleb (pt_f pt) (i_fx iv) then
        let u := update_trial_interval
          (mkInterval (i_x iv) (nsub (i_fx iv) (nmul (i_x iv) dgtest)) (nsub (i_dx iv) dgtest)
                      (i_y iv) (nsub (i_fy iv) (nmul (i_y iv) dgtest)) (nsub (i_dy iv) dgtest)
                      stp (i_brackt iv))
          (nsub (pt_f pt) (nmul stp dgtest)) (nsub dg dgtest) (mt_stmin iv) (mt_stmax iv) in
        let j := fst u in
        (mkInterval (i_x j) (nadd (i_fx j) (nmul (i_x j) dgtest)) (nadd (i_dx j) dgtest)
                    (i_y j) (nadd (i_fy j) (nmul (i_y j) dgtest)) (nadd (i_dy j) dgtest)
                    (i_t j) (i_brackt j), snd u)
      else update_trial_interval
        (mkInterval (i_x iv) (i_fx iv) (i_dx iv) (i_y iv) (i_fy iv) (i_dy iv) stp (i_brackt iv))
        (pt_f pt) dg (mt_stmin iv) (mt_stmax iv) in
    let j := fst r in
    let gap := nabs (nsub (i_y j) (i_x j)) in
    if i_brackt j then
      let t := if nleb (nmul two_thirds (mt_prev_width v)) gap
               then nadd (i_x j) (nmul half (nsub (i_y j) (i_x j))) else i_t j in
      mkMt (mkInterval (i_x j) (i_fx j) (i_dx j) (i_y j) (i_fy j) (i_dy j) t true)
           stage1 (snd r) gap (mt_width v) (pt_st pt) (pt_g pt) (mt_count v + 1)
    else mkMt j stage1 (snd r) (mt_width v) (mt_prev_width v) (pt_st pt) (pt_g pt) (mt_count v + 1).

  (** lbfgs.c:868-998: one round, ending the search (inr) or not (inl). *)
  Definition mt_round (xp s : list N) (finit dginit dgtest : N) (v : mt_vars) : mt_vars + search :=
    let iv := mt_iv v in
    let stp := mt_step v in
    let pt := call_eval (mt_st v) (vecadd xp s stp) (mt_g v) in
    let dg := vecdot (pt_g pt) s in
    let ftest1 := nadd finit (nmul stp dgtest) in
    let count := mt_count v + 1 in
    if i_brackt iv && (mt_outside iv stp || negb (mt_uinfo v =? 0))
    then inr (mkSearch pt stp LBFGSERR_ROUNDING_ERROR)
    else if neqb stp (p_max_step P) && nleb (pt_f pt) ftest1 && nleb dg dgtest
    then inr (mkSearch pt stp LBFGSERR_MAXIMUMSTEP)
    else if neqb stp (p_min_step P) && (nltb ftest1 (pt_f pt) || nleb dgtest dg)
    then inr (mkSearch pt stp LBFGSERR_MINIMUMSTEP)
    else if i_brackt iv && mt_narrow iv then inr (mkSearch pt stp LBFGSERR_WIDTHTOOSMALL)
    else if p_max_linesearch P <=? count then inr (mkSearch pt stp LBFGSERR_MAXIMUMLINESEARCH)
    else if nleb (pt_f pt) ftest1 && nleb (nabs dg) (nmul (p_gtol P) (nopp dginit))
    then inr (mkSearch pt stp count)
    else inl (mt_next finit dginit dgtest v stp pt dg).

  Fixpoint morethuente_loop (fuel : nat) (xp s : list N) (finit dginit dgtest : N) (v : mt_vars) : option search :=
    match fuel with
    | O => None
    | S fuel' =>
      match mt_round xp s finit dginit dgtest v with
      | inr r => Some r
      | inl v' => morethuente_loop fuel' xp s finit dginit dgtest v'
      end
    end.

  Definition line_search_morethuente (fuel : nat) (pt : point) (s : list N) (stp : N) : option search :=
    if nleb stp nzero then Some (mkSearch pt stp LBFGSERR_INVALIDPARAMETERS)
    else
      let dginit := vecdot (pt_g pt) s in
      if nltb nzero dginit then Some (mkSearch pt stp LBFGSERR_INCREASEGRADIENT)
      else
        let width := nsub (p_max_step P) (p_min_step P) in
        morethuente_loop fuel (pt_x pt) s (pt_f pt) dginit (nmul (p_ftol P) dginit)
          (mkMt (mkInterval nzero (pt_f pt) dginit nzero (pt_f pt) dginit stp false)
                true 0 width (nmul (nofZ 2) width) (pt_st pt) (pt_g pt) 0).

  (** ** The main routine, lbfgs.c:245-641 *)

  (** Parameter checks, lbfgs.c:285-364; [n] variables.  Ok (b, e) gives the range of
      the L1 term. *)
  Definition check_params (n : Z) : Z + (nat * nat) :=
    let e := if p_end P <? 0 then n else p_end P in
    if n <=? 0 then inl LBFGSERR_INVALID_N
    else if nltb (p_epsilon P) nzero then inl LBFGSERR_INVALID_EPSILON
    else if p_past P <? 0 then inl LBFGSERR_INVALID_TESTPERIOD
    else if nltb (p_delta P) nzero then inl LBFGSERR_INVALID_DELTA
    else if nltb (p_min_step P) nzero then inl LBFGSERR_INVALID_MINSTEP
    else if nltb (p_max_step P) (p_min_step P) then inl LBFGSERR_INVALID_MAXSTEP
    else if nltb (p_ftol P) nzero then inl LBFGSERR_INVALID_FTOL
    else if match p_linesearch P with Wolfe | StrongWolfe => true | _ => false end
            && (nleb (p_wolfe P) (p_ftol P) || nleb none (p_wolfe P)) then inl LBFGSERR_INVALID_WOLFE
    else if nltb (p_gtol P) nzero then inl LBFGSERR_INVALID_GTOL
    else if nltb (p_xtol P) nzero then inl LBFGSERR_INVALID_XTOL
    else if p_max_linesearch P <=? 0 then inl LBFGSERR_INVALID_MAXLINESEARCH
    else if nltb (p_c P) nzero then inl LBFGSERR_INVALID_ORTHANTWISE
    else if (p_start P <? 0) || (n <? p_start P) then inl LBFGSERR_INVALID_ORTHANTWISE_START
    else if n <? e then inl LBFGSERR_INVALID_ORTHANTWISE_END
    else if owl && match p_linesearch P with Wolfe => false | _ => true end
    then inl LBFGSERR_INVALID_LINESEARCH
    else inr (Z.to_nat (p_start P), Z.to_nat e).

  (** One stored correction, lbfgs.c:104-110. *)
  Record correction := mkCorr { c_alpha : N; c_s : list N; c_y : list N; c_ys : N }.
  Definition blank (n : nat) : correction := mkCorr nzero (repeat nzero n) (repeat nzero n) nzero.

  (** The two loops of lbfgs.c:574-598 over the ring buffer [lm] of length [m]. *)
  Fixpoint first_loop (m : nat) (bound : nat) (j : nat) (lm : list correction) (d : list N)
    : nat * list correction * list N :=
    match bound with
    | O => (j, lm, d)
    | S bound' =>
      let j := Nat.modulo (j + m - 1) m in
      let it := nth j lm (blank 0) in
      let a := ndiv (vecdot (c_s it) d) (c_ys it) in
      first_loop m bound' j (lset j (mkCorr a (c_s it) (c_y it) (c_ys it)) lm) (vecadd d (c_y it) (nopp a))
    end.
  Fixpoint second_loop (m : nat) (bound : nat) (j : nat) (lm : list correction) (d : list N) : list N :=
    match bound with
    | O => d
    | S bound' =>
      let it := nth j lm (blank 0) in
      let beta := ndiv (vecdot (c_y it) d) (c_ys it) in
      second_loop m bound' (Nat.modulo (j + 1) m) lm (vecadd d (c_s it) (nsub (c_alpha it) beta))
    end.

  (** lbfgs.c:600-609 *)
  Definition constrain (b e : nat) (d pg : list N) : list N :=
    mapi (fun i dp => if in_range b e i && nleb nzero (nmul (fst dp) (snd dp)) then nzero else fst dp)
         (combine d pg).

  (** The loop's variables at the top of the loop. *)
  Record state := mkState {
    l_pt : point; l_pg : list N; l_d : list N; l_step : N; l_k : nat; l_end : nat;
    l_lm : list correction; l_pf : list N
  }.

  (** How a call of lbfgs() ends: the array x and the return code, or undefined
      behaviour (the remainder modulo m = 0). *)
  Inductive ending := Done (st : St) (x : list N) (ret : Z) | Undefined (st : St).
  Inductive step_result := Next (s : state) | Exit (e : ending).

  Definition run_line_search (fuel b e : nat) (s : state) : option search :=
    if owl then line_search_owlqn fuel b e (l_pt s) (l_d s) (l_pg s) (l_step s)
    else match p_linesearch P with
         | MoreThuente => line_search_morethuente fuel (l_pt s) (l_d s) (l_step s)
         | _ => line_search_backtracking fuel (l_pt s) (l_d s) (l_step s)
         end.

  (** gnorm / max(1, xnorm) <= epsilon *)
  Definition converged (xnorm gnorm : N) : bool :=
    nleb (ndiv gnorm (if nltb xnorm none then none else xnorm)) (p_epsilon P).

  (** lbfgs.c:538-613: the new correction and the new search direction. *)
  Definition next_state (b e : nat) (s : state) (pt : point) (pg : list N) : state :=
    let m := Z.to_nat (p_m P) in
    let k := l_k s in
    let past := Z.to_nat (p_past P) in
    let pf := if Nat.ltb 0 past then lset (Nat.modulo k past) (pt_f pt) (l_pf s) else l_pf s in
    let sv := vecdiff (pt_x pt) (pt_x (l_pt s)) in
    let yv := vecdiff (pt_g pt) (pt_g (l_pt s)) in
    let ys := vecdot yv sv in
    let yy := vecdot yv yv in
    let lm := lset (l_end s) (mkCorr (c_alpha (nth (l_end s) (l_lm s) (blank 0))) sv yv ys) (l_lm s) in
    let bound := if Nat.leb m k then m else k in
    let end' := Nat.modulo (l_end s + 1) m in
    let d := if owl then vecncpy pg else vecncpy (pt_g pt) in
    let q := first_loop m bound end' lm d in
    let d := second_loop m bound (fst (fst q)) (snd (fst q)) (vecscale (snd q) (ndiv ys yy)) in
    let d := if owl then constrain b e d pg else d in
    mkState pt pg d none (S k) end' (snd (fst q)) pf.

  (** lbfgs.c:476-536: what follows an accepted step. *)
  Definition after_step (b e : nat) (s : state) (r : search) : step_result :=
    let pt := s_pt r in
    let pg := if owl then owlqn_pseudo_gradient (pt_x pt) (pt_g pt) (p_c P) b e else l_pg s in
    let k := l_k s in
    let past := Z.to_nat (p_past P) in
    let xnorm := vec2norm (pt_x pt) in
    let gnorm := if owl then vec2norm pg else vec2norm (pt_g pt) in
    let a := call_progress (pt_st pt)
      (mkReport (pt_x pt) (pt_g pt) (pt_f pt) xnorm gnorm (s_step r) (Z.of_nat k) (s_ret r)) in
    let st := fst a in
    let ret := snd a in
    if negb (ret =? 0) then Exit (Done st (pt_x pt) ret)
    else if converged xnorm gnorm then Exit (Done st (pt_x pt) LBFGS_SUCCESS)
    else if Nat.ltb 0 past && Nat.leb past k
            && nltb (nabs (ndiv (nsub (nth (Nat.modulo k past) (l_pf s) nzero) (pt_f pt)) (pt_f pt))) (p_delta P)
    then Exit (Done st (pt_x pt) LBFGS_STOP)
    else if negb (p_max_iterations P =? 0) && (p_max_iterations P <? Z.of_nat k + 1)
    then Exit (Done st (pt_x pt) LBFGSERR_MAXIMUMITERATION)
    else if Nat.eqb (Z.to_nat (p_m P)) 0 then Exit (Undefined st)
    else Next (next_state b e s (mkPoint st (pt_x pt) (pt_g pt) (pt_f pt)) pg).

  (** One round of the loop, lbfgs.c:460-614; [fuel] for the line search.  After a
      failed search x is the previous point. *)
  Definition iterate (fuel b e : nat) (s : state) : option step_result :=
    match run_line_search fuel b e s with
    | None => None
    | Some r =>
      Some (if s_ret r <? 0 then Exit (Done (pt_st (s_pt r)) (pt_x (l_pt s)) (s_ret r))
            else after_step b e s r)
    end.

  Fixpoint main_loop (fuel lsfuel b e : nat) (s : state) : option ending :=
    match fuel with
    | O => None
    | S fuel' =>
      match iterate lsfuel b e s with
      | None => None
      | Some (Exit r) => Some r
      | Some (Next s') => main_loop fuel' lsfuel b e s'
      end
    end.

  (** lbfgs.c:366-458: the first evaluation and the initial direction and step. *)
  Definition init_state (b e : nat) (st : St) (x : list N) : state :=
    let n := length x in
    let past := Z.to_nat (p_past P) in
    let q := call_eval st x (repeat nzero n) in
    let fx := if owl then nadd (pt_f q) (nmul (owlqn_x1norm (pt_x q) b e) (p_c P)) else pt_f q in
    let pg := if owl then owlqn_pseudo_gradient (pt_x q) (pt_g q) (p_c P) b e else [] in
    let d := if owl then vecncpy pg else vecncpy (pt_g q) in
    mkState (mkPoint (pt_st q) (pt_x q) (pt_g q) fx) pg d (vec2norminv d) 1 0
            (repeat (blank n) (Z.to_nat (p_m P))) (lset 0 fx (repeat nzero past)).

  (** lbfgs(); None means that the fuel did not suffice.  vecalloc gives zero-filled
      memory; for m < 0 the size does not fit and vecalloc gives NULL, for m = 0 the pointer
      is not NULL (as with glibc). *)
  Definition lbfgs (fuel lsfuel : nat) (st : St) (x : list N) : option ending :=
    match check_params (Z.of_nat (length x)) with
    | inl code => Some (Done st x code)
    | inr (b, e) =>
      if p_m P <? 0 then Some (Done st x LBFGSERR_OUTOFMEMORY)
      else
        let s := init_state b e st x in
        let pt := l_pt s in
        if converged (vec2norm (pt_x pt)) (if owl then vec2norm (l_pg s) else vec2norm (pt_g pt))
        then Some (Done (pt_st pt) (pt_x pt) LBFGS_ALREADY_MINIMIZED)
        else main_loop fuel lsfuel b e s
    end.

  (** ** LBFGS.minimize, _lowlevel.pyx:351-424 *)

  (** A returned array with the code of the warning given, if any. *)
  Inductive outcome :=
  | Returned (x : list N) (warning : option Z)
  | Raises (e : exn)
  | Crash.  (* undefined behaviour *)

  Definition conclude (x : list N) (r : Z) : outcome :=
    if (r =? LBFGS_SUCCESS) || (r =? LBFGS_ALREADY_MINIMIZED) then Returned x None
    else if (r =? LBFGSERR_ROUNDING_ERROR) || (r =? LBFGSERR_MAXIMUMLINESEARCH)
            || (r =? LBFGSERR_MAXIMUMITERATION) then Returned x (Some r)
    else if r =? LBFGSERR_OUTOFMEMORY then Raises MemoryError
    else if r =? LBFGS_ALLZERO then Raises AllZeroLBFGSError
    else if existsb (Z.eqb r) error_codes then Raises LBFGSError
    else Raises KeyError.

  Definition minimize (fuel lsfuel : nat) (st : St) (x0 : list N) : option (St * outcome) :=
    match lbfgs fuel lsfuel st x0 with
    | None => None
    | Some (Done st x r) => Some (st, conclude x r)
    | Some (Undefined st) => Some (st, Crash)
    end.
End Lbfgs.
Arguments params : clear implicits.
Arguments objective : clear implicits.
Arguments observer : clear implicits.
Arguments point : clear implicits.
Arguments search : clear implicits.
Arguments state : clear implicits.
Arguments ending : clear implicits.
Arguments outcome : clear implicits.
Arguments answer : clear implicits.
Arguments report : clear implicits.
Arguments interval : clear implicits.
Arguments mt_vars : clear implicits.
Arguments step_result : clear implicits.
Arguments correction : clear implicits.

(** ** fmin_lbfgs, lbfgs/__init__.py:11-205 *)

(** _LINE_SEARCH_ALGO, _lowlevel.pyx:163-169 *)
Definition line_search_algo (s : string) : option algorithm :=
  (if s =? "default" then Some MoreThuente
   else if s =? "morethuente" then Some MoreThuente
   else if s =? "armijo" then Some Armijo
   else if s =? "wolfe" then Some Wolfe
   else if s =? "strongwolfe" then Some StrongWolfe
   else None)%string.

Section Fmin.
  Context {N : NumOps} {St : Type}.

  (** The keyword arguments (all but f, x0, progress, args). *)
  Record options := mkOptions {
    o_c : N; o_start : Z; o_end : Z; o_m : Z; o_epsilon : N; o_past : Z; o_delta : N;
    o_max_iterations : Z; o_line_search : string; o_max_linesearch : Z; o_min_step : N;
    o_max_step : N; o_ftol : N; o_wolfe : N; o_gtol : N; o_xtol : N
  }.

  (** The default values of the signature, lines 11-15, with orthantwise_c and
      line_search left open.  Each quotient rounds to the double written there; 1e-30 is
      given by its mantissa and exponent. *)
  Definition default_options (c : N) (search : string) : options :=
    mkOptions c 0 (-1) 10 (ndiv none (nofZ 100000)) 0 nzero 0 search 20
      (ndiv none (nofZ 100000000000000000000)) (nofZ 100000000000000000000)
      (ndiv none (nofZ 10000)) (ndiv (nofZ 9) (nofZ 10)) (ndiv (nofZ 9) (nofZ 10))
      (ndiv (nofZ 178405961588245) (nofZ (2 ^ 147))).

  (** Lines 177-185: the line search used and whether a warning is given. *)
  Definition choose_line_search (O : options) : string * bool :=
    let s := o_line_search O in
    if nltb nzero (o_c O) && negb (String.eqb s "wolfe" || String.eqb s "default") then ("wolfe"%string, true)
    else if nltb nzero (o_c O) && String.eqb s "default" then ("wolfe"%string, false)
    else (s, false).

  Definition to_params (O : options) (alg : algorithm) : params N :=
    mkParams (o_m O) (o_epsilon O) (o_past O) (o_delta O) (o_max_iterations O) alg (o_max_linesearch O)
             (o_min_step O) (o_max_step O) (o_ftol O) (o_wolfe O) (o_gtol O) (o_xtol O)
             (o_c O) (o_start O) (o_end O).

  Definition fmin_lbfgs (O : options) (f : objective N St) (progress : option (observer N St))
      (fuel lsfuel : nat) (st : St) (x0 : list N) : option (St * outcome N) :=
    if negb (nleb nzero (o_c O)) then Some (st, Raises AssertionError)
    else match line_search_algo (fst (choose_line_search O)) with
         | None => Some (st, Raises KeyError)
         | Some alg => minimize (to_params O alg) f progress fuel lsfuel st x0
         end.
End Fmin.
Arguments options : clear implicits.
