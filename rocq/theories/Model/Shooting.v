(** Model of ISIC_NsOk, /repo/primpy/initialconditions.py:242-326: shooting for N_star at given
    present-day curvature. Built on the model of InflationStartIC (Model/InitCond.v), of the solver
    (Model/Solution.v), of the scale-factor calibration (Model/Calibrate.v) and of bigbang.get_a0
    (Model/BigBang.v). scipy's solve_ivp and root_scalar are oracles; verbose printing is dropped. *)
From Coq Require Import Reals List String ZArith Bool.
From Verif Require Import Base Model.Equations Model.Background Model.Float Model.Solution Model.InitCond
  Model.State Model.ApproxPower Model.Calibrate Model.BigBang.
Import ListNotations.
Open Scope R_scope.
Open Scope string_scope.

(** the equations object as seen by the calibration *)
Definition aeqs_of (q : ieqs) : aeqs :=
  match q with
  | IT K U _ => mkaeqs AT K U
  | IN K U _ _ => mkaeqs AN K U
  | IOther K U _ _ => mkaeqs AT K U
  end.
(** calibrate_scale_factor(Omega_K0=..., h=...), all other arguments at their defaults
    (initialconditions.py:287, inflation.py:463-470, 872) *)
Definition args_Omega (OK0 h : R) : calargs :=
  mkargs None (Some OK0) (Some h) None None None None None 100 None "CGS" (Some 3%Z) default_opts.

(** an ISIC_NsOk object: the InflationStartIC part and self.N_star, Omega_K0, h, phi_i_bracket, N0 *)
Record nsobj := mkns { ns_ic : icobj; ns_N_star : R; ns_OK0 : R; ns_h : R; ns_bracket : list R; ns_N0 : R }.

Section Shooting.
Variables (F : phys) (euler z3 : R) (S : splines).
Let C := consts_of F euler z3.

(** ISIC_NsOk.__init__, initialconditions.py:250-270. Simplification: h <> 0. *)
Definition ns_init (q : ieqs) (N_star OK0 h : R) (bracket : list R) (t eta : option R) (x_end : R) (kw : ickw) : res nsobj :=
  if Req_EM_T OK0 0 then Raise AssertionError
  else
    do phi <- last_of bracket;
    do ic <- is_init q phi t eta x_end kw;
    do a0 <- get_a0 F h OK0 "planck";
    Ok (mkns ic N_star OK0 h bracket (ln a0)).

(** ISIC_NsOk.__call__.phii2Nstar, initialconditions.py:275-310 *)
Definition phii2Nstar (fmt_e : R -> string) (ivp : integrator) (verbose : bool)
    (q : ieqs) (t eta : option R) (x_end : R) (input : icinput) (N_star OK0 h N0 : R) (phi : R) : res fl :=
  do ic <- is_init q phi t eta x_end (kw_of input);
  do o <- run_solve fmt_e ivp verbose ic (shoot_events N0);
  let s := fst o in
  do nt <- get_F s "N_tot";
  if (isfinite nt && flt (Fin N_star) nt)%bool then
    let c := calibrate_scale_factor C S (aeqs_of q) (args_Omega OK0 h) s in
    do _ <- snd c;
    do v <- get_F (fst c) "N_star";
    Ok (fsub v (Fin N_star))
  else
    do Nev <- get_DT s "_N_events"; do un <- item "UntilN" Nev;
    do Ns <- get_A s "_N"; do nl <- last_of Ns;
    if (nonempty un || fle (Fin N0) nl)%bool then Ok nl
    else
      do co <- item "Collapse" Nev;
      do ie <- item "Inflation_dir-1_term1" Nev;
      do n0 <- head_of Ns;
      do e <- (if (nonempty co || fle nt (Fin N_star))%bool then Ok true else truth_eq ie n0);
      if e then
        do _ <- (if fle nt (Fin N_star) then Ok true else truth_eq ie n0);
        Ok (fsub (Fin 0) (Fin N_star))
      else if snd o then Raise StepSizeError else Raise PrimpyError.

(** ISIC_NsOk.__call__, initialconditions.py:272-326 *)
Definition ns_call (fmt_e : R -> string) (ivp : integrator) (find : ieqs -> rootfinder) (verbose : bool)
    (o : nsobj) (y0 : list fl) : res (icobj * list fl * R) :=
  let ic := ns_ic o in
  do root <- find (ic_eqs ic)
    (phii2Nstar fmt_e ivp verbose (ic_eqs ic) (ic_t ic) (ic_eta ic) (ic_x_end ic) (ic_input ic)
       (ns_N_star o) (ns_OK0 o) (ns_h o) (ns_N0 o)) (ns_bracket o);
  shoot_finish ic root y0.
End Shooting.
