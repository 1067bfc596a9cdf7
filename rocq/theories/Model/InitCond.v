(** Model of /repo/primpy/initialconditions.py.

    Floats are [fl] (Model/Float.v), since invalid curvature inputs lead to NaN/inf here.
    scipy's solve_ivp and root_scalar are oracles. *)
From Coq Require Import Reals List String ZArith Bool.
From Verif Require Import Base Model.Equations Model.Background Model.Float Model.Solution.
Import ListNotations.
Open Scope R_scope.
Open Scope string_scope.

(** the [equations] argument: an InflationEquationsT, an InflationEquationsN or an instance
    of another InflationEquations class (isinstance tests of initialconditions.py:67,73,80,83) *)
Inductive ieqs :=
| IT (K : R) (U : potfun) (track_eta : bool)
| IN (K : R) (U : potfun) (track_time track_eta : bool)
| IOther (K : R) (U : potfun) (idx : idx_map) (track_eta : bool).
Definition ie_K (q : ieqs) : R := match q with IT K _ _ => K | IN K _ _ _ => K | IOther K _ _ _ => K end.
Definition ie_U (q : ieqs) : potfun := match q with IT _ U _ => U | IN _ U _ _ => U | IOther _ U _ _ => U end.
Definition ie_te (q : ieqs) : bool := match q with IT _ _ e => e | IN _ _ _ e => e | IOther _ _ _ e => e end.
Definition ie_idx (q : ieqs) : idx_map :=
  match q with IT _ _ te => T_idx te | IN _ _ tm te => N_idx tm te | IOther _ _ i _ => i end.

(** the keyword arguments N_i and Omega_Ki (None: not passed) *)
Record ickw := mkkw { kw_N : option R; kw_O : option R }.
(** self.ic_input_param: which of the two was given *)
Inductive icinput := InN (N_i : R) | InO (Omega_Ki : R).
Definition kw_of (i : icinput) : ickw := match i with InN n => mkkw (Some n) None | InO o => mkkw None (Some o) end.

(** an initial-conditions object. [ic_dphi] is dphidt_i or dphidN_i ([None]: attribute not set),
    [ic_x_ini] likewise ([Some None]: x_ini is Python's None). *)
Record icobj := mkic {
  ic_eqs : ieqs; ic_phi : R; ic_t : option R; ic_eta : option R; ic_x_end : R;
  ic_input : icinput; ic_V : R; ic_N : fl; ic_O : fl; ic_aH : fl; ic_H : fl;
  ic_x_ini : option (option fl); ic_dphi : option fl }.

(* ------------------------------------------------------------------ *)
(** ** SlowRollIC *)
(** SlowRollIC.__init__, initialconditions.py:35-76. [1 / Omega_Ki] on a Python float 0
    raises ZeroDivisionError; all other divisions are by numpy floats. *)
Definition sr_init (q : ieqs) (phi : R) (t eta : option R) (x_end : R) (kw : ickw) : res icobj :=
  let V := pV (ie_U q) phi in
  let dV := pdV (ie_U q) phi in
  let K := ie_K q in
  do r <-
    match kw_N kw, kw_O kw with
    | Some n, None =>
        let aH2 := fsub (fmul (fdiv (Fin V) (Fin 3)) (fexp (Fin (2 * n)))) (Fin K) in
        if flt aH2 (Fin 0) then Raise InflationStartError
        else Ok (InN n, Fin n, fdiv (Fin (- K)) aH2, fsqrt (fsub (fmul (fdiv (Fin V) (Fin 3)) (fexp (Fin (2 * n)))) (Fin K)))
    | None, Some o =>
        if flt (Fin o) (Fin 1) then
          if feq (Fin o) (Fin 0) then Raise ZeroDivisionError
          else
            let n := fdiv (flog (fmul (fdiv (Fin (3 * K)) (Fin V)) (fsub (Fin 1) (fdiv (Fin 1) (Fin o))))) (Fin 2) in
            Ok (InO o, n, Fin o, fsqrt (fdiv (Fin (- K)) (Fin o)))
        else Raise InflationStartError
    | _, _ => Raise TypeError
    end;
  let '(input, n, o, aH) := r in
  let H := fmul aH (fexp (fneg n)) in
  Ok (match q with
      | IT _ _ _ => mkic q phi t eta x_end input V n o aH H (Some (option_map Fin t)) (Some (fdiv (Fin (- dV)) (fmul (Fin 3) H)))
      | IN _ _ _ _ => mkic q phi t eta x_end input V n o aH H (Some (Some n)) (Some (fdiv (Fin (- dV)) (fmul (Fin 3) (fmul H H))))
      | IOther _ _ _ _ => mkic q phi t eta x_end input V n o aH H None None
      end).

(** [y0[self.equations.idx[name]] = v] *)
Definition assign (idx : idx_map) (name : string) (v : fl) (y : list fl) : res (list fl) :=
  match dict_get name idx with
  | None => Raise KeyError
  | Some i => if Nat.ltb i (List.length y) then Ok (set_nth i v y) else Raise IndexError
  end.
(** [assert v is not None] followed by the assignment *)
Definition assign_opt (idx : idx_map) (name : string) (v : option R) (y : list fl) : res (list fl) :=
  match v with None => Raise AssertionError | Some r => assign idx name (Fin r) y end.
(** an attribute that has to exist *)
Definition attr_of {A} (o : option A) : res A := match o with Some a => Ok a | None => Raise AttributeError end.

(** SlowRollIC.__call__, initialconditions.py:78-97: the new contents of y0 *)
Definition sr_call (ic : icobj) (y0 : list fl) : res (list fl) :=
  let ix := ie_idx (ic_eqs ic) in
  do y <- match ic_eqs ic with
          | IT _ _ _ => do d <- attr_of (ic_dphi ic); do y <- assign ix "dphidt" d y0; assign ix "_N" (ic_N ic) y
          | IN _ _ tm _ => do d <- attr_of (ic_dphi ic); do y <- assign ix "dphidN" d y0;
                           if tm then assign_opt ix "t" (ic_t ic) y else Ok y
          | IOther _ _ _ _ => Raise NotImplementedError
          end;
  do y <- assign ix "phi" (Fin (ic_phi ic)) y;
  if ie_te (ic_eqs ic) then assign_opt ix "eta" (ic_eta ic) y else Ok y.

(* ------------------------------------------------------------------ *)
(** ** InflationStartIC *)
(** InflationStartIC.__init__, initialconditions.py:107-139 *)
Definition is_init (q : ieqs) (phi : R) (t eta : option R) (x_end : R) (kw : ickw) : res icobj :=
  let V := pV (ie_U q) phi in
  let K := ie_K q in
  do r <-
    match kw_N kw, kw_O kw with
    | Some n, o =>
        match o with Some _ => Raise AssertionError | None =>
        let aH2 := fsub (fmul (fdiv (Fin V) (Fin 2)) (fexp (Fin (2 * n)))) (Fin K) in
        if flt aH2 (Fin 0) then Raise InflationStartError
        else let aH := fsqrt aH2 in Ok (InN n, Fin n, fdiv (Fin (- K)) (fmul aH aH), aH)
        end
    | None, Some o =>
        if flt (Fin o) (Fin 1) then
          if feq (Fin o) (Fin 0) then Raise ZeroDivisionError
          else
            let n := fdiv (flog (fmul (fdiv (Fin (2 * K)) (Fin V)) (fsub (Fin 1) (fdiv (Fin 1) (Fin o))))) (Fin 2) in
            Ok (InO o, n, Fin o, fsqrt (fdiv (Fin (- K)) (Fin o)))
        else Raise InflationStartError
    | None, None => Raise TypeError
    end;
  let '(input, n, o, aH) := r in
  let H := fsqrt (fsub (Fin (V / 2)) (fmul (Fin K) (fexp (fmul (Fin (-2)) n)))) in
  Ok (mkic q phi t eta x_end input V n o aH H None None).

(** InflationStartIC.__call__, initialconditions.py:141-166: sets x_ini, dphi and y0 *)
Definition is_call (ic : icobj) (y0 : list fl) : res (icobj * list fl) :=
  let ix := ie_idx (ic_eqs ic) in
  let set x d := mkic (ic_eqs ic) (ic_phi ic) (ic_t ic) (ic_eta ic) (ic_x_end ic) (ic_input ic) (ic_V ic)
                      (ic_N ic) (ic_O ic) (ic_aH ic) (ic_H ic) (Some x) (Some d) in
  do r <- match ic_eqs ic with
          | IT _ _ _ =>
              let d := fneg (fsqrt (Fin (ic_V ic))) in
              do y <- assign ix "dphidt" d y0; do y <- assign ix "_N" (ic_N ic) y;
              Ok (set (option_map Fin (ic_t ic)) d, y)
          | IN _ _ tm _ =>
              let d := fdiv (fneg (fsqrt (Fin (ic_V ic)))) (ic_H ic) in
              do y <- assign ix "dphidN" d y0;
              do y <- (if tm then assign_opt ix "t" (ic_t ic) y else Ok y);
              Ok (set (Some (ic_N ic)) d, y)
          | IOther _ _ _ _ => Raise NotImplementedError
          end;
  do y <- assign ix "phi" (Fin (ic_phi ic)) (snd r);
  do y <- (if ie_te (ic_eqs ic) then assign_opt ix "eta" (ic_eta ic) y else Ok y);
  Ok (fst r, y).

(* ------------------------------------------------------------------ *)
(** ** ISIC_Nt *)
Definition eqs_of (q : ieqs) : res eqs :=
  match q with
  | IT K U te => Ok (T_eqs K U te)
  | IN K U tm te => Ok (N_eqs K U tm te)
  | IOther _ _ _ _ => Raise NotImplementedError
  end.
(** all entries as reals; scipy's solve_ivp raises ValueError for a non-finite initial state *)
Fixpoint all_R (l : list fl) : res (list R) :=
  match l with
  | [] => Ok []
  | Fin r :: t => do u <- all_R t; Ok (r :: u)
  | _ => Raise ValueError
  end.
(** oracle for scipy.integrate.solve_ivp: start, end, initial state and events to the solution
    and to "does the message contain 'step size'?" *)
Definition integrator := ieqs -> R -> R -> list R -> list event -> raw_sol * bool.

(** solve(ic, events=...), solver.py:11-40, for an InflationStartIC; x_ini = None is a TypeError in
    solve_ivp, non-finite initial data a ValueError. Returns the solution and the message flag. *)
Definition run_solve (fmt_e : R -> string) (ivp : integrator) (verbose : bool) (ic : icobj) (events : list event)
  : res (attrs * bool) :=
  do c <- is_call ic (repeat (Fin 0) (List.length (ie_idx (ic_eqs ic))));
  do q <- eqs_of (ic_eqs ic);
  do x <- attr_of (ic_x_ini (fst c));
  do x0 <- match x with None => Raise TypeError | Some (Fin r) => Ok r | Some _ => Raise ValueError end;
  do y0 <- all_R (snd c);
  let out := ivp (ic_eqs ic) x0 (ic_x_end ic) y0 events in
  do r <- solve fmt_e q verbose events (fst out);
  Ok (fst r, snd out).

Definition last_of {A} (l : list A) : res A := match rev l with h :: _ => Ok h | [] => Raise IndexError end.
(** [if array == scalar] for a 1-d array: an empty array is false (deprecated numpy behaviour),
    more than one element is ambiguous (ValueError) *)
Definition truth_eq (l : list R) (a : fl) : res bool :=
  match l with [] => Ok false | [r] => Ok (feq (Fin r) a) | _ => Raise ValueError end.
Definition nonempty {A} (l : list A) : bool := match l with [] => false | _ => true end.

(** the events of the shooting run, initialconditions.py:201-204 *)
Definition shoot_events (until : R) : list event :=
  [Inflation 1 false 0 None; Inflation (-1) true 0 None; UntilN until; Collapse 0].
(** ISIC_Nt.__call__.phii2Ntot, initialconditions.py:190-222 *)
Definition phii2Ntot (fmt_e : R -> string) (ivp : integrator) (verbose : bool)
    (q : ieqs) (t eta : option R) (x_end : R) (input : icinput) (N_tot : R) (phi : R) : res fl :=
  match is_init q phi t eta x_end (kw_of input) with
  | Raise InflationStartError => Ok (fsub (Fin 0) (Fin N_tot))
  | Raise e => Raise e
  | Ok ic =>
      do Ni <- match ic_N ic with Fin r => Ok r | _ => Raise ValueError end;
      do o <- run_solve fmt_e ivp verbose ic (shoot_events (Ni + N_tot + 10));
      let s := fst o in
      do nt <- get_F s "N_tot";
      if isfinite nt then Ok (fsub nt (Fin N_tot))
      else
        do Nev <- get_DT s "_N_events"; do un <- item "UntilN" Nev;
        do Ns <- get_A s "_N"; do nl <- last_of Ns;
        if (nonempty un || fle (Fin N_tot) (fsub nl (Fin Ni)))%bool then Ok (fsub nl (Fin Ni))
        else
          do co <- item "Collapse" Nev;
          do e <- (if nonempty co then Ok true
                   else do ie <- item "Inflation_dir-1_term1" Nev; do n0 <- head_of Ns; truth_eq ie n0);
          if e then Ok (fsub (Fin 0) (Fin N_tot))
          else if snd o then Raise StepSizeError else Raise PrimpyError
  end.

(** ISIC_Nt.__init__, initialconditions.py:173-185: the object and its bracket *)
Definition nt_init (q : ieqs) (bracket : list R) (t eta : option R) (x_end : R) (kw : ickw) : res icobj :=
  do phi <- last_of bracket; is_init q phi t eta x_end kw.

(** what ISIC_Nt.__call__ and ISIC_NsOk.__call__ do once the root finder returned [root],
    initialconditions.py:230-238, 317-326: re-initialise self and write y0 *)
Definition shoot_finish (ic : icobj) (root : R) (y0 : list fl) : res (icobj * list fl * R) :=
  do ic' <- is_init (ic_eqs ic) root (ic_t ic) (ic_eta ic) (ic_x_end ic) (kw_of (ic_input ic));
  do r <- is_call ic' y0;
  Ok (r, root).
(** oracle for scipy.optimize.root_scalar: function and bracket to the root *)
Definition rootfinder := (R -> res fl) -> list R -> res R.
(** ISIC_Nt.__call__, initialconditions.py:187-238. The tolerances differ between the two equation
    classes: [find] may depend on them. *)
Definition nt_call (fmt_e : R -> string) (ivp : integrator) (find : ieqs -> rootfinder) (verbose : bool)
    (ic : icobj) (N_tot : R) (bracket : list R) (y0 : list fl) : res (icobj * list fl * R) :=
  do root <- find (ic_eqs ic) (phii2Ntot fmt_e ivp verbose (ic_eqs ic) (ic_t ic) (ic_eta ic) (ic_x_end ic) (ic_input ic) N_tot) bracket;
  shoot_finish ic root y0.
