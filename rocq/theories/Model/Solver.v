(** Model of /repo/primpy/solver.py: the keyword handling of solve() and what reaches
    scipy.integrate.solve_ivp, for all four initial-condition classes of initialconditions.py. *)
From Coq Require Import Reals List String ZArith Bool.
From Verif Require Import Base Model.Equations Model.Background Model.Float Model.Solution Model.InitCond
  Model.State Model.ApproxPower Model.Calibrate Model.BigBang Model.Shooting.
Import ListNotations.
Open Scope R_scope.
Open Scope string_scope.

(** a keyword value: a list of events, a string, a number, or any other object *)
Inductive kwval := KwEvents (l : list event) | KwStr (s : string) | KwNum (r : R) | KwOther (id : nat).
Definition kwdict := dict kwval.
(** [kwargs.pop(k, default)]: the value and the remaining dictionary *)
Definition kwpop (k : string) (default : kwval) (kw : kwdict) : kwval * kwdict :=
  (match dict_get k kw with Some v => v | None => default end,
   filter (fun p => negb (String.eqb k (fst p))) kw).

(** what solve_ivp is told besides equations, range, initial state and events *)
Record settings := mkst { st_method : kwval; st_rtol : kwval; st_atol : kwval; st_rest : kwdict }.

(** solver.py:30,32-34: events, method, rtol and atol are popped, the rest is passed on *)
Definition split_kw (kw : kwdict) : kwval * settings :=
  let e := kwpop "events" (KwEvents []) kw in
  let m := kwpop "method" (KwStr "RK45") (snd e) in
  let r := kwpop "rtol" (KwNum (/ 10^10)) (snd m) in
  let a := kwpop "atol" (KwNum (/ 10^12)) (snd r) in
  (fst e, mkst (fst m) (fst r) (fst a) (snd a)).
(** the keyword arguments [ic] is called with besides y0, solver.py:35: [rtol=rtol, atol=atol, **kwargs] *)
Definition ivp_kwargs (st : settings) : kwdict := ("rtol", st_rtol st) :: ("atol", st_atol st) :: st_rest st.

(** initial conditions: SlowRollIC, InflationStartIC, ISIC_Nt, ISIC_NsOk *)
Inductive anyic :=
| ASlowRoll (ic : icobj)
| AStart (ic : icobj)
| ANt (ic : icobj) (N_tot : R) (bracket : list R)
| ANs (o : nsobj).
Definition any_eqs (c : anyic) : ieqs :=
  match c with ASlowRoll ic => ic_eqs ic | AStart ic => ic_eqs ic | ANt ic _ _ => ic_eqs ic | ANs o => ic_eqs (ns_ic o) end.

Section Solver.
Variables (F : phys) (euler z3 : R) (S : splines) (fmt_e : R -> string).
(** solve_ivp, now with the settings it is called with *)
Variable ivp : settings -> integrator.
Variable find : ieqs -> rootfinder.
Variable verbose : bool.

(** the integrator of the trial runs [solve(ic, events=events, **kwargs)] inside ISIC_Nt.__call__ and
    ISIC_NsOk.__call__ (initialconditions.py:207, 286) when those are called with keywords [kw] *)
Definition trial_ivp (kw : kwdict) : integrator := ivp (snd (split_kw (("events", KwEvents []) :: kw))).

(** [ic(y0=y0, **kw)]: SlowRollIC and InflationStartIC ignore the keywords (initialconditions.py:78, 138),
    the shooting classes hand them to their trial runs (187, 225-229, 272, 312-316) *)
Definition ic_call (c : anyic) (kw : kwdict) (y0 : list fl) : res (icobj * list fl) :=
  match c with
  | ASlowRoll ic => do y <- sr_call ic y0; Ok (ic, y)
  | AStart ic => is_call ic y0
  | ANt ic T br => do r <- nt_call fmt_e (trial_ivp kw) find verbose ic T br y0; Ok (fst r)
  | ANs o => do r <- ns_call F euler z3 S fmt_e (trial_ivp kw) find verbose o y0; Ok (fst r)
  end.

(** the names bound by position in solve, ic.__call__ and solve_ivp: passing them again is a TypeError *)
Definition reserved : list string := ["ic"; "y0"; "fun"; "t_span"].

(** solve(ic, *args, **kwargs), solver.py:11-40. A positional argument would be solve_ivp's [method], which
    is also passed by name: TypeError. [for e in events] needs an iterable of Event objects.
    Simplifications: the TypeError of a reserved keyword is raised at once; x_ini = None is a TypeError
    and non-finite initial data a ValueError of solve_ivp. Second component: does the message contain
    'step size'? *)
Definition solve_kw (c : anyic) (args : list kwval) (kw : kwdict) : res (attrs * bool) :=
  if existsb (fun k => match dict_get k kw with Some _ => true | None => false end) reserved then Raise TypeError
  else
    let ev := fst (split_kw kw) in
    let st := snd (split_kw kw) in
    do r <- ic_call c (ivp_kwargs st) (repeat (Fin 0) (List.length (ie_idx (any_eqs c))));
    match args with
    | _ :: _ => Raise TypeError
    | [] =>
        do q <- eqs_of (any_eqs c);
        do x <- attr_of (ic_x_ini (fst r));
        do x0 <- match x with None => Raise TypeError | Some (Fin a) => Ok a | Some _ => Raise ValueError end;
        do y0 <- all_R (snd r);
        match ev with
        | KwEvents events =>
            let out := ivp st (any_eqs c) x0 (ic_x_end (fst r)) y0 events in
            do w <- solve fmt_e q verbose events (fst out);
            Ok (fst w, snd out)
        | _ => Raise TypeError
        end
    end.
End Solver.
