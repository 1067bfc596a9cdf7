(** Model of a Python session around /repo/primpy/solver.py: equations objects and initial-condition
    objects are created, kept and used again; both are mutable.

    What is mutated: an initial-conditions object by its own __call__ (x_ini and the velocity, and for the
    shooting classes the whole InflationStartIC part, also when __init__ fails half way), and the
    attribute [vwarn] of the equations object by the constructors of ISIC_Nt and ISIC_NsOk. *)
From Coq Require Import Reals List String ZArith Bool.
From Verif Require Import Base Model.Equations Model.Background Model.Float Model.Solution Model.InitCond
  Model.State Model.ApproxPower Model.Calibrate Model.BigBang Model.Shooting Model.Solver.
Import ListNotations.
Open Scope R_scope.
Open Scope string_scope.

(** ** what a call leaves behind in an initial-conditions object *)
(** InflationStartIC.__call__, initialconditions.py:141-166: x_ini and the velocity are set before anything
    can raise *)
Definition is_after (ic : icobj) : icobj :=
  let set x d := mkic (ic_eqs ic) (ic_phi ic) (ic_t ic) (ic_eta ic) (ic_x_end ic) (ic_input ic) (ic_V ic)
                      (ic_N ic) (ic_O ic) (ic_aH ic) (ic_H ic) (Some x) (Some d) in
  match ic_eqs ic with
  | IT _ _ _ => set (option_map Fin (ic_t ic)) (fneg (fsqrt (Fin (ic_V ic))))
  | IN _ _ _ _ => set (Some (ic_N ic)) (fdiv (fneg (fsqrt (Fin (ic_V ic)))) (ic_H ic))
  | IOther _ _ _ _ => ic
  end.
(** InflationStartIC.__init__ run again on an existing object, initialconditions.py:107-139, 230-235, 317-322:
    attributes not reached by a failing __init__ keep their old values, as do x_ini and the velocity *)
Definition is_reinit (old : icobj) (phi : R) : icobj :=
  let q := ic_eqs old in
  let input := ic_input old in
  match is_init q phi (ic_t old) (ic_eta old) (ic_x_end old) (kw_of input) with
  | Ok ic => mkic q phi (ic_t old) (ic_eta old) (ic_x_end old) (ic_input ic) (ic_V ic) (ic_N ic) (ic_O ic) (ic_aH ic) (ic_H ic)
                  (ic_x_ini old) (ic_dphi old)
  | Raise _ => mkic q phi (ic_t old) (ic_eta old) (ic_x_end old) input (pV (ie_U q) phi)
                  (match input with InN n => Fin n | InO _ => ic_N old end) (match input with InN _ => ic_O old | InO o => Fin o end)
                  (ic_aH old) (ic_H old) (ic_x_ini old) (ic_dphi old)
  end.
(** the end of ISIC_Nt.__call__ and ISIC_NsOk.__call__, initialconditions.py:229-238, 316-326 *)
Definition shoot_after (ic : icobj) (root : R) : icobj :=
  match is_init (ic_eqs ic) root (ic_t ic) (ic_eta ic) (ic_x_end ic) (kw_of (ic_input ic)) with
  | Ok _ => is_after (is_reinit ic root)
  | Raise _ => is_reinit ic root
  end.

Section Session.
Variables (F : phys) (euler z3 : R) (S : splines) (fmt_e : R -> string).
Variable ivp : settings -> integrator.
Variable find : ieqs -> rootfinder.

(** the initial-conditions object after [ic(y0=y0, **kw)], whether or not that raised *)
Definition ic_after (verbose : bool) (c : anyic) (kw : kwdict) : anyic :=
  match c with
  | ASlowRoll ic => ASlowRoll ic
  | AStart ic => AStart (is_after ic)
  | ANt ic T br =>
      match find (ic_eqs ic) (phii2Ntot fmt_e (trial_ivp ivp kw) verbose (ic_eqs ic) (ic_t ic) (ic_eta ic) (ic_x_end ic) (ic_input ic) T) br with
      | Ok root => ANt (shoot_after ic root) T br
      | Raise _ => c
      end
  | ANs o =>
      let ic := ns_ic o in
      match find (ic_eqs ic) (phii2Nstar F euler z3 S fmt_e (trial_ivp ivp kw) verbose (ic_eqs ic) (ic_t ic) (ic_eta ic) (ic_x_end ic) (ic_input ic)
               (ns_N_star o) (ns_OK0 o) (ns_h o) (ns_N0 o)) (ns_bracket o) with
      | Ok root => ANs (mkns (shoot_after ic root) (ns_N_star o) (ns_OK0 o) (ns_h o) (ns_bracket o) (ns_N0 o))
      | Raise _ => c
      end
  end.
(** solve(), solver.py:11-40, on that object; a reserved keyword is rejected before the object is called *)
Definition solve_after (verbose : bool) (c : anyic) (kw : kwdict) : anyic :=
  if existsb (fun k => match dict_get k kw with Some _ => true | None => false end) reserved then c
  else ic_after verbose c (ivp_kwargs (snd (split_kw kw))).

(** the warnings issued by the final post-processing of solve(), inflation.py:407-446. Same control flow as
    [solve_kw]; the trial runs of the shooting classes are separate, see [trial_warnings]. *)
Definition solve_warnings (verbose : bool) (c : anyic) (args : list kwval) (kw : kwdict) : list warning :=
  if existsb (fun k => match dict_get k kw with Some _ => true | None => false end) reserved then []
  else
    let ev := fst (split_kw kw) in
    let st := snd (split_kw kw) in
    match
      (do r <- ic_call F euler z3 S fmt_e ivp find verbose c (ivp_kwargs st) (repeat (Fin 0) (List.length (ie_idx (any_eqs c))));
       match args with
       | _ :: _ => Raise TypeError
       | [] =>
           do q <- eqs_of (any_eqs c);
           do x <- attr_of (ic_x_ini (fst r));
           do x0 <- match x with None => Raise TypeError | Some (Fin a) => Ok a | Some _ => Raise ValueError end;
           do y0 <- all_R (snd r);
           match ev with
           | KwEvents events => solve fmt_e q verbose events (fst (ivp st (any_eqs c) x0 (ic_x_end (fst r)) y0 events))
           | _ => Raise TypeError
           end
       end) with
    | Ok w => snd w
    | Raise _ => []
    end.
(** the warnings shown during one trial run of a shooting object whose own verbosity is [own], on equations
    with verbosity [verbose], initialconditions.py:205-207, 284-286: filterwarnings('always' or 'ignore',
    InflationWarning); all warnings of the post-processing are InflationWarnings *)
Definition trial_warnings (own verbose : bool) (q : eqs) (events : list event) (r : raw_sol) : list warning :=
  if own then match solve fmt_e q verbose events r with Ok w => snd w | Raise _ => [] end else [].

(** ** the session *)
(** an equations object; [vwarn] issues warnings or not (inflation.py:21) *)
Record eqobj := mkeq { eq_q : ieqs; eq_verbose : bool }.
(** an initial-conditions object on equations number [sl_eq]; verbosity of the object itself (warn_action,
    vprint; irrelevant for the classes without a verbose keyword) *)
Record icslot := mkslot { sl_ic : anyic; sl_eq : nat; sl_verbose : bool }.
Record heap := mkheap { h_eqs : list eqobj; h_ics : list icslot }.
Definition empty_heap : heap := mkheap [] [].

(** the constructor to call, with its own positional arguments *)
Inductive ickind :=
| KSlowRoll (phi : R)
| KStart (phi : R)
| KNt (N_tot : R) (bracket : list R)
| KNs (N_star OK0 h : R) (bracket : list R).
Definition shooting (k : ickind) : bool := match k with KNt _ _ | KNs _ _ _ _ => true | _ => false end.
Definition construct (q : ieqs) (k : ickind) (t eta : option R) (xe : R) (kw : ickw) : res anyic :=
  match k with
  | KSlowRoll phi => do ic <- sr_init q phi t eta xe kw; Ok (ASlowRoll ic)
  | KStart phi => do ic <- is_init q phi t eta xe kw; Ok (AStart ic)
  | KNt T br => do ic <- nt_init q br t eta xe kw; Ok (ANt ic T br)
  | KNs Ns OK0 h br => do o <- ns_init F q Ns OK0 h br t eta xe kw; Ok (ANs o)
  end.

Inductive op :=
| NewEqs (q : ieqs) (verbose : bool)
| NewIC (e : nat) (k : ickind) (t eta : option R) (xe : R) (kw : ickw) (verbose : bool)
| Solve (i : nat) (args : list kwval) (kw : kwdict).
(** what an operation shows: the number of the new object, the solution or exception and the warnings;
    [OBad]: a name that does not exist *)
Inductive out :=
| OEqs (e : nat)
| OIC (r : res nat)
| OSol (r : res (attrs * bool)) (ws : list warning)
| OBad.

Definition step (h : heap) (o : op) : heap * out :=
  match o with
  | NewEqs q v => (mkheap (h_eqs h ++ [mkeq q v])%list (h_ics h), OEqs (List.length (h_eqs h)))
  | NewIC e k t eta xe kw v =>
      match nth_error (h_eqs h) e with
      | None => (h, OBad)
      | Some E =>
          match construct (eq_q E) k t eta xe kw with
          | Raise x => (h, OIC (Raise x))
          | Ok c => (mkheap (* initialconditions.py:185, 265 *)
                            (if shooting k then set_nth e (mkeq (eq_q E) v) (h_eqs h) else h_eqs h)
                            (h_ics h ++ [mkslot c e v])%list, OIC (Ok (List.length (h_ics h))))
          end
      end
  | Solve i args kw =>
      match nth_error (h_ics h) i with
      | None => (h, OBad)
      | Some s =>
          match nth_error (h_eqs h) (sl_eq s) with
          | None => (h, OBad)
          | Some E =>
              let v := eq_verbose E in
              (mkheap (h_eqs h) (set_nth i (mkslot (solve_after v (sl_ic s) kw) (sl_eq s) (sl_verbose s)) (h_ics h)),
               OSol (solve_kw F euler z3 S fmt_e ivp find v (sl_ic s) args kw) (solve_warnings v (sl_ic s) args kw))
          end
      end
  end.
Fixpoint run (h : heap) (ops : list op) : list out :=
  match ops with [] => [] | o :: t => let (h', r) := step h o in r :: run h' t end.
End Session.
