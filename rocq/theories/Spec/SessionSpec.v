(** What a user expects of a session that creates equations and initial-condition objects and solves them
    (C113, C114). *)
From Coq Require Import Reals List String ZArith Bool.
From Verif Require Import Base Model.Equations Model.Background Model.Float Model.Solution Model.InitCond
  Model.ApproxPower Model.BigBang Model.Shooting Model.Solver Model.Session.
Import ListNotations.

(** the shortest session with the same request: build the equations, build the initial conditions, solve *)
Definition fresh_session (q : ieqs) (v : bool) (k : ickind) (t eta : option R) (xe : R) (ikw : ickw) (v' : bool) (args : list kwval) (kw : kwdict) : list op :=
  [NewEqs q v; NewIC 0 k t eta xe ikw v'; Solve 0 args kw].
(** the verbosity in force for equations object [e] after the (operation, outcome) pairs [tr]: what was asked
    for when it was built, or later when a shooting object was built on it, whichever came last *)
Fixpoint verbosity (e : nat) (tr : list (op * out)) (v : bool) : bool :=
  match tr with
  | [] => v
  | (NewEqs _ w, OEqs e') :: t => verbosity e t (if Nat.eqb e' e then w else v)
  | (NewIC e' k _ _ _ _ w, OIC (Ok _)) :: t => verbosity e t (if (Nat.eqb e' e && shooting k)%bool then w else v)
  | _ :: t => verbosity e t v
  end.
(** nobody tried to build a shooting object on equations object [e] *)
Definition no_shooting_on (e : nat) (ops : list op) : Prop :=
  forall k t eta xe kw v, In (NewIC e k t eta xe kw v) ops -> shooting k = false.

(** the objects that exist after the operations [ops] *)
Definition objects_after F euler z3 S fmt ivp find (ops : list op) : heap :=
  fold_left (fun h o => fst (step F euler z3 S fmt ivp find h o)) ops empty_heap.
(** the InflationStartIC/SlowRollIC part of an initial-conditions object: phi_i, t_i, V_i, N_i, Omega_Ki, x_ini, ... *)
Definition ic_part (c : anyic) : icobj :=
  match c with ASlowRoll ic => ic | AStart ic => ic | ANt ic _ _ => ic | ANs o => ns_ic o end.
(** [c] is an object of the class [k] asks for, with the targets and options given to the constructor *)
Definition honours (q : ieqs) (k : ickind) (t eta : option R) (xe : R) (c : anyic) : Prop :=
  ic_eqs (ic_part c) = q /\ ic_t (ic_part c) = t /\ ic_eta (ic_part c) = eta /\ ic_x_end (ic_part c) = xe /\
  match k, c with
  | KSlowRoll phi, ASlowRoll ic => ic_phi ic = phi
  | KStart phi, AStart ic => ic_phi ic = phi
  | KNt N_tot bracket, ANt _ N_tot' bracket' => N_tot' = N_tot /\ bracket' = bracket
  | KNs N_star OK0 h bracket, ANs o => ns_N_star o = N_star /\ ns_OK0 o = OK0 /\ ns_h o = h /\ ns_bracket o = bracket
  | _, _ => False
  end.
