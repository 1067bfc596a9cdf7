(** What the user of solve(ic, **kwargs) asked the integrator for. *)
From Coq Require Import Reals List String.
From Verif Require Import Base Model.Equations Model.Solution Model.InitCond Model.Shooting Model.Solver.
Import ListNotations.
Open Scope R_scope.
Open Scope string_scope.

(** the keyword's value, or the documented default *)
Definition given (kw : kwdict) (k : string) (default : kwval) : kwval :=
  match dict_get k kw with Some v => v | None => default end.
(** the settings are those of [kw]: Runge-Kutta 4(5), rtol 1e-10 and atol 1e-12 unless given, every other
    keyword except [events] unchanged *)
Definition asked (kw : kwdict) (st : settings) : Prop :=
  st_method st = given kw "method" (KwStr "RK45") /\ st_rtol st = given kw "rtol" (KwNum (/ 10^10)) /\
  st_atol st = given kw "atol" (KwNum (/ 10^12)) /\
  forall k, dict_get k (st_rest st) =
    if in_dec string_dec k ["events"; "method"; "rtol"; "atol"] then None else dict_get k kw.
(** ... but with the method fixed to RK45 *)
Definition asked_but_RK45 (kw : kwdict) (st : settings) : Prop :=
  st_method st = KwStr "RK45" /\ st_rtol st = given kw "rtol" (KwNum (/ 10^10)) /\
  st_atol st = given kw "atol" (KwNum (/ 10^12)) /\
  forall k, dict_get k (st_rest st) =
    if in_dec string_dec k ["events"; "method"; "rtol"; "atol"] then None else dict_get k kw.
(** the two integrators answer every request with settings [P] alike *)
Definition agree (P : settings -> Prop) (i1 i2 : settings -> integrator) : Prop :=
  forall st q x0 xe y0 ev, P st -> i1 st q x0 xe y0 ev = i2 st q x0 xe y0 ev.
(** ... and, for the given events only *)
Definition agree_on (P : settings -> Prop) (events : kwval) (i1 i2 : settings -> integrator) : Prop :=
  forall st q x0 xe y0 ev, P st -> events = KwEvents ev -> i1 st q x0 xe y0 ev = i2 st q x0 xe y0 ev.
Definition shoots (c : anyic) : bool := match c with ANt _ _ _ | ANs _ => true | _ => false end.
(** a root finder that only looks at the values of the function it is given *)
Definition extensional (find : ieqs -> rootfinder) : Prop :=
  forall q f g br, (forall x, f x = g x) -> find q f br = find q g br.
