(** Model of the attributes [direction] and [terminal] of the event classes, /repo/primpy/events.py,
    and of their constructor defaults. Model/Solution.v has the classes themselves ([event]) and their
    [__call__] ([event_call]). *)
From Coq Require Import Reals List String ZArith Bool.
From Verif Require Import Base Model.Equations Model.Background Model.Float Model.Solution.
Import ListNotations.
Open Scope R_scope.

(** self.direction, events.py:27-29. Simplification: UntilTEvent, UntilNEvent and CollapseEvent are
    modelled with their default direction 0 and terminal=True (events.py:57, 69, 108) only. *)
Definition event_direction (e : event) : Z :=
  match e with
  | UntilT _ | UntilN _ | Collapse _ => 0
  | Inflation d _ _ _ | AfterInflationEnd d _ _ | Phi0 d _ _ | ModeExit d _ _ => d
  end.
(** self.terminal, events.py:29 *)
Definition event_terminal (e : event) : bool :=
  match e with
  | UntilT _ | UntilN _ | Collapse _ => true
  | Inflation _ t _ _ | AfterInflationEnd _ t _ | Phi0 _ t _ | ModeExit _ t _ => t
  end.
(** InflationEvent(equations), events.py:81 *)
Definition InflationEvent0 : event := Inflation 0 false 0 None.
(** AfterInflationEndEvent(equations), events.py:96 *)
Definition AfterInflationEndEvent0 : event := AfterInflationEnd 1 true 0.
(** CollapseEvent(equations), events.py:108 *)
Definition CollapseEvent0 : event := Collapse 0.
(** Phi0Event(equations), events.py:120 *)
Definition Phi0Event0 : event := Phi0 0 true 0.
(** ModeExitEvent(equations, value), events.py:132 *)
Definition ModeExitEvent0 (k : R) : event := ModeExit 0 true k.
