(** How scipy's solve_ivp uses an event (scipy/integrate/_ivp/ivp.py, find_active_events): on a step of
    the integration the event is active if its function changes sign in the event's direction, where a
    zero counts for both sides. *)
From Coq Require Import Reals ZArith.
Open Scope R_scope.
Definition upward (g1 g2 : R) : Prop := g1 <= 0 /\ 0 <= g2.
Definition downward (g1 g2 : R) : Prop := 0 <= g1 /\ g2 <= 0.
Definition active (dir : Z) (g1 g2 : R) : Prop :=
  ((0 < dir)%Z /\ upward g1 g2) \/ ((dir < 0)%Z /\ downward g1 g2) \/ (dir = 0%Z /\ (upward g1 g2 \/ downward g1 g2)).
