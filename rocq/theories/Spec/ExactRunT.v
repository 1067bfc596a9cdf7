(** What an integration of the cosmic-time equations returns when the integrator makes no error (compare Spec/ExactRun.v,
    the same for e-folds). Independent of the package: a description of scipy.integrate.solve_ivp. *)
From Coq Require Import Reals List String ZArith.
From Verif Require Import Base Model.Equations Model.Background Model.Float Model.Solution Model.Events Spec.BackgroundSpec Spec.ExactRun.
Import ListNotations.
Open Scope R_scope.

Definition exact_run_time (K : R) (U : potfun) (te : bool) (x0 x_end : R) (y0 : list R) (events : list event) (r : raw_sol) : Prop :=
  exists z a b T, T_background K U te z a b /\ a < x0 /\ T < b /\ z x0 = y0 /\ x0 < T <= x_end /\
    (* the samples *)
    hd_error (r_t r) = Some x0 /\ last (r_t r) x0 = T /\ r_y r = map z (r_t r) /\
    (* the records: zeros of the event functions; a terminal event ends the run *)
    List.length (r_t_events r) = List.length events /\ r_y_events r = map (map z) (r_t_events r) /\
    (forall i e ts, nth_error events i = Some e -> nth_error (r_t_events r) i = Some ts ->
       NoDup ts /\
       (forall t, In t ts -> x0 <= t <= T /\ event_call (T_eqs K U te) e t (z t) = 0 /\ (event_terminal e = true -> t = T)) /\
       (forall t, x0 < t < T -> passes (event_direction e) (fun s => event_call (T_eqs K U te) e s (z s)) t -> In t ts)) /\
    (* the run goes on until the end or a terminal event *)
    (T = x_end \/ exists i e ts, nth_error events i = Some e /\ nth_error (r_t_events r) i = Some ts /\ event_terminal e = true /\ In T ts).
