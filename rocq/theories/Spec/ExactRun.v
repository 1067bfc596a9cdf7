(** What an integration of the e-fold equations returns when the integrator makes no error: samples of an exact solution,
    stopped by the first terminal event. Independent of the package: a description of scipy.integrate.solve_ivp. *)
From Coq Require Import Reals List String ZArith.
From Verif Require Import Base Model.Equations Model.Background Model.Float Model.Solution Model.Events Spec.BackgroundSpec.
Import ListNotations.
Open Scope R_scope.

(** f passes through zero at t, strictly *)
Definition rises_through (f : R -> R) (t : R) : Prop := f t = 0 /\ exists d, 0 < d /\ forall s, (t - d < s < t -> f s < 0) /\ (t < s < t + d -> 0 < f s).
Definition falls_through (f : R -> R) (t : R) : Prop := rises_through (fun s => - f s) t.
(** ... in the direction the event asks for (positive: rising, negative: falling, 0: either) *)
Definition passes (dir : Z) (f : R -> R) (t : R) : Prop := ((0 <= dir)%Z /\ rises_through f t) \/ ((dir <= 0)%Z /\ falls_through f t).

Definition exact_run (K : R) (U : potfun) (tm te : bool) (x0 x_end : R) (y0 : list R) (events : list event) (r : raw_sol) : Prop :=
  exists z a b T, N_background K U tm te z a b /\ a < x0 /\ T < b /\ z x0 = y0 /\ x0 < T <= x_end /\
    (* the samples *)
    hd_error (r_t r) = Some x0 /\ last (r_t r) x0 = T /\ r_y r = map z (r_t r) /\
    (* the records: zeros of the event functions; a terminal event ends the run *)
    List.length (r_t_events r) = List.length events /\ r_y_events r = map (map z) (r_t_events r) /\
    (forall i e ts, nth_error events i = Some e -> nth_error (r_t_events r) i = Some ts ->
       NoDup ts /\
       (forall t, In t ts -> x0 <= t <= T /\ event_call (N_eqs K U tm te) e t (z t) = 0 /\ (event_terminal e = true -> t = T)) /\
       (forall t, x0 < t < T -> passes (event_direction e) (fun s => event_call (N_eqs K U tm te) e s (z s)) t -> In t ts)) /\
    (* the run goes on until the end or a terminal event *)
    (T = x_end \/ exists i e ts, nth_error events i = Some e /\ nth_error (r_t_events r) i = Some ts /\ event_terminal e = true /\ In T ts).
