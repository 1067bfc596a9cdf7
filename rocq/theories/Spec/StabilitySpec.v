(** Vocabulary for C117: how far apart two runs are at one moment. *)
From Coq Require Import Reals List String.
From Verif Require Import Base Model.Potentials Model.Equations Model.Background Spec.BackgroundSpec.
Open Scope R_scope.

(** squared distance of (phi, dphi/dt, N) between two cosmic-time runs at time t *)
Definition T_gap te (y z : R -> list R) (t : R) : R :=
  (T_phi te y t - T_phi te z t)^2 + (T_dphi te y t - T_dphi te z t)^2 + (T_N te y t - T_N te z t)^2.
(** squared distance of (phi, dphi/dN) between two e-fold runs at N *)
Definition N_gap tt te (y z : R -> list R) (n : R) : R :=
  (N_phi tt te y n - N_phi tt te z n)^2 + (N_dphi tt te y n - N_dphi tt te z n)^2.
(** the potential is differentiable (V, V', V'') in a band of width r around the field values of a run *)
Definition smooth_around (U : potfun) (phi : R -> R) (c d r : R) : Prop :=
  forall s x, c <= s <= d -> Rabs (x - phi s) <= r -> smooth_pot U x.
