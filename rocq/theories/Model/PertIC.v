(** Model of the class attribute [perturbation_ic] of the potentials: the default starting values
    (y0_1, dy0_1, y0_2, dy0_2) solve_oscode hands to the integrator. *)
From Coq Require Import Reals List.
From Verif Require Import Base Model.Potentials.
Import ListNotations.
Open Scope R_scope.

(** potentials.py:285, 364, 392, 440, 468, 497, 624, 749, 857, 906, 966, 1073, 1192; the feature potentials
    (potentials.py:1415-1428) inherit it from StarobinskyPotential *)
Definition perturbation_ic (P : pot) : list R :=
  match P with
  | Monomial _ => [1; 0; 0; 1]
  | Linear => [1; 0; 0; 1]
  | Quadratic => [1; 0; 0; 1]
  | Cubic => [1; 0; 0; 1]
  | Quartic => [1; 0; 0; 1]
  | Starobinsky => [1; 0; 0; 1]
  | Natural _ => [1; 0; 0; 1]
  | DoubleWell _ _ => [1; 0; 0; 1]
  | DoubleWell2 _ => [1; 0; 0; 1]
  | DoubleWell4 _ => [1; 0; 0; 1]
  | Tmodel _ _ => [1; 0; 0; 1]
  | RadionGauge _ _ => [1; 0; 0; 1]
  | RadionGauge2 _ => [1; 0; 0; 1]
  | StarobinskyGaussianDip _ _ _ => [1; 0; 0; 1]
  | StarobinskyTanhStep _ _ _ => [1; 0; 0; 1]
  end.
