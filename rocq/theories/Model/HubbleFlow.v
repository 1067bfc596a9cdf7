(** Model of InflationaryPotential.get_epsilon_1 .. get_epsilon_4, /repo/primpy/potentials.py:180-213:
    approximations of the Hubble-flow parameters from the potential slow-roll parameters
    (methods of the base class, not overridden by any subclass). *)
From Coq Require Import Reals.
From Verif Require Import Base Model.Potentials.
Open Scope R_scope.

(** the polynomials, with [e5V = 0] as set in potentials.py:203, 212 *)
(* potentials.py:180-185 *)
Definition flow1 (e1V e2V e3V : R) : R :=
  e1V - e1V * e2V / 3 - e1V^2 * e2V / 9 + 5/36 * e1V * e2V^2 + e1V * e2V * e3V / 9.
(* potentials.py:187-194 *)
Definition flow2 (e1V e2V e3V e4V : R) : R :=
  e2V - 1/6*e2V^2 - 1/3*e2V*e3V - 1/6*e1V*e2V^2 + 1/18*e2V^3 - 1/9*e1V*e2V*e3V
  + 5/18*e2V^2*e3V + 1/9*e2V*e3V^2 + 1/9*e2V*e3V*e4V.
(* potentials.py:196-205 *)
Definition flow3 (e1V e2V e3V e4V : R) : R :=
  let e5V := 0 in
  e3V - 1/3*e2V*e3V - 1/3*e3V*e4V - 1/6*e1V*e2V^2 - 1/3*e1V*e2V*e3V
  + 1/6*e2V^2*e3V + 5/18*e2V*e3V^2 - 1/9*e1V*e3V*e4V + 5/18*e2V*e3V*e4V
  + 1/9*e3V^2*e4V + 1/9*e3V*e4V^2 + 1/9*e3V*e4V*e5V.
(* potentials.py:207-213 *)
Definition flow4 (e2V e3V e4V : R) : R :=
  let e5V := 0 in
  e4V - 1/3*e2V*e3V - 1/6*e2V*e4V - 1/3*e4V*e5V.

(** get_epsilon_1, potentials.py:180-185 *)
Definition get_epsilon_1 (P : pot) (phi : R) : R := flow1 (eps1V P phi) (eps2V P phi) (eps3V P phi).
(** get_epsilon_2, potentials.py:187-194 *)
Definition get_epsilon_2 (P : pot) (phi : R) : R := flow2 (eps1V P phi) (eps2V P phi) (eps3V P phi) (eps4V P phi).
(** get_epsilon_3, potentials.py:196-205 *)
Definition get_epsilon_3 (P : pot) (phi : R) : R := flow3 (eps1V P phi) (eps2V P phi) (eps3V P phi) (eps4V P phi).
(** get_epsilon_4, potentials.py:207-213 *)
Definition get_epsilon_4 (P : pot) (phi : R) : R := flow4 (eps2V P phi) (eps3V P phi) (eps4V P phi).
