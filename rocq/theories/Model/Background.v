(** Model of /repo/primpy/time/inflation.py, /repo/primpy/efolds/inflation.py and the
    methods of InflationEquations (inflation.py:379-405) they use.

    A state vector is a list of reals; [x] is the independent variable. numpy's
    NaN for [sqrt] of a negative number is not modelled: theorems assume H2 > 0. *)
From Coq Require Import Reals List String.
From Verif Require Import Base Model.Potentials Model.Equations.
Import ListNotations.
Open Scope R_scope.
Open Scope string_scope.

(** a potential object as the equations use it (methods V, dV, d2V, d3V) *)
Record potfun := mkpotfun { pV : R -> R; pdV : R -> R; pd2V : R -> R; pd3V : R -> R }.
(** every class of potentials.py is one *)
Definition potfun_of (P : pot) (L : R) : potfun := mkpotfun (V P L) (dV P L) (d2V P L) (d3V P L).

(** the [kind] argument of get_epsilon_2H/3H: 'Gong' or anything else *)
Inductive eps_kind := Gong | Standard.

(* ------------------------------------------------------------------ *)
(** ** InflationEquationsT, time/inflation.py:6-135 *)

(** InflationEquationsT.__init__, time/inflation.py:23-29: variable registration *)
Definition T_idx (track_eta : bool) : idx_map :=
  let i := add_variable ["phi"; "dphidt"; "_N"] [] in
  if track_eta then add_variable ["eta"] i else i.

(** get_H2, time/inflation.py:47-49 *)
Definition T_get_H2 (N dphi V K : R) := (dphi^2 / 2 + V) / 3 - K * exp (-2 * N).
(** get_dH, time/inflation.py:51-54 *)
Definition T_get_dH (N H dphi K : R) := - dphi^2 / 2 + K * exp (-2 * N).
(** get_dH_H, time/inflation.py:56-60 *)
Definition T_get_dH_H (N H2 dphi K : R) :=
  let H := sqrt H2 in - dphi^2 / (2 * H) + K * exp (-2 * N) / H.
(** get_d2H, time/inflation.py:62-65 *)
Definition T_get_d2H (N H dH dphi d2phi K : R) := - d2phi * dphi - 2 * K * H * exp (-2 * N).
(** get_d3H, time/inflation.py:67-70 *)
Definition T_get_d3H (N H dH d2H dphi d2phi d3phi K : R) :=
  - d3phi * dphi - d2phi^2 + 2 * K * (2 * H^2 - dH) * exp (-2 * N).
(** get_d2phi, time/inflation.py:72-75; the unused argument dH_H (None at the call site) is dropped *)
Definition T_get_d2phi (H2 dphi dV : R) := -3 * sqrt H2 * dphi - dV.
(** get_d3phi, time/inflation.py:77-80 *)
Definition T_get_d3phi (H dH d2H dphi d2phi dV d2V : R) :=
  -3 * H * d2phi - d2V * dphi + 3 * dphi^3 / 2.
(** get_d4phi, time/inflation.py:82-84 *)
Definition T_get_d4phi (H dH d2H d3H dphi d2phi d3phi dV d2V d3V : R) :=
  -3 * H * d3phi - d2V * d2phi - d3V * dphi^2 - 3 * d2H * dphi - 6 * d2phi * dH.
(** get_epsilon_1H, time/inflation.py:86-89 *)
Definition T_get_epsilon_1H (H dH : R) := - dH / H^2.
(** get_epsilon_2H, time/inflation.py:91-97 *)
Definition T_get_epsilon_2H (kind : eps_kind) (H dH d2H : R) :=
  match kind with
  | Gong => - d2H / H^3 + 2 * dH^2 / H^4
  | Standard => d2H / (H * dH) - 2 * dH / H^2
  end.
(** get_epsilon_3H, time/inflation.py:99-106 *)
Definition T_get_epsilon_3H (kind : eps_kind) (H dH d2H d3H : R) :=
  match kind with
  | Gong => - d3H / H^4 + 6 * dH * d2H / H^5 - 6 * dH^3 / H^6
  | Standard =>
      ((-3*H*d2H + 4*dH^2)*dH^2 + (dH*d3H - d2H^2)*H^2) * (H*d2H - 2*dH^2)
      / (H^2 * (H*d2H - 2*dH^2)^2 * dH)
  end.
(** get_delta_1, time/inflation.py:108-110 *)
Definition T_get_delta_1 (H dH dphi d2phi : R) := d2phi / (H * dphi).
(** get_delta_2, time/inflation.py:112-114 *)
Definition T_get_delta_2 (H dH d2H dphi d2phi d3phi : R) := d3phi / (H^2 * dphi).
(** get_delta_3, time/inflation.py:116-118 *)
Definition T_get_delta_3 (H dH d2H d3H dphi d2phi d3phi d4phi : R) := d4phi / (H^3 * dphi).

Section TimeEquations.
Variables (K : R) (U : potfun) (track_eta : bool).
Let ix := T_idx track_eta.
(** H2, time/inflation.py:120-121 *)
Definition T_H2 (x : R) (y : list R) : R :=
  T_get_H2 (var ix "_N" y) (var ix "dphidt" y) (pV U (var ix "phi" y)) K.
(** w, time/inflation.py:123-128 *)
Definition T_w (x : R) (y : list R) : R :=
  let V := pV U (var ix "phi" y) in
  let dphidt_2 := (var ix "dphidt" y)^2 in
  let p := dphidt_2 / 2 - V in
  let rho := dphidt_2 / 2 + V in
  p / rho.
(** inflating, time/inflation.py:130-131 *)
Definition T_inflating (x : R) (y : list R) : R :=
  pV U (var ix "phi" y) - (var ix "dphidt" y)^2.
(** __call__, time/inflation.py:31-45 *)
Definition T_call (x : R) (y : list R) : list R :=
  let N := var ix "_N" y in
  let H2 := T_H2 x y in
  let H := sqrt H2 in
  let dphidt := var ix "dphidt" y in
  let dVdphi := pdV U (var ix "phi" y) in
  let dy := repeat 0 (List.length y) in
  let dy := set_nth (pos_of ix "phi") dphidt dy in
  let dy := set_nth (pos_of ix "dphidt") (T_get_d2phi H2 dphidt dVdphi) dy in
  let dy := set_nth (pos_of ix "_N") H dy in
  if track_eta then set_nth (pos_of ix "eta") (exp (- N)) dy else dy.
End TimeEquations.

(* ------------------------------------------------------------------ *)
(** ** InflationEquationsN, efolds/inflation.py:6-144 *)

(** InflationEquationsN.__init__, efolds/inflation.py:25-34 *)
Definition N_idx (track_time track_eta : bool) : idx_map :=
  let i := add_variable ["phi"; "dphidN"] [] in
  let i := if track_time then add_variable ["t"] i else i in
  if track_eta then add_variable ["eta"] i else i.

(** get_H2, efolds/inflation.py:52-54 *)
Definition N_get_H2 (N dphi V K : R) := (2 * V - 6 * K * exp (-2 * N)) / (6 - dphi^2).
(** get_dH, efolds/inflation.py:56-59 *)
Definition N_get_dH (N H dphi K : R) := - dphi^2 * H / 2 + K * exp (-2 * N) / H.
(** get_dH_H, efolds/inflation.py:61-64 *)
Definition N_get_dH_H (N H2 dphi K : R) := - dphi^2 / 2 + K * exp (-2 * N) / H2.
(** get_d2H, efolds/inflation.py:66-69 *)
Definition N_get_d2H (N H dH dphi d2phi K : R) :=
  - d2phi * dphi * H - dphi^2 * dH / 2 - K * exp (-2 * N) * (2 * H + dH) / H^2.
(** get_d3H, efolds/inflation.py:71-75 *)
Definition N_get_d3H (N H dH d2H dphi d2phi d3phi K : R) :=
  - d3phi*dphi*H - d2phi^2*H - dphi^2*d2H/2 - 2*d2phi*dphi*dH
  + K*exp (-2*N) * (4*H - d2H + 4*dH + 2*dH^2/H) / H^2.
(** get_d2phi, efolds/inflation.py:77-80 *)
Definition N_get_d2phi (H2 dH_H dphi dV : R) := - (dH_H + 3) * dphi - dV / H2.
(** get_d3phi, efolds/inflation.py:82-85 *)
Definition N_get_d3phi (H dH d2H dphi d2phi dV d2V : R) :=
  (-3 - dH/H) * d2phi + (- d2H/H - d2V/H^2 + dH^2/H^2) * dphi + 2*dV*dH/H^3.
(** get_d4phi, efolds/inflation.py:87-92 *)
Definition N_get_d4phi (H dH d2H d3H dphi d2phi d3phi dV d2V d3V : R) :=
  (-3 - dH/H)*d3phi
  + (-2*d2H/H - d2V/H^2 + 2*dH^2/H^2)*d2phi
  + (- d3H/H - d3V*dphi/H^2 + 3*d2H*dH/H^2 + 4*d2V*dH/H^3 - 2*dH^3/H^3)*dphi
  + 2*(d2H/H - 3*dH^2/H^2)*dV/H^2.
(** get_epsilon_1H, efolds/inflation.py:94-97 *)
Definition N_get_epsilon_1H (H dH : R) := - dH / H.
(** get_epsilon_2H, efolds/inflation.py:99-105 *)
Definition N_get_epsilon_2H (kind : eps_kind) (H dH d2H : R) :=
  match kind with
  | Gong => - d2H/H + dH^2/H^2
  | Standard => d2H / dH - dH / H
  end.
(** get_epsilon_3H, efolds/inflation.py:107-114 *)
Definition N_get_epsilon_3H (kind : eps_kind) (H dH d2H d3H : R) :=
  match kind with
  | Gong => - d3H/H + 2*dH*d2H/H^2 - dH^3/H^3
  | Standard =>
      ((H^2*d2H*d3H - H*dH^2*d3H + 2*dH^3*d2H)*H*dH - H^3*d2H^3 - dH^6)
      / (H * Rabs (H^2*d2H^2 - 2*H*dH^2*d2H + dH^4) * dH)
  end.
(** get_delta_1, efolds/inflation.py:116-118 *)
Definition N_get_delta_1 (H dH dphi d2phi : R) := d2phi/dphi + dH/H.
(** get_delta_2, efolds/inflation.py:120-122 *)
Definition N_get_delta_2 (H dH d2H dphi d2phi d3phi : R) :=
  d3phi/dphi + 3 * (d2phi/dphi) * (dH/H) + d2H/H + dH^2 / H^2.
(** get_delta_3, efolds/inflation.py:124-127 *)
Definition N_get_delta_3 (H dH d2H d3H dphi d2phi d3phi d4phi : R) :=
  d4phi/dphi + 6*dH/H*d3phi/dphi + (4*d2H/H + 7*dH^2/H^2) * d2phi/dphi
  + d3H/H + 4*dH*d2H/H^2 + dH^3/H^3.

Section EfoldEquations.
Variables (K : R) (U : potfun) (track_time track_eta : bool).
Let ix := N_idx track_time track_eta.
(** H2, efolds/inflation.py:129-130 *)
Definition N_H2 (x : R) (y : list R) : R :=
  N_get_H2 x (var ix "dphidN" y) (pV U (var ix "phi" y)) K.
(** w, efolds/inflation.py:132-137 *)
Definition N_w (x : R) (y : list R) : R :=
  let V := pV U (var ix "phi" y) in
  let dphidt_2 := N_H2 x y * (var ix "dphidN" y)^2 in
  let p := dphidt_2 / 2 - V in
  let rho := dphidt_2 / 2 + V in
  p / rho.
(** inflating, efolds/inflation.py:139-140 *)
Definition N_inflating (x : R) (y : list R) : R :=
  pV U (var ix "phi" y) - N_H2 x y * (var ix "dphidN" y)^2.
(** __call__, efolds/inflation.py:36-50 *)
Definition N_call (x : R) (y : list R) : list R :=
  let H2 := N_H2 x y in
  let dphidN := var ix "dphidN" y in
  let dH_H := N_get_dH_H x H2 dphidN K in
  let dVdphi := pdV U (var ix "phi" y) in
  let dy := repeat 0 (List.length y) in
  let dy := set_nth (pos_of ix "phi") dphidN dy in
  let dy := set_nth (pos_of ix "dphidN") (N_get_d2phi H2 dH_H dphidN dVdphi) dy in
  let dy := if track_time then set_nth (pos_of ix "t") (1 / sqrt H2) dy else dy in
  if track_eta then set_nth (pos_of ix "eta") (exp (- x) / sqrt H2) dy else dy.
End EfoldEquations.
