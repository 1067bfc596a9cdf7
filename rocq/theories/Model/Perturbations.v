(** Model of /repo/primpy/perturbations.py, /repo/primpy/time/perturbations.py and
    /repo/primpy/efolds/perturbations.py.

    Simplifications: the parallel arrays of the background object are a list of
    [sample] records; Python floats and complexes are reals and Coquelicot's [C];
    numpy's NaN for [sqrt] of a negative real (HD vacua) is not modelled, [sqrt] is 0
    there, so the theorems on HD vacua assume a positive radicand; division by 0 is
    likewise excluded by hypotheses of the theorems. *)
From Coq Require Import Reals List Bool.
From Coquelicot Require Import Coquelicot Complex.
From Verif Require Import Base Model.Potentials Model.Equations Model.Background.
Import ListNotations.
Open Scope R_scope.

(** one grid point of the background solution: attributes [_N], [H], [phi], [dphidt]
    (cosmic time) or [dphidN] (e-folds), and [Omega_K] (inflation.py:456-458) *)
Record sample := mksample { s_N : R; s_H : R; s_phi : R; s_dphidt : R; s_dphidN : R; s_OmK : R }.

(** Omega_K attribute, inflation.py:457-458: -K * exp(-2 * (_N + log H)) *)
Definition OmegaK_attr (K N H : R) : R := - K * exp (-2 * (N + ln H)).

(** scalar wavenumber, time/perturbations.py:59 and efolds/perturbations.py:64 *)
Definition kappa2 (K k : R) : R := k^2 + k * K * (K + 1) - 3 * K.

Section Coefficients.
Variables (K k : R) (U : potfun).

(** ScalarModeT.mukhanov_sasaki_frequency_damping, time/perturbations.py:60-64, one sample *)
Definition Ts_shared (s : sample) : R :=
  2 * kappa2 K k / (kappa2 K k + K * s_dphidt s^2 / (2 * s_H s^2)).
Definition Ts_terms (s : sample) : R :=
  s_dphidt s^2 / (2 * s_H s^2) - 3 - pdV U (s_phi s) / (s_H s * s_dphidt s)
  - K * exp (-2 * s_N s) / s_H s^2.
Definition Ts_frequency2 (s : sample) : R :=
  kappa2 K k * exp (-2 * s_N s) - K * exp (-2 * s_N s) * (1 + Ts_shared s * Ts_terms s).
Definition Ts_damping (s : sample) : R :=
  (3 * s_H s + Ts_shared s * Ts_terms s * s_H s) / 2.

(** TensorModeT.mukhanov_sasaki_frequency_damping, time/perturbations.py:153-154 *)
Definition Tt_frequency2 (s : sample) : R := (k^2 + k * K * (K + 1) + 2 * K) * exp (-2 * s_N s).
Definition Tt_damping (s : sample) : R := 3 * s_H s / 2.

(** ScalarModeN.mukhanov_sasaki_frequency_damping, efolds/perturbations.py:57-69 *)
Definition Ns_xi (s : sample) : R := s_OmK s + s_dphidN s^2 / 2 - 3.
Definition Ns_damping2 (s : sample) : R :=
  2 * kappa2 K k / (kappa2 K k + K * (s_dphidN s^2 / 2))
  * (Ns_xi s - pdV U (s_phi s) / (s_H s^2 * s_dphidN s)) - Ns_xi s.
Definition Ns_frequency2 (s : sample) : R :=
  kappa2 K k / (exp (2 * s_N s) * s_H s^2) + (Ns_damping2 s + Ns_xi s + 1) * s_OmK s.
Definition Ns_damping (s : sample) : R := Ns_damping2 s / 2.

(** TensorModeN.mukhanov_sasaki_frequency_damping, efolds/perturbations.py:163-164 *)
Definition Nt_frequency2 (s : sample) : R :=
  (k^2 + k * K * (K + 1) + 2 * K) * exp (-2 * s_N s) / s_H s^2.
Definition Nt_damping (s : sample) : R :=
  (3 - s_dphidN s^2 / 2 + K * exp (-2 * s_N s) / s_H s^2) / 2.
End Coefficients.

(** np.sqrt of a complex number with imaginary part +0 (principal branch) *)
Definition csqrt_real (x : R) : C := if Rlt_dec x 0 then (0, sqrt (- x)) else (sqrt x, 0).

(** the common tail of the four methods, e.g. time/perturbations.py:65-68:
    real square roots if every entry is positive, complex ones otherwise *)
Definition ms_frequency (f2 : list R) : list C :=
  if forallb (fun x => if Rlt_dec 0 x then true else false) f2
  then map (fun x => RtoC (sqrt x)) f2
  else map csqrt_real f2.

(** numpy slice [l[beg:end+1]], e.g. time/perturbations.py:54-57 *)
Definition slice {A} (i j : nat) (l : list A) : list A := firstn (S j - i) (skipn i l).

Open Scope C_scope.

(* ------------------------------------------------------------------ *)
(** ** vacuum initial conditions: value and derivative *)

(** [(-1j * w / a - d) * r] for real w, a, d, r *)
Definition cderiv (w a d r : R) : C := (- Ci * RtoC w / RtoC a - RtoC d) * RtoC r.

Section Vacua.
Variables (K k : R) (U : potfun).

(** ScalarModeT.get_vacuum_ic_k, time/perturbations.py:70-86 *)
Definition Ts_vac_k (s : sample) : C * C :=
  (let a := exp (s_N s) in
   let H := s_H s in let p := s_dphidt s in
   let dH_H := T_get_dH_H (s_N s) (H^2) p K in
   let d2phi := T_get_d2phi (H^2) p (pdV U (s_phi s)) in
   let z := a * p / H in
   let dz_z := H + d2phi / p - dH_H in
   let r := 1 / sqrt (2 * k) / z in
   (RtoC r, cderiv k a dz_z r))%R.

(** ScalarModeT.get_vacuum_ic_HD, time/perturbations.py:88-112 *)
Definition Ts_HD_wk (s : sample) : R :=
  (let a := exp (s_N s) in
   let H := s_H s in let p := s_dphidt s in
   let dV := pdV U (s_phi s) in let d2V := pd2V U (s_phi s) in
   let dH := T_get_dH (s_N s) H p K in
   let dH_H := T_get_dH_H (s_N s) (H^2) p K in
   let d2phi := T_get_d2phi (H^2) p dV in
   let d2H := T_get_d2H (s_N s) H dH p d2phi K in
   let d3phi := T_get_d3phi H dH d2H p d2phi dV d2V in
   let dz_z := H + d2phi / p - dH_H in
   let d2z_z := H^2 + 2 * H * d2phi / p + d3phi / p - dH
                - d2H / H - 2 * d2phi * dH_H / p + 2 * dH_H^2 in
   a * sqrt (k^2 / a^2 - H * dz_z - d2z_z))%R.
Definition Ts_vac_HD (s : sample) : C * C :=
  (let a := exp (s_N s) in
   let H := s_H s in let p := s_dphidt s in
   let dH_H := T_get_dH_H (s_N s) (H^2) p K in
   let d2phi := T_get_d2phi (H^2) p (pdV U (s_phi s)) in
   let z := a * p / H in
   let dz_z := H + d2phi / p - dH_H in
   let r := 1 / sqrt (2 * Ts_HD_wk s) / z in
   (RtoC r, cderiv (Ts_HD_wk s) a dz_z r))%R.

(** ScalarModeT.get_vacuum_ic_RST, time/perturbations.py:114-122 *)
Definition Ts_vac_RST (s : sample) : C * C :=
  (let a := exp (s_N s) in
   let z := a * s_dphidt s / s_H s in
   let r := 1 / sqrt (2 * k) / z in
   (RtoC r, (- Ci * RtoC k / RtoC a * RtoC r)%C))%R.

(** TensorModeT.get_vacuum_ic_k, time/perturbations.py:160-166 *)
Definition Tt_vac_k (s : sample) : C * C :=
  (let a := exp (s_N s) in
   let r := 2 / sqrt (2 * k) / a in
   (RtoC r, cderiv k a (s_H s) r))%R.

(** TensorModeT.get_vacuum_ic_HD, time/perturbations.py:168-178 *)
Definition Tt_HD_wk (s : sample) : R :=
  (let a := exp (s_N s) in
   let dH := T_get_dH (s_N s) (s_H s) (s_dphidt s) K in
   a * sqrt (k^2 / a^2 - 2 * s_H s^2 - dH))%R.
Definition Tt_vac_HD (s : sample) : C * C :=
  (let a := exp (s_N s) in
   let r := 2 / sqrt (2 * Tt_HD_wk s) / a in
   (RtoC r, cderiv (Tt_HD_wk s) a (s_H s) r))%R.

(** TensorModeT.get_vacuum_ic_RST, time/perturbations.py:180-185 *)
Definition Tt_vac_RST (s : sample) : C * C :=
  (let a := exp (s_N s) in
   let r := 2 / sqrt (2 * k) / a in
   (RtoC r, (- Ci * RtoC k / RtoC a * RtoC r)%C))%R.

(** ScalarModeN.get_vacuum_ic_k, efolds/perturbations.py:75-91 *)
Definition Ns_vac_k (s : sample) : C * C :=
  (let a := exp (s_N s) in
   let H := s_H s in let p := s_dphidN s in
   let dH_H := N_get_dH_H (s_N s) (H^2) p K in
   let d2phi := N_get_d2phi (H^2) dH_H p (pdV U (s_phi s)) in
   let z := a * p in
   let dz_z := d2phi / p + 1 in
   let r := 1 / sqrt (2 * k) / z in
   (RtoC r, cderiv k (a * H) dz_z r))%R.

(** ScalarModeN.get_vacuum_ic_HD, efolds/perturbations.py:93-117 *)
Definition Ns_HD_wk (s : sample) : R :=
  (let a := exp (s_N s) in
   let H := s_H s in let p := s_dphidN s in
   let dV := pdV U (s_phi s) in let d2V := pd2V U (s_phi s) in
   let dH := N_get_dH (s_N s) H p K in
   let dH_H := N_get_dH_H (s_N s) (H^2) p K in
   let d2phi := N_get_d2phi (H^2) dH_H p dV in
   let d2H := N_get_d2H (s_N s) H dH p d2phi K in
   let d3phi := N_get_d3phi H dH d2H p d2phi dV d2V in
   let dz_z := d2phi / p + 1 in
   let d2z_z := d3phi / p + 2 * d2phi / p + 1 in
   a * H * sqrt (k^2 / (a * H)^2 - (1 + dH / H) * dz_z - d2z_z))%R.
Definition Ns_vac_HD (s : sample) : C * C :=
  (let a := exp (s_N s) in
   let H := s_H s in let p := s_dphidN s in
   let dH_H := N_get_dH_H (s_N s) (H^2) p K in
   let d2phi := N_get_d2phi (H^2) dH_H p (pdV U (s_phi s)) in
   let z := a * p in
   let dz_z := d2phi / p + 1 in
   let r := 1 / sqrt (2 * Ns_HD_wk s) / z in
   (RtoC r, cderiv (Ns_HD_wk s) (a * H) dz_z r))%R.

(** ScalarModeN.get_vacuum_ic_RST, efolds/perturbations.py:119-127 *)
Definition Ns_vac_RST (s : sample) : C * C :=
  (let a := exp (s_N s) in
   let z := a * s_dphidN s in
   let r := 1 / sqrt (2 * k) / z in
   (RtoC r, (- Ci * RtoC k / RtoC (a * s_H s)%R * RtoC r)%C))%R.

(** TensorModeN.get_vacuum_ic_k, efolds/perturbations.py:170-176 *)
Definition Nt_vac_k (s : sample) : C * C :=
  (let a := exp (s_N s) in
   let r := 2 / sqrt (2 * k) / a in
   (RtoC r, cderiv k (a * s_H s) 1 r))%R.

(** TensorModeN.get_vacuum_ic_HD, efolds/perturbations.py:178-188 *)
Definition Nt_HD_wk (s : sample) : R :=
  (let a := exp (s_N s) in
   let dH := N_get_dH (s_N s) (s_H s) (s_dphidN s) K in
   a * s_H s * sqrt (k^2 / (a * s_H s)^2 - 2 - dH / s_H s))%R.
Definition Nt_vac_HD (s : sample) : C * C :=
  (let a := exp (s_N s) in
   let r := 2 / sqrt (2 * Nt_HD_wk s) / a in
   (RtoC r, cderiv (Nt_HD_wk s) (a * s_H s) 1 r))%R.

(** TensorModeN.get_vacuum_ic_RST, efolds/perturbations.py:190-196 *)
Definition Nt_vac_RST (s : sample) : C * C :=
  (let a := exp (s_N s) in
   let r := 2 / sqrt (2 * k) / a in
   (RtoC r, (- Ci * RtoC k / RtoC (a * s_H s)%R * RtoC r)%C))%R.
End Vacua.

(* ------------------------------------------------------------------ *)
(** ** Perturbation._get_coefficients_a_b, perturbations.py:75-80 *)
Definition coefficients_a_b (uk duk y1 dy1 y2 dy2 : C) : C * C :=
  ((uk * dy2 - duk * y2) / (y1 * dy2 - dy1 * y2),
   (uk * dy1 - duk * y1) / (y2 * dy1 - dy2 * y1)).

(** pps_norm of ScalarMode / TensorMode, perturbations.py:122, 136 *)
Definition scalar_pps_norm (k : R) : R := (k^3 / (2 * PI^2))%R.
Definition tensor_pps_norm (k : R) : R := (k^3 / (2 * PI^2) * 2)%R.

(** l[-5:] *)
Definition last_five {A} (l : list A) : list A := skipn (List.length l - 5) l.

(** Perturbation._combine_solutions, perturbations.py:58-70, one mode and one vacuum:
    the two pyoscode solutions (values and derivatives along their grids), the vacuum
    data and the oracle [np.nanmedian]; y1[0] of an empty array is an IndexError. *)
Definition combine_solutions (nanmedian : list C -> C) (norm : R) (vac : C * C)
           (y1 dy1 y2 dy2 : list C) : res R :=
  match y1, dy1, y2, dy2 with
  | a1 :: _, b1 :: _, a2 :: _, b2 :: _ =>
      let ab := coefficients_a_b (fst vac) (snd vac) a1 b1 a2 b2 in
      let uk_end := fst ab * nanmedian (last_five y1) + snd ab * nanmedian (last_five y2) in
      Ok ((Cmod uk_end)^2 * norm)%R
  | _, _, _, _ => Raise IndexError
  end.

(** the dense output P_<tag>_<vac>_eval, perturbations.py:71-73 *)
Definition combine_eval (norm : R) (ab : C * C) (y1 y2 : list C) : list R :=
  map (fun p : C * C => ((Cmod (fst ab * fst p + snd ab * snd p)%C)^2 * norm)%R) (List.combine y1 y2).
