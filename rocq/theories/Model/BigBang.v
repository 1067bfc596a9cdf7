(** Model of /repo/primpy/units.py, /repo/primpy/parameters.py and /repo/primpy/bigbang.py.

    Simplifications: floats are reals, NaN appears only as the square root of a negative number
    ([fl]); the arguments are finite floats; the numbers of scipy.constants are arbitrary reals
    (theorems assume them positive); N-arrays are lists of samples. *)
From Coq Require Import Reals List String ZArith Bool Lra.
From Coquelicot Require Import Coquelicot.
From Verif Require Import Base Model.Float Model.Equations Model.ApproxPower.
Import ListNotations.
Open Scope R_scope.
Open Scope string_scope.

(** ** units.py *)
(** scipy.constants: c, hbar, G, k (Boltzmann), e, parsec (units.py:3-4) *)
Record phys := mkphys { p_c : R; p_hbar : R; p_G : R; p_kB : R; p_e : R; p_parsec : R }.
(** positive constants *)
Definition phys_ok (F : phys) : Prop :=
  0 < p_c F /\ 0 < p_hbar F /\ 0 < p_G F /\ 0 < p_kB F /\ 0 < p_e F /\ 0 < p_parsec F.

Section Units.
Variable F : phys.
(** scipy's mega and giga *)
Definition mega : R := 10^6.
Definition giga : R := 10^9.
(** units.py:7-10 *)
Definition u_mp_kg : R := sqrt (p_hbar F * p_c F / (8 * PI * p_G F)).
Definition u_tp_s : R := sqrt (8 * PI * p_G F * p_hbar F / p_c F ^ 5).
Definition u_lp_m : R := sqrt (8 * PI * p_G F * p_hbar F / p_c F ^ 3).
Definition u_Tp_K : R := sqrt (p_hbar F * p_c F ^ 5 / (8 * PI * p_G F * p_kB F ^ 2)).
(** units.py:13-15 *)
Definition u_mp_GeV : R := u_mp_kg * p_c F ^ 2 / (giga * p_e F).
Definition u_tp_iGeV : R := u_tp_s / p_hbar F * giga * p_e F.
Definition u_lp_iGeV : R := u_lp_m / p_hbar F / p_c F * giga * p_e F.
(** units.py:18 *)
Definition u_Mpc_m : R := mega * p_parsec F.
(** units.py:21 *)
Definition u_a_B : R := 8 * PI ^ 5 * p_kB F ^ 4 / 15 / (2 * PI * p_hbar F) ^ 3 / p_c F ^ 3.

(** ** parameters.py *)
Definition p_K_STAR : R := 5 / 100.                        (* :4 *)
Definition p_K_STAR_lp : R := p_K_STAR / u_Mpc_m * u_lp_m. (* :5 *)
Definition p_T_CMB_K : R := 272548 / 100000.               (* :8 *)
Definition p_T_CMB_Tp : R := p_T_CMB_K / u_Tp_K.           (* :9 *)
Definition p_T_nu_TCMB : R := pypow (4 / 11) (1 / 3).      (* :10 *)
Definition p_T_nu_K : R := p_T_nu_TCMB * p_T_CMB_K.        (* :11 *)
Definition p_T_nu_Tp : R := p_T_nu_K / u_Tp_K.             (* :12 *)
Definition p_N_eff : R := 3044 / 1000.                     (* :13 *)
Definition p_z_BBN : R := 10 ^ 9.                          (* :14 *)
Definition p_g0 : R := 2 + 7 / 8 * 2 * p_N_eff * p_T_nu_TCMB ^ 3.                          (* :17 *)
Definition p_rho_gamma0 : R := u_a_B * p_T_CMB_K ^ 4 / p_c F ^ 2.                          (* :18 *)
Definition p_rho_nu0 : R := 7 / 8 * p_N_eff * p_T_nu_TCMB ^ 4 * p_rho_gamma0.              (* :20 *)
Definition p_rho_r0 : R := p_rho_gamma0 + p_rho_nu0.                                       (* :21 *)
Definition p_rho_r0_mp_ilp3 : R := p_rho_r0 / u_mp_kg * u_lp_m ^ 3.                        (* :22 *)

(** the constants used by the calibration (Model/ApproxPower.v, Model/Calibrate.v) *)
Definition consts_of (euler z3 : R) : consts :=
  mkconsts p_K_STAR u_Mpc_m u_lp_m u_mp_GeV u_lp_iGeV p_T_CMB_Tp p_g0 (p_c F) euler z3.

(** ** bigbang.py *)
(** get_H0, bigbang.py:10-20 *)
Definition get_H0 (h : R) (units : string) : res R :=
  if String.eqb units "planck" then Ok (h * 100000 / u_Mpc_m * u_tp_s)
  else if String.eqb units "H0" then Ok (h * 100)
  else if String.eqb units "SI" then Ok (h * 100000 / u_Mpc_m)
  else Raise NotImplementedError.

(** get_a0, bigbang.py:23-39. Simplification: h <> 0 (numpy returns inf otherwise). *)
Definition get_a0 (h OK0 : R) (units : string) : res R :=
  if Req_EM_T OK0 0 then Ok 1
  else
    do H0 <- get_H0 h "planck";
    let K := - np_sign OK0 in
    let a0 := sqrt (- K / OK0) / H0 in
    if String.eqb units "planck" then Ok a0
    else if String.eqb units "Mpc" then Ok (a0 * u_lp_m / u_Mpc_m)
    else if String.eqb units "SI" then Ok (a0 * u_lp_m)
    else Raise NotImplementedError.

(** get_N_BBN, bigbang.py:42-44 *)
Definition get_N_BBN (h OK0 : R) : res R :=
  do a0 <- get_a0 h OK0 "planck"; Ok (ln (a0 / (1 + p_z_BBN))).

(** get_w_delta_reh, bigbang.py:47-52. Simplification: N_reh <> N_end (division by zero otherwise). *)
Definition get_w_delta_reh (N_end N_reh l_end l_reh : R) : R * R :=
  let delta_reh := N_reh - N_end in
  let delta_cHH := l_reh - l_end in
  ((2 * delta_cHH / delta_reh - 1) / 3, delta_reh).

(** get_rho_crit_kg_im3, bigbang.py:55-59 *)
Definition get_rho_crit_kg_im3 (h : R) : res R :=
  do H0_is <- get_H0 h "SI"; Ok (3 * H0_is ^ 2 / (8 * PI * p_G F)).
(** get_Omega_r0, bigbang.py:62-66 *)
Definition get_Omega_r0 (h : R) : res R :=
  do rc <- get_rho_crit_kg_im3 h; Ok (p_rho_r0 / rc).

(** np.cosh, np.arccosh (on its domain x >= 1) *)
Definition np_cosh (x : R) : R := (exp x + exp (- x)) / 2.
Definition np_arccosh (x : R) : R := ln (x + sqrt (x ^ 2 - 1)).

(** no_Big_Bang_line, bigbang.py:118-140. The second condition repeats 0.5 <= Omega_m0. *)
Definition no_Big_Bang_line (m : R) : res R :=
  if Req_EM_T m 0 then Ok 1
  else if andb (if Rlt_dec 0 m then true else false) (if Rle_dec m (1/2) then true else false)
  then Ok (4 * m * np_cosh (np_arccosh ((1 - m) / m) / 3) ^ 3)
  else if Rle_dec (1/2) m then Ok (4 * m * cos (acos ((1 - m) / m) / 3) ^ 3)
  else Raise ValueError.

(** expand_recollapse_line, bigbang.py:143-163 *)
Definition expand_recollapse_line (m : R) : res R :=
  if andb (if Rle_dec 0 m then true else false) (if Rlt_dec m 1 then true else false) then Ok 0
  else if Rle_dec 1 m then Ok (4 * m * cos (acos ((1 - m) / m) / 3 + 4 * PI / 3) ^ 3)
  else Raise ValueError.

(** Hubble_parameter, bigbang.py:69-115, for one N. Returns whether a BigBangWarning is issued and the
    value (NaN if the radicand is negative). *)
Definition Hubble_parameter (N m OK0 h : R) (units : string) : res (bool * fl) :=
  do H0 <- get_H0 h units;
  do Or <- get_Omega_r0 h;
  let OL := 1 - Or - m - OK0 in
  do nbb <- no_Big_Bang_line m;
  if Rlt_dec nbb OL then Raise BigBangError
  else
    do rec <- expand_recollapse_line m;
    let warned := if Rlt_dec OL rec then true else false in
    do a0 <- get_a0 h OK0 "planck";
    let N0 := ln a0 in
    let x := exp (N0 - N) in
    Ok (warned, fmul (Fin H0) (fsqrt (Fin (Or * x ^ 4 + m * x ^ 3 + OK0 * x ^ 2 + OL)))).

(** comoving_Hubble_horizon, bigbang.py:166-208. units='H0' behaves like 'Mpc'; any other string
    raises in Hubble_parameter. *)
Definition comoving_Hubble_horizon (N m OK0 h : R) (units : string) : res fl :=
  do a0 <- get_a0 h OK0 "planck";
  let a := exp N in
  let units := if String.eqb units "Mpc" then "H0" else units in
  do w <- Hubble_parameter N m OK0 h units;
  let H := snd w in
  if String.eqb units "planck" then Ok (fdiv (Fin a0) (fmul (Fin a) H))
  else if String.eqb units "H0" then Ok (fdiv (Fin (a0 * p_c F)) (fmul (fmul (Fin a) H) (Fin 1000)))
  else Ok (fdiv (Fin (a0 * p_c F)) (fmul (Fin a) H)).

(** ** conformal_time, bigbang.py:211-256 *)
(** the type of the argument N: Python float/int (np.float64 is a float), np.ndarray, anything else *)
Inductive Narg := NScalar (N : R) | NArray (Ns : list R) | NOther.
(** what is returned: scipy's (value, error estimate) for a scalar, an array for an array *)
Inductive ctime := CPair (eta err : R) | CArray (etas : list R).
(** scipy.integrate.quad as an oracle: integrand (or an exception it raises), limits to value and error.
    The integrand raises for every n or for none. *)
Definition quadrature := (R -> fl) -> R -> R -> R * R.
Definition integrand (m OK0 h : R) (n : R) : res fl :=
  do w <- Hubble_parameter n m OK0 h "planck"; Ok (fdiv (Fin (exp (- n))) (snd w)).
Definition ct_scalar (quad : quadrature) (Ns m OK0 h N : R) : res (R * R) :=
  do w <- integrand m OK0 h Ns;   (* the exceptions of the integrand do not depend on n *)
  Ok (quad (fun n => match integrand m OK0 h n with Ok v => v | Raise _ => NaN end) Ns N).
Definition conformal_time (quad : quadrature) (Nstart : R) (N : Narg) (m OK0 h : R) : res ctime :=
  match N with
  | NScalar n => do r <- ct_scalar quad Nstart m OK0 h n; Ok (CPair (fst r) (snd r))
  | NArray l =>
      (fix go l : res ctime :=
         match l with
         | [] => Ok (CArray [])
         | n :: t =>
             do r <- ct_scalar quad Nstart m OK0 h n;
             do rest <- go t;
             match rest with CArray es => Ok (CArray (fst r :: es)) | CPair _ _ => Raise TypeError end
         end) l
  | NOther => Raise TypeError
  end.

(** conformal_time_ratio, bigbang.py:259-298. A background is given by its conformal time samples
    [eta], the attribute [_N_end] and the attribute [a0] (both set by post-processing/calibration). *)
Record ctbg := mkctbg { ct_eta : list R; ct_N_end : R; ct_a0 : option R }.
Definition first_of {A} (l : list A) : res A := match l with h :: _ => Ok h | [] => Raise IndexError end.
Definition last_of' {A} (l : list A) : res A := match rev l with h :: _ => Ok h | [] => Raise IndexError end.
Definition conformal_time_ratio (quad : quadrature) (m OK0 h : R) (fw : ctbg) (bw : option ctbg) : res R :=
  do eta_beg <- match bw with None => first_of (ct_eta fw) | Some b => last_of' (ct_eta b) end;
  do eta_end <- last_of' (ct_eta fw);
  do a0 <- match ct_a0 fw with Some a => Ok a | None => Raise AttributeError end;
  do after <- conformal_time quad (ct_N_end fw) (NScalar (ln a0)) m OK0 h;
  match after with
  | CPair v _ => Ok ((eta_end - eta_beg) / v)
  | CArray _ => Raise TypeError
  end.
End Units.
