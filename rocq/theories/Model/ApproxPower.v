(** Model of the slow-roll approximations of the primordial power spectra,
    /repo/primpy/inflation.py:872-1543.

    scipy's InterpolatedUnivariateSpline is an oracle: a spline is identified with its degree,
    its extrapolation mode and its knots; [splines] says whether scipy accepts the knots
    (ValueError otherwise) and gives the values and derivatives.
    Simplifications: finite samples (a NaN or infinity in a masked array is a ValueError here);
    the division of a sample by zero (numpy: inf/NaN) is not modelled; the keyword arguments of
    the spline other than k and ext are left at their defaults. *)
From Coq Require Import Reals List String ZArith Bool.
From Verif Require Import Base Model.Equations Model.Background Model.Float Model.Solution Model.Interp Model.State.
Import ListNotations.
Open Scope R_scope.
Open Scope string_scope.

(** physical constants of units.py and parameters.py plus np.euler_gamma and scipy's zeta(3),
    kept abstract (theorems assume positivity where needed, see Spec/CalibSpec.v) *)
Record consts := mkconsts {
  K_STAR : R; Mpc_m : R; lp_m : R; mp_GeV : R; lp_iGeV : R; T_CMB_Tp : R; g0 : R; c_light : R;
  euler_gamma : R; zeta3 : R }.
(** K_STAR_lp, parameters.py:5 *)
Definition K_STAR_lp (C : consts) : R := K_STAR C / Mpc_m C * lp_m C.

Record splines := mksplines {
  spl_accept : nat -> list (R * R) -> bool;                      (* constructor does not raise *)
  spl_eval : nat -> string -> list (R * R) -> nat -> R -> R      (* degree, ext, knots, derivative, point *)
}.

(** the equations object behind a solution: InflationEquationsT or InflationEquationsN,
    with [self.K] and the potential *)
Inductive akind := AT | AN.
Record aeqs := mkaeqs { a_kind : akind; a_K : R; a_U : potfun }.

(* ------------------------------------------------------------------ *)
(** ** Hubble-flow parameters of one sample, inflation.py:911-938 (also 969-970 and,
    for fewer parameters, 1084-1104, 1161-1181, 1238-1259) *)
Record flow := mkflow {
  fe1 : R; fe2 : R; fe3 : R;    (* get_epsilon_1H, 2H, 3H *)
  fd1 : R; fd2 : R; fd3 : R;    (* get_delta_1, 2, 3 *)
  fg2 : R; fg3 : R              (* get_epsilon_2H, 3H with kind='Gong' *)
}.
Definition flow_of (q : aeqs) (K N H phi dphi : R) : flow :=
  let dV := pdV (a_U q) phi in
  let d2V := pd2V (a_U q) phi in
  let d3V := pd3V (a_U q) phi in
  match a_kind q with
  | AT =>
      let dH := T_get_dH N H dphi K in
      let d2phi := T_get_d2phi (H^2) dphi dV in
      let d2H := T_get_d2H N H dH dphi d2phi K in
      let d3phi := T_get_d3phi H dH d2H dphi d2phi dV d2V in
      let d3H := T_get_d3H N H dH d2H dphi d2phi d3phi K in
      let d4phi := T_get_d4phi H dH d2H d3H dphi d2phi d3phi dV d2V d3V in
      mkflow (T_get_epsilon_1H H dH) (T_get_epsilon_2H Standard H dH d2H) (T_get_epsilon_3H Standard H dH d2H d3H)
             (T_get_delta_1 H dH dphi d2phi) (T_get_delta_2 H dH d2H dphi d2phi d3phi)
             (T_get_delta_3 H dH d2H d3H dphi d2phi d3phi d4phi)
             (T_get_epsilon_2H Gong H dH d2H) (T_get_epsilon_3H Gong H dH d2H d3H)
  | AN =>
      let dH := N_get_dH N H dphi K in
      let dH_H := N_get_dH_H N (H^2) dphi K in
      let d2phi := N_get_d2phi (H^2) dH_H dphi dV in
      let d2H := N_get_d2H N H dH dphi d2phi K in
      let d3phi := N_get_d3phi H dH d2H dphi d2phi dV d2V in
      let d3H := N_get_d3H N H dH d2H dphi d2phi d3phi K in
      let d4phi := N_get_d4phi H dH d2H d3H dphi d2phi d3phi dV d2V d3V in
      mkflow (N_get_epsilon_1H H dH) (N_get_epsilon_2H Standard H dH d2H) (N_get_epsilon_3H Standard H dH d2H d3H)
             (N_get_delta_1 H dH dphi d2phi) (N_get_delta_2 H dH d2H dphi d2phi d3phi)
             (N_get_delta_3 H dH d2H d3H dphi d2phi d3phi d4phi)
             (N_get_epsilon_2H Gong H dH d2H) (N_get_epsilon_3H Gong H dH d2H d3H)
  end.

(** leading order, inflation.py:942,972,1116-1117,1184-1185,1274-1275 *)
Definition Ps0 (H e1 : R) : R := H^2 / (8 * PI^2 * e1).
Definition Pt0 (H : R) : R := 2 * (H / PI)^2.

(* ------------------------------------------------------------------ *)
(** ** Choe, Gong & Stewart, inflation.py:943-983 *)
Section CGS.
Variables (C : consts) (f : flow).
Let e1 := fe1 f. Let d1 := fd1 f. Let d2 := fd2 f. Let d3 := fd3 f. Let e2 := fg2 f. Let e3 := fg3 f.
Definition cgs_alpha : R := 2 - ln 2 - euler_gamma C.
Let astar := cgs_alpha - e1.
Definition cgs1_s : R :=
  1 + (4 * astar - 2) * e1 + 2 * astar * d1 + (- astar^2 + PI^2 / 12) * d2
  + (1 / 3 * astar^3 - PI^2 / 12 * astar + 4 / 3 - 2 / 3 * zeta3 C) * d3.
Definition cgs2_s : R :=
  (4 * astar^2 - 19 + 7 * PI^2 / 3) * e1^2
  + (3 * astar^2 + 2 * astar - 20 + 29 * PI^2 / 12) * e1 * d1
  + (3 * astar^2 - 4 + 5 * PI^2 / 12) * d1^2
  + (-5/3 * astar^3 - 2 * astar^2 + 20 * astar - 9/4 * PI^2 * astar
     + 16/3 + PI^2 / 6 - 14/3 * zeta3 C) * e1 * d2
  + (-3*astar^3 + 8*astar - 7/12 * PI^2 * astar - 4 + 2 * zeta3 C) * d1 * d2.
Definition cgs3_s : R :=
  (4 * astar^2 + 8 * astar + 16 + 5 * PI^2 - 48 * zeta3 C) * e1^3
  + (-5 / 3 * astar^3 + 4 * astar^2 + 32 * astar - 9 / 4 * PI^2 * astar
     + 88 / 3 + 23 / 3 * PI^2 - 230 / 3 * zeta3 C) * e1^2 * d1
  + (3 * astar^3 + 4 * astar^2 - 24 * astar + 13 / 4 * PI^2 * astar
     + 16 + 7 / 3 * PI^2 - 30 * zeta3 C) * e1 * d1^2
  + (4 * astar^3 - 16 * astar + 5 / 3 * PI^2 * astar + 8 - 6 * zeta3 C) * d1^3.
Definition cgs1_t : R :=
  1 + 2 * (astar - 1) * e1
  + (- astar^2 + 2 * astar - 2 + PI^2/12) * e2
  + (astar^3/3 - astar^2 + (2-PI^2/12)*astar + PI^2/12 - 2/3 - 2/3*zeta3 C) * e3.
Definition cgs2_t : R :=
  (2 * astar^2 - 2 * astar - 3 + PI^2/2) * e1^2
  + (-5/3 * astar^3 + 2 * astar^2 + (8 - 11/12 * PI^2) * astar + 7/6 * PI^2
     - 26/3 - 2/3 * zeta3 C) * e1 * e2.
Definition cgs3_t : R := (4/3 * astar^3 - 8 * astar + PI^2 * astar + 16/3 - 14/3 * zeta3 C) * e1^3.
(** the factors of Ps0 and Pt0 per order, inflation.py:986-1046 *)
Definition cgs_s (order : nat) : R :=
  match order with
  | O => 1 | 1%nat => cgs1_s | 2%nat => cgs1_s + cgs2_s | _ => cgs1_s + cgs2_s + cgs3_s
  end.
Definition cgs_t (order : nat) : R :=
  match order with
  | O => 1 | 1%nat => cgs1_t | 2%nat => cgs1_t + cgs2_t | _ => cgs1_t + cgs2_t + cgs3_t
  end.
End CGS.

(* ------------------------------------------------------------------ *)
(** ** Leach, Liddle, Martin & Schwarz, inflation.py:1120-1136 *)
Section LLMS.
Variables (Ct e1 e2 e3 : R).
(** C = np.euler_gamma + np.log(2) - 2, inflation.py:1120, 1188 *)
Definition llms_C (Co : consts) : R := euler_gamma Co + ln 2 - 2.
Let C := Ct.
Definition llms_bs0 : R :=
  -2 * (C + 1) * e1 - C * e2
  + (-2 * C + PI^2 / 2 - 7) * e1^2
  + (- C^2 - 3 * C + 7 * PI^2 / 12 - 7) * e1 * e2
  + (PI^2 / 8 - 1) * e2^2
  + (- C^2 / 2 + PI^2 / 24) * e2 * e3.
Definition llms_ns : R := 1 - 2 * e1 - e2 - 2 * e1^2 - (2 * C + 3) * e1 * e2 - C * e2 * e3.
Definition llms_ns_run : R := -2 * e1 * e2 - e2 * e3.
Definition llms_bt0 : R :=
  -2 * (C + 1) * e1
  + (-2 * C + PI^2 / 2 - 7) * e1^2
  + (- C^2 - 2 * C + PI^2 / 12 - 2) * e1 * e2.
Definition llms_nt : R := -2 * e1 - 2 * e1^2 - 2 * (C + 1) * e1 * e2.
Definition llms_nt_run : R := -2 * e1 * e2.
(** logP_s, logP_t as functions of log(k/k_star), inflation.py:1134-1136 *)
Definition llms_logP_s (H L : R) : R := ln (Ps0 H e1) + llms_bs0 + (llms_ns - 1) * L + llms_ns_run / 2 * L^2.
Definition llms_logP_t (H L : R) : R := ln (Pt0 H) + llms_bt0 + llms_nt * L + llms_nt_run / 2 * L^2.

(** ** Schwarz & Terrero-Escalante, inflation.py:1188-1200 *)
Definition ste_as0 : R :=
  1 - 2 * (C + 1) * e1 - C * e2
  + (2 * C^2 + 2 * C + PI^2 / 2 - 5) * e1^2
  + (C^2 / 2 + PI^2 / 8 - 1) * e2^2
  + (C^2 - C + 7/12 * PI^2 - 7) * e1 * e2
  + (- C^2 / 2 + PI^2 / 24) * e2 * e3.
Definition ste_at0 : R :=
  1 - 2 * (C + 1) * e1
  + (2 * C^2 + 2 * C + PI^2 / 2 - 5) * e1^2
  + (- C^2 - 2 * C + PI^2 / 12 - 2) * e1 * e2.
End LLMS.

(* ------------------------------------------------------------------ *)
(** ** Auclair & Ringeval; Ballardini, Davoli & Sirletti, inflation.py:1279-1352 *)
(** alpha and Z, inflation.py:1269-1270 *)
Definition arbds_alpha (Co : consts) : R := 2 - ln 2 - euler_gamma Co.
Definition arbds_Z (Co : consts) : R := zeta3 Co / 3 * 7.
Section ARBDS.
Variables (alpha Z e1 e2 e3 e4 : R).
Definition as0_1 : R := 1 - 2 * (1-alpha) * e1 + alpha * e2.
Definition as0_2 : R :=
  (-3 - 2 * alpha + 2 * alpha^2 + PI^2/2) * e1^2
  + (-6 + alpha + alpha^2 + 7 * PI^2 / 12) * e1 * e2
  + (-8 + 4 * alpha^2 + PI^2) / 8 * e2^2
  + (-12 * alpha^2 + PI^2) / 24 * e2 * e3.
Definition as0_3 : R :=
  - (-16 + 24 * alpha - 4*alpha^3 - 3*alpha*PI^2 + 6*Z) / 24 * (8 * e1^3 + e2^3)
  + (-72*alpha + 36*alpha^2 + 13*PI^2 + 8*alpha*PI^2 - 36*Z) / 12 * e1^2 * e2
  - (16+24*alpha-12*alpha^2-8*alpha^3-15*PI^2-6*alpha*PI^2+84*Z) / 24 * e1*e2^2
  + (16 + 4*alpha^3 - alpha*PI^2 - 24*Z) / 24 * (e2*e3^2 + e2 * e3 * e4)
  + (48*alpha - 12*alpha^3 - 5*alpha*PI^2) / 24 * e2^2 * e3
  + (-8+72*alpha-12*alpha^2-8*alpha^3+PI^2-6*alpha*PI^2-24*Z) / 12 * e1 * e2 * e3.
Definition as1_1 : R := -2 * e1 - e2.
Definition as1_2 : R :=
  2 * (-2 * alpha + 1) * e1^2
  + (-2 * alpha - 1) * e1 * e2
  - alpha * e2^2
  + alpha * e2 * e3.
Definition as1_3 : R :=
  - (-8 + 4*alpha^2 + PI^2) / 8 * (8 * e1^3 + e2^3)
  - 2/3 * (-9 + 9*alpha + PI^2) * e1^2 * e2
  - (-4 + 4*alpha + 4*alpha^2 + PI^2) / 4 * e1 * e2^2
  + (-12 + 4*alpha + 4*alpha^2 + PI^2) / 2 * e1 * e2 * e3
  + (-12*alpha^2 + PI^2) / 24 * (e2 * e3^2 + e2 * e3 * e4)
  + (-48 + 36*alpha^2 + 5*PI^2) / 24 * e2^2 * e3.
Definition as2_2 : R := 1 / 2 * (4 * e1^2 + 2 * e1 * e2 + e2^2 - e2 * e3).
Definition as2_3 : R :=
  1 / 2 * (6 * e1^2 * e2 + (1 + 2*alpha) * (e1 * e2^2 - 2 * e1 * e2 * e3)
           + alpha * (8 * e1^3 + e2^3 - 3 * e2^2 * e3 + e2 * e3^2 + e2 * e3 * e4)).
Definition as3_3 : R :=
  1 / 6 * (- 8 * e1^3 - 2 * e1 * e2^2 - e2^3 + 4 * e1 * e2 * e3
           + 3 * e2^2 * e3 - e2 * e3^2 - e2 * e3 * e4).
Definition at0_1 : R := 1 + 2 * (-1 + alpha) * e1.
Definition at0_2 : R :=
  (-3 - 2 * alpha + 2 * alpha^2 + PI^2 / 2) * e1^2
  + (-2 + 2 * alpha - alpha^2 + PI^2 / 12) * e1 * e2.
Definition at0_3 : R :=
  - (1/3) * (-16 + 24*alpha - 4*alpha^3 - 3*alpha*PI^2 + 6*Z) * e1^3
  + 1/12 * (-96+72*alpha+36*alpha^2-24*alpha^3+13*PI^2-10*alpha*PI^2) * e1^2*e2
  - 1/12 * (8 - 24 * alpha + 12 * alpha^2 - 4 * alpha^3 - PI^2
            + alpha * PI^2 + 24 * Z) * (e1 * e2^2 + e1 * e2 * e3).
Definition at1_1 : R := -2 * e1.
Definition at1_2 : R := 2 * (-2 * alpha + 1) * e1^2 + (-2 + 2 * alpha) * e1 * e2.
Definition at1_3 : R :=
  - (-8 + 4 * alpha^2 + PI^2) * e1^3
  + 6 * (-1 - alpha + alpha^2 + 5 * PI^2 / 36) * e1^2 * e2
  + (-2 + 2 * alpha - alpha^2 + PI^2 / 12) * (e1 * e2^2 + e1 * e2 * e3).
Definition at2_2 : R := 1/2 * (4 * e1^2 - 2 * e1 * e2).
Definition at2_3 : R :=
  1/2 * (8 * alpha * e1^3 + 2 * (3 - 6 * alpha) * e1^2 * e2
         - 2 * (1 - alpha) * (e1 * e2^2 + e1 * e2 * e3)).
Definition at3_3 : R := 1/6 * (-8 * e1^3 + 12 * e1^2 * e2 - 2 * e1 * e2^2 - 2 * e1 * e2 * e3).
(** the factors of Ps0 and Pt0 at L = log(k/k_star), per order, inflation.py:1355-1405 *)
Definition arbds_s (order : nat) (L : R) : R :=
  match order with
  | 1%nat => as0_1 + as1_1 * L
  | 2%nat => as0_1 + as0_2 + (as1_1 + as1_2) * L + as2_2 * L^2
  | _ => (as0_1 + as0_2 + as0_3) + (as1_1 + as1_2 + as1_3) * L + (as2_2 + as2_3) * L^2 + as3_3 * L^3
  end.
Definition arbds_t (order : nat) (L : R) : R :=
  match order with
  | 1%nat => at0_1 + at1_1 * L
  | 2%nat => at0_1 + at0_2 + (at1_1 + at1_2) * L + at2_2 * L^2
  | _ => (at0_1 + at0_2 + at0_3) + (at1_1 + at1_2 + at1_3) * L + (at2_2 + at2_3) * L^2 + at3_3 * L^3
  end.
End ARBDS.

(* ------------------------------------------------------------------ *)
(** ** the methods of the solution object *)

(** samples inside the mask: (_N, H, phi, dphi) as reals. *)
Record samples := mksamples { sm_N : list R; sm_H : list R; sm_phi : list R; sm_dphi : list R }.
(** [sol.k[sol.inflation_mask]] *)
Definition masked (k : string) : M (list R) :=
  l <<- getA k; m <<- getB "inflation_mask"; liftM (reals (select m l)).
(** the common preamble, inflation.py:911-921 (also 1084-1093, 1161-1170, 1238-1247) *)
Definition get_samples : M samples :=
  Ns <<- masked "_N"; Hs <<- masked "H"; ph <<- masked "phi";
  b <<- hasattr "dphidt";
  dp <<- (if b then masked "dphidt" else masked "dphidN");
  retM (mksamples Ns Hs ph dp).
Fixpoint flows (q : aeqs) (K : R) (Ns Hs ph dp : list R) : list flow :=
  match Ns, Hs, ph, dp with
  | N :: Ns', H :: Hs', p :: ph', d :: dp' => flow_of q K N H p d :: flows q K Ns' Hs' ph' dp'
  | _, _, _, _ => []
  end.
Definition getR (k : string) : M R := a <<- getF k; liftM (as_R a).
Definition sample_flows (q : aeqs) : M (samples * list flow) :=
  K <<- getR "K"; s <<- get_samples;
  retM (s, flows q K (sm_N s) (sm_H s) (sm_phi s) (sm_dphi s)).

(** spline options: interp1d_kwargs.pop('k', 3), .pop('ext', 'const') *)
Record splopts := mkopts { o_k : nat; o_ext : string }.
Definition default_opts : splopts := mkopts 3 "const".

Section Derive.
Variables (C : consts) (S : splines) (q : aeqs).

(** knots of the log spectra at the samples with P_s > 0 and P_t > 0, e.g. inflation.py:1006-1019 *)
Fixpoint log_knots (logk Ps Pt : list R) : list (R * R) * list (R * R) :=
  match logk, Ps, Pt with
  | x :: lk, a :: ps, b :: pt =>
      let r := log_knots lk ps pt in
      if Rlt_dec 0 a then if Rlt_dec 0 b then ((x, ln a) :: fst r, (x, ln b) :: snd r) else r else r
  | _, _, _ => ([], [])
  end.
Definition build (o : splopts) (knots : list (R * R)) : M val :=
  if spl_accept S (o_k o) knots then retM (VSpl (o_k o) (o_ext o) knots) else raiseM ValueError.
(** both splines of one method/order *)
Definition build2 (o : splopts) (ks kt : list (R * R)) : M (val * val) :=
  a <<- build o ks; b <<- build o kt; retM (a, b).
Definition get_logk : M (list R) := l <<- getA "logk"; liftM (reals l).
Definition setP (Ps Pt : list R) : M unit :=
  setM "P_scalar_approx" (VA (map Fin Ps));; setM "P_tensor_approx" (VA (map Fin Pt)).
Definition setclosure (suffix : string) (v : val * val) : M unit :=
  setM ("P_s_approx_" ++ suffix) (fst v);; setM ("P_t_approx_" ++ suffix) (snd v).
Definition setspl (v : val * val) : M unit :=
  setM "logk2logP_s" (fst v);; setM "logk2logP_t" (snd v).
Definition order_is (order : option Z) (n : Z) : bool := match order with Some o => Z.eqb o n | None => false end.

(** derive_approx_power_CGS, inflation.py:893-1073. One order at a time: the arrays, then the
    splines, then the closures (lines 985-1001, 1003-1021, 1023-1041, 1043-1061 of the source) *)
Definition cgs_order (o : splopts) (order : option Z) (n : nat) (suffix : string)
    (Hs : list R) (fs : list flow) : M (val * val) :=
  let Ps := zipw (fun H f => Ps0 H (fe1 f) * cgs_s C f n) Hs fs in
  let Pt := zipw (fun H f => Pt0 H * cgs_t C f n) Hs fs in
  (if order_is order (Z.of_nat n) then setP Ps Pt else retM tt);;
  lk <<- get_logk;
  let kn := log_knots lk Ps Pt in
  v <<- build2 o (fst kn) (snd kn);
  setclosure suffix v;; retM v.
Definition derive_CGS (o : splopts) (order : option Z) : M unit :=
  sf <<- sample_flows q;
  let Hs := sm_H (fst sf) in let fs := snd sf in
  v0 <<- cgs_order o order 0 "CGS0" Hs fs;
  v1 <<- cgs_order o order 1 "CGS1" Hs fs;
  v2 <<- cgs_order o order 2 "CGS2" Hs fs;
  v3 <<- cgs_order o order 3 "CGS3" Hs fs;
  if order_is order 0 then setspl v0
  else if order_is order 1 then setspl v1
  else if order_is order 2 then setspl v2
  else if order_is order 3 then setspl v3
  else retM tt.

(** interpolation of a sampled quantity at horizon crossing, inflation.py:1105-1112, 1261-1268 *)
Definition at_cross (Ns vs : list R) : M R :=
  x <<- getF "_N_cross"; r <<- liftM (interp_fl (map Fin Ns) (map Fin vs) x); liftM (as_R r).
Definition LK (C : consts) (lk : list R) : list R := map (fun x => x - ln (K_STAR C)) lk.

(** derive_approx_power_LLMS, inflation.py:1075-1150 *)
Definition derive_LLMS (o : splopts) : M unit :=
  sf <<- sample_flows q;
  let Ns := sm_N (fst sf) in let Hs := sm_H (fst sf) in let fs := snd sf in
  H <<- at_cross Ns Hs; e1 <<- at_cross Ns (map fe1 fs);
  e2 <<- at_cross Ns (map fe2 fs); e3 <<- at_cross Ns (map fe3 fs);
  lk <<- get_logk;
  let logPs := map (llms_logP_s (llms_C C) e1 e2 e3 H) (LK C lk) in
  let logPt := map (llms_logP_t (llms_C C) e1 e2 H) (LK C lk) in
  v <<- build2 o (combine lk logPs) (combine lk logPt);
  setclosure "LLMS" v;; setP (map exp logPs) (map exp logPt);; setspl v.

(** derive_approx_power_STE, inflation.py:1152-1220 *)
Definition derive_STE (o : splopts) : M unit :=
  sf <<- sample_flows q;
  let Hs := sm_H (fst sf) in let fs := snd sf in
  let Ps := zipw (fun H f => Ps0 H (fe1 f) * ste_as0 (llms_C C) (fe1 f) (fe2 f) (fe3 f)) Hs fs in
  let Pt := zipw (fun H f => Pt0 H * ste_at0 (llms_C C) (fe1 f) (fe2 f)) Hs fs in
  lk <<- get_logk;
  let kn := log_knots lk Ps Pt in
  v <<- build2 o (fst kn) (snd kn);
  setclosure "STE" v;; setP Ps Pt;; setspl v.

(** derive_approx_power_ARBDS, inflation.py:1222-1430; e4 = 0 *)
Definition arbds_order (o : splopts) (order : option Z) (n : nat) (suffix : string)
    (H e1 e2 e3 : R) (lk : list R) : M (val * val) :=
  let alpha := arbds_alpha C in
  let Z3 := arbds_Z C in
  let Ps := map (fun L => Ps0 H e1 * arbds_s alpha Z3 e1 e2 e3 0 n L) (LK C lk) in
  let Pt := map (fun L => Pt0 H * arbds_t alpha Z3 e1 e2 e3 n L) (LK C lk) in
  let kn := log_knots lk Ps Pt in
  v <<- build2 o (fst kn) (snd kn);
  (if order_is order (Z.of_nat n) then setP Ps Pt else retM tt);;
  setclosure suffix v;; retM v.
Definition derive_ARBDS (o : splopts) (order : option Z) : M unit :=
  sf <<- sample_flows q;
  let Ns := sm_N (fst sf) in let Hs := sm_H (fst sf) in let fs := snd sf in
  H <<- at_cross Ns Hs; e1 <<- at_cross Ns (map fe1 fs);
  e2 <<- at_cross Ns (map fe2 fs); e3 <<- at_cross Ns (map fe3 fs);
  lk <<- get_logk;
  v1 <<- arbds_order o order 1 "ARBDS1" H e1 e2 e3 lk;
  v2 <<- arbds_order o order 2 "ARBDS2" H e1 e2 e3 lk;
  v3 <<- arbds_order o order 3 "ARBDS3" H e1 e2 e3 lk;
  if order_is order 1 then setspl v1
  else if order_is order 2 then setspl v2
  else if order_is order 3 then setspl v3
  else retM tt.

(** [spline.derivatives(x)[j]]: the list has degree+1 entries *)
Definition deriv_at (v : nat * string * list (R * R)) (j : nat) (x : R) : res R :=
  if Nat.leb j (fst (fst v)) then Ok (spl_eval S (fst (fst v)) (snd (fst v)) (snd v) j x) else Raise IndexError.
(** derive_approx_power, inflation.py:872-891 *)
Definition derive_approx_power (method : string) (order : option Z) (o : splopts) : M unit :=
  (if String.eqb method "CGS" then derive_CGS o order
   else if String.eqb method "LLMS" then derive_LLMS o
   else if String.eqb method "STE" then derive_STE o
   else if String.eqb method "ARBDS" then derive_ARBDS o order
   else retM tt);;
  ds <<- getS "logk2logP_s"; dt <<- getS "logk2logP_t";
  let x := ln (K_STAR C) in
  s0 <<- liftM (deriv_at ds 0 x); setF "A_s" (Fin (exp s0));;
  s1 <<- liftM (deriv_at ds 1 x); setF "n_s" (Fin (1 + s1));;
  s2 <<- liftM (deriv_at ds 2 x); setF "n_run" (Fin s2);;
  s3 <<- liftM (deriv_at ds 3 x); setF "n_runrun" (Fin s3);;
  t0 <<- liftM (deriv_at dt 0 x); setF "A_t" (Fin (exp t0));;
  t1 <<- liftM (deriv_at dt 1 x); setF "n_t" (Fin t1);;
  setF "r" (Fin (exp t0 / exp s0)).

(** [sol.P_..._approx_X(k)] and [np.exp(sol.logk2logP_.(np.log(k)))] *)
Definition call_spl (key : string) (k : R) : M R :=
  v <<- getS key; retM (exp (spl_eval S (fst (fst v)) (snd (fst v)) (snd v) 0 (ln k))).
(** P_s_approx, inflation.py:1434-1486, and P_t_approx, inflation.py:1488-1540 for [st] = "s", "t".
    The only difference: P_t_approx also accepts order=None for CGS. *)
Definition P_approx (st : string) (k : R) (method : string) (order : option Z) (o : splopts) : M R :=
  let pre := "P_" ++ st ++ "_approx_" in
  let dflt := call_spl ("logk2logP_" ++ st) k in
  if String.eqb method "CGS" then
    if (order_is order 3 || (String.eqb st "t" && match order with None => true | _ => false end))%bool then call_spl (pre ++ "CGS3") k
    else if order_is order 0 then call_spl (pre ++ "CGS0") k
    else if order_is order 1 then call_spl (pre ++ "CGS1") k
    else if order_is order 2 then call_spl (pre ++ "CGS2") k
    else dflt
  else if String.eqb method "LLMS" then
    b <<- hasattr (pre ++ "LLMS"); (if b then retM tt else derive_LLMS o);; call_spl (pre ++ "LLMS") k
  else if String.eqb method "STE" then
    b <<- hasattr (pre ++ "STE"); (if b then retM tt else derive_STE o);; call_spl (pre ++ "STE") k
  else if String.eqb method "ARBDS" then
    b <<- hasattr (pre ++ "ARBDS"); (if b then retM tt else derive_ARBDS o order);;
    if order_is order 3 then call_spl (pre ++ "ARBDS3") k
    else if order_is order 1 then call_spl (pre ++ "ARBDS1") k
    else if order_is order 2 then call_spl (pre ++ "ARBDS2") k
    else dflt
  else dflt.
End Derive.
