(** Model of /repo/primpy/potentials.py.

    One inductive type enumerates the concrete potential classes; the functions
    below dispatch on it the way Python's method resolution order does (the
    subclass method if it overrides, otherwise the inherited one).
    The amplitude [Lambda] of the object is the separate argument [L]. *)
From Coq Require Import Reals Lra.
From Coquelicot Require Import Coquelicot.
From Verif Require Import Base.
Open Scope R_scope.

(** Concrete classes, with the attributes set in [__init__]. *)
Inductive pot : Type :=
| Monomial (p : R)                       (* potentials.py:279-355 *)
| Linear                                 (* potentials.py:358-383, p=1 *)
| Quadratic                              (* potentials.py:386-431, p=2 *)
| Cubic                                  (* potentials.py:434-459, p=3 *)
| Quartic                                (* potentials.py:462-487, p=4 *)
| Starobinsky                            (* potentials.py:490-609 *)
| Natural (phi0 : R)                     (* potentials.py:612-737 *)
| DoubleWell (p phi0 : R)                (* potentials.py:740-845 *)
| DoubleWell2 (phi0 : R)                 (* potentials.py:848-894, p=2 *)
| DoubleWell4 (phi0 : R)                 (* potentials.py:897-957, p=4 *)
| Tmodel (p alpha : R)                   (* potentials.py:960-1043 *)
| RadionGauge (p alpha : R)              (* potentials.py:1046-1164 *)
| RadionGauge2 (alpha : R)               (* potentials.py:1167-1212, p=2 *)
| StarobinskyGaussianDip (phif a b : R)  (* potentials.py:1415-1420 *)
| StarobinskyTanhStep (phif a b : R).    (* potentials.py:1423-1428 *)

(** StarobinskyPotential.gamma, potentials.py:496 *)
Definition gamma : R := sqrt (2 / 3).

(** TmodelPotential.s_6_a, potentials.py:971 *)
Definition s_6_a (alpha : R) : R := sqrt (6 * alpha).

(* ------------------------------------------------------------------ *)
(** ** MonomialPotential, potentials.py:279-355 *)
Section MonomialModel.
Variables (p L : R).
(* MonomialPotential.V, potentials.py:291-292 *)
Definition mono_V (phi : R) := L^4 * pypow (Rabs phi) p.
(* MonomialPotential.dV, potentials.py:294-295 *)
Definition mono_dV (phi : R) := L^4 * p * pypow (Rabs phi) (p - 1) * np_sign phi.
(* MonomialPotential.d2V, potentials.py:297-298 *)
Definition mono_d2V (phi : R) := L^4 * p * (p - 1) * pypow (Rabs phi) p / phi^2.
(* MonomialPotential.d3V, potentials.py:300-302 *)
Definition mono_d3V (phi : R) :=
  L^4 * p * (p^2 - 3*p + 2) * pypow (Rabs phi) (p-3) * np_sign phi.
(* MonomialPotential.d4V, potentials.py:304-306 *)
Definition mono_d4V (phi : R) :=
  L^4 * p * (p^3 - 6*p^2 + 11*p - 6) * pypow (Rabs phi) (p-4).
(* MonomialPotential.inv_V, potentials.py:308-309 *)
Definition mono_inv_V (v : R) := pypow (v / L^4) (1/p).
(* MonomialPotential.get_epsilon_1V, potentials.py:311-312 *)
Definition mono_eps1 (phi : R) := p^2 / (2 * phi^2).
(* MonomialPotential.get_epsilon_2V, potentials.py:314-315 *)
Definition mono_eps2 (phi : R) := 2 * p / phi^2.
(* MonomialPotential.get_epsilon_3V, potentials.py:317-318 *)
Definition mono_eps3 (phi : R) := 2 * p / phi^2.
(* MonomialPotential.get_epsilon_4V, potentials.py:320-321 *)
Definition mono_eps4 (phi : R) := 2 * p / phi^2.
(* MonomialPotential.phi_end, potentials.py:323-325 *)
Definition mono_phi_end := sqrt 2 * p / 2.
(* MonomialPotential.sr_phi2N, potentials.py:327-328 *)
Definition mono_phi2N (phi : R) := - p / 4 + phi^2 / (2 * p).
(* MonomialPotential.sr_N2phi, potentials.py:330-331 *)
Definition mono_N2phi (N : R) := sqrt (2 * p) * sqrt (4 * N + p) / 2.
End MonomialModel.
(** static methods, potentials.py:333-355 and 369-384, 417-432, 445-460, 473-488; the subclasses Linear..Quartic fix p *)
(* MonomialPotential.sr_Nstar2ns, potentials.py:333-337 *)
Definition mono_Nstar2ns (p N : R) := 1 - p / (2 * N) - 1 / N.
(* MonomialPotential.sr_ns2Nstar, potentials.py:339-343 *)
Definition mono_ns2Nstar (p ns : R) := (2 + p) / (2 * (1 - ns)).
(* MonomialPotential.sr_Nstar2r, potentials.py:345-349 *)
Definition mono_Nstar2r (p N : R) := 16 * p / (4 * N + p).
(* MonomialPotential.sr_r2Nstar, potentials.py:351-355 *)
Definition mono_r2Nstar (p r : R) := p * (16 - r) / (4 * r).

(** ** QuadraticPotential overrides, potentials.py:386-431 *)
Section QuadraticModel.
Variable (L : R).
(* QuadraticPotential.V, potentials.py:399-400 *)
Definition quad_V (phi : R) := L^4 * phi^2.
(* QuadraticPotential.dV, potentials.py:402-403 *)
Definition quad_dV (phi : R) := 2 * L^4 * phi.
(* QuadraticPotential.d2V, potentials.py:405-406 *)
Definition quad_d2V (phi : R) := 2 * L^4.
(* QuadraticPotential.d3V, potentials.py:408-409 *)
Definition quad_d3V (phi : R) := 0.
(* QuadraticPotential.d4V, potentials.py:411-412 *)
Definition quad_d4V (phi : R) := 0.
(* QuadraticPotential.inv_V, potentials.py:414-415 *)
Definition quad_inv_V (v : R) := sqrt v / L^2.
End QuadraticModel.

(** ** StarobinskyPotential, potentials.py:490-609 *)
Section StarobinskyModel.
Variable (L : R).
(* StarobinskyPotential.V, potentials.py:502-503 *)
Definition star_V (phi : R) := L^4 * (1 - exp (- gamma * phi))^2.
(* StarobinskyPotential.dV, potentials.py:505-507 *)
Definition star_dV (phi : R) :=
  L^4 * 2 * gamma * exp (-2 * gamma * phi) * (exp (gamma * phi) - 1).
(* StarobinskyPotential.d2V, potentials.py:509-511 *)
Definition star_d2V (phi : R) :=
  L^4 * 2 * gamma^2 * exp (-2 * gamma * phi) * (2 - exp (gamma * phi)).
(* StarobinskyPotential.d3V, potentials.py:513-515 *)
Definition star_d3V (phi : R) :=
  L^4 * 2 * gamma^3 * exp (-2 * gamma * phi) * (exp (gamma * phi) - 4).
(* StarobinskyPotential.d4V, potentials.py:517-519 *)
Definition star_d4V (phi : R) :=
  2 * L^4 * gamma^4 * (8 - exp (gamma * phi)) * exp (-2 * gamma * phi).
(* StarobinskyPotential.inv_V, potentials.py:521-522 *)
Definition star_inv_V (v : R) := - ln (1 - sqrt v / L^2) / gamma.
(* StarobinskyPotential.get_epsilon_1V, potentials.py:524-526 *)
Definition star_eps1 (phi : R) := 2 * gamma^2 / (1 - exp (gamma * phi))^2.
(* StarobinskyPotential.get_epsilon_2V, potentials.py:528-530 *)
Definition star_eps2 (phi : R) := gamma^2 / (sinh (gamma * phi / 2))^2.
(* StarobinskyPotential.get_epsilon_3V, potentials.py:532-534 *)
Definition star_eps3 (phi : R) :=
  2 * gamma^2 * (exp (gamma * phi) + 1) / (exp (gamma * phi) - 1)^2.
(* StarobinskyPotential.get_epsilon_4V, potentials.py:536-538 *)
Definition star_eps4 (phi : R) :=
  gamma^2 * (exp (gamma*phi) + 3) / (2 * (exp (gamma*phi) + 1) * (sinh (gamma*phi/2))^2).
(* StarobinskyPotential.phi_end, potentials.py:540-543 *)
Definition star_phi_end := ln (sqrt 2 * gamma + 1) / gamma.
(* StarobinskyPotential.sr_phi2N, potentials.py:545-548 *)
Definition star_phi2N (phi : R) :=
  let phi_end := star_phi_end in
  (- phi + phi_end) / (2*gamma) + (exp (gamma * phi) - exp (gamma * phi_end)) / (2*gamma^2).
(** [lambertw(., -1)] of scipy is the oracle [W]; [np.real_if_close] is the
    identity on reals. potentials.py:550-556 *)
(* StarobinskyPotential.sr_N2phi, potentials.py:550-556 *)
Definition star_N2phi (W : R -> R) (N : R) :=
  let phi_end := star_phi_end in
  -2*N*gamma + phi_end - exp (gamma*phi_end) / gamma
  - W (- exp (-2*N*gamma^2) * exp (gamma*phi_end) * exp (- exp (gamma*phi_end))) / gamma.
End StarobinskyModel.
(** Slow-roll n_s and r conversions, potentials.py:558-584 *)
(* StarobinskyPotential.sr_Nstar2ns, potentials.py:558-564 *)
Definition star_Nstar2ns (N : R) :=
  let num := 2 * N * gamma^2 + sqrt 2 * gamma + 2 in
  let den := N * gamma * (N * gamma + sqrt 2) in
  1 - num / den.
(* StarobinskyPotential.sr_ns2Nstar, potentials.py:566-572 *)
Definition star_ns2Nstar (ns : R) :=
  let num := 2*gamma - sqrt 2 * (1-ns) + sqrt (2*(1-ns)^2 + 8*(1-ns) + 4*gamma^2) in
  let den := 2 * gamma * (1-ns) in
  num / den.
(* StarobinskyPotential.sr_Nstar2r, potentials.py:574-578 *)
Definition star_Nstar2r (N : R) := 32 / (2*N*gamma + sqrt 2)^2.
(* StarobinskyPotential.sr_r2Nstar, potentials.py:580-584 *)
Definition star_r2Nstar (r : R) := sqrt 2 * (4 - sqrt r) / (2 * gamma * sqrt r).
(** StarobinskyPotential.phi2efolds, potentials.py:586-609 *)
(* StarobinskyPotential.phi2efolds, potentials.py:586-609 *)
Definition star_phi2efolds (phi : R) :=
  let phi_end := ln (1 + sqrt 2 * gamma) / gamma in
  (exp (gamma * phi) - exp (gamma * phi_end) - gamma * (phi - phi_end)) / (2 * gamma^2).

(** ** NaturalPotential, potentials.py:612-737 *)
Section NaturalModel.
Variables (phi0 L : R).
(* NaturalPotential.V, potentials.py:630-631 *)
Definition nat_V (phi : R) := L^4 / 2 * (1 - cos (PI * phi / phi0)).
(* NaturalPotential.dV, potentials.py:633-634 *)
Definition nat_dV (phi : R) := L^4 / 2 * sin (PI * phi / phi0) * PI / phi0.
(* NaturalPotential.d2V, potentials.py:636-637 *)
Definition nat_d2V (phi : R) := L^4 / 2 * cos (PI * phi / phi0) * (PI / phi0)^2.
(* NaturalPotential.d3V, potentials.py:639-640 *)
Definition nat_d3V (phi : R) := - L^4 / 2 * sin (PI * phi / phi0) * (PI / phi0)^3.
(* NaturalPotential.d4V, potentials.py:642-643 *)
Definition nat_d4V (phi : R) := - L^4 / 2 * cos (PI * phi / phi0) * (PI / phi0)^4.
(* NaturalPotential.inv_V, potentials.py:645-646 *)
Definition nat_inv_V (v : R) := acos (1 - 2 * v / L^4) * phi0 / PI.
(* NaturalPotential.get_epsilon_1V, potentials.py:648-650 *)
Definition nat_eps1 (phi : R) :=
  PI^2 * (sin (PI*phi/phi0))^2 / (2 * phi0^2 * (cos (PI*phi/phi0) - 1)^2).
(* NaturalPotential.get_epsilon_2V, potentials.py:652-654 *)
Definition nat_eps2 (phi : R) := -2 * PI^2 / (phi0^2 * (cos (PI*phi/phi0) - 1)).
(* NaturalPotential.get_epsilon_3V, potentials.py:656-658 *)
Definition nat_eps3 (phi : R) :=
  PI^2 * (sin (PI*phi/phi0))^2 / (phi0^2 * (cos (PI*phi/phi0) - 1)^2).
(* NaturalPotential.get_epsilon_4V, potentials.py:660-662 *)
Definition nat_eps4 (phi : R) := -2 * PI^2 / (phi0^2 * (cos (PI*phi/phi0) - 1)).
(* NaturalPotential.phi_end, potentials.py:664-666 *)
Definition nat_phi_end := 2 * phi0 * atan (sqrt 2 * PI / (2 * phi0)) / PI.
(* NaturalPotential.sr_phi2N, potentials.py:668-672 *)
Definition nat_phi2N (phi : R) :=
  phi0^2 / PI^2 * (ln ((tan (PI*phi/(2*phi0)))^2 + 1)
                   - ln ((tan (PI*nat_phi_end/(2*phi0)))^2 + 1)).
(* NaturalPotential.sr_N2phi, potentials.py:674-678 *)
Definition nat_N2phi (N : R) :=
  2*phi0/PI * atan (sqrt ((2 * exp (PI^2*N/phi0^2) - cos (PI*nat_phi_end/phi0) - 1)
                          / (cos (PI*nat_phi_end/phi0) + 1))).
End NaturalModel.
(** Slow-roll n_s and r conversions, potentials.py:680-711 *)
(* NaturalPotential.sr_Nstar2ns, potentials.py:680-687 *)
Definition nat_Nstar2ns (phi0 N : R) :=
  let f := phi0 / PI in
  let num := 2 * f^2 + (2 * f^2 + 1) * exp (N / f^2) in
  let den := f^2 * (2 * f^2 + 1) * (exp (N / f^2) - 1) in
  1 - num / den.
(** the PrimpyError of potentials.py:694-696 *)
(* NaturalPotential.sr_ns2Nstar, potentials.py:689-697 *)
Definition nat_ns2Nstar (phi0 ns : R) : res R :=
  if Rlt_dec phi0 (PI / sqrt (1 - ns)) then Raise PrimpyError
  else
    let f := phi0 / PI in
    Ok (f^2 * ln (f^2 * (2*f^2*(1-ns) + (1-ns) + 2) / ((2*f^2+1) * (f^2*(1-ns) - 1)))).
(* NaturalPotential.sr_Nstar2r, potentials.py:699-704 *)
Definition nat_Nstar2r (phi0 N : R) :=
  let f := phi0 / PI in 16 / (-2 * f^2 + (2 * f^2 + 1) * exp (N / f^2)).
(* NaturalPotential.sr_r2Nstar, potentials.py:706-711 *)
Definition nat_r2Nstar (phi0 r : R) :=
  let f := phi0 / PI in f^2 * ln ((2 * f^2 * r + 16) / (r * (2 * f^2 + 1))).
(** NaturalPotential.phi2efolds, potentials.py:713-737  *)
(* NaturalPotential.phi2efolds, potentials.py:713-737 *)
Definition nat_phi2efolds (phi phi0 : R) : res R :=
  if Rlt_dec phi phi0 then
    let f := phi0 / PI in
    Ok (- f^2 * (ln (1 + 1 / (2 * f^2)) + 2 * ln (cos (phi / (2 * f)))))
  else Raise AssertionError.

(** ** DoubleWellPotential, potentials.py:740-845 *)
Section DoubleWellModel.
Variables (p phi0 L : R).
Definition dw_x (phi : R) := 1 - phi / phi0.                  (* local phi_0_phi *)
(* DoubleWellPotential.V, potentials.py:756-758 *)
Definition dw_V (phi : R) := L^4 * (1 - pypow (dw_x phi) p)^2.
(* DoubleWellPotential.dV, potentials.py:760-764 *)
Definition dw_dV (phi : R) :=
  let pre := L^4 * 2 * p * pypow (dw_x phi) (p-1) / phi0 in
  pre * (1 - pypow (dw_x phi) p).
(* DoubleWellPotential.d2V, potentials.py:766-770 *)
Definition dw_d2V (phi : R) :=
  let pre := L^4 * 2 * p * pypow (dw_x phi) (p-2) / phi0^2 in
  pre * (- p + pypow (dw_x phi) p * (2*p-1) + 1).
(* DoubleWellPotential.d3V, potentials.py:772-776 *)
Definition dw_d3V (phi : R) :=
  let pre := L^4 * 2 * p * pypow (dw_x phi) (p-3) / phi0^3 in
  pre * (p^2 - 3*p + pypow (dw_x phi) p * (-4*p^2 + 6*p - 2) + 2).
(* DoubleWellPotential.d4V, potentials.py:778-782 *)
Definition dw_d4V (phi : R) :=
  let pre := L^4 * 2 * p * pypow (dw_x phi) (p-4) / phi0^4 in
  pre * (- p^3 + 6*p^2 - 11*p + pypow (dw_x phi) p * (8*p^3-24*p^2+22*p-6) + 6).
(* DoubleWellPotential.inv_V, potentials.py:784-785 *)
Definition dw_inv_V (v : R) := phi0 - phi0 * pypow (1 - sqrt v / L^2) (1/p).
(* DoubleWellPotential.get_epsilon_1V, potentials.py:787-790 *)
Definition dw_eps1 (phi : R) :=
  2 * p^2 * pypow (dw_x phi) (2*p-2) / (phi0^2 * (pypow (dw_x phi) p - 1)^2).
(* DoubleWellPotential.get_epsilon_2V, potentials.py:792-796 *)
Definition dw_eps2 (phi : R) :=
  4 * p * pypow (dw_x phi) (p - 2) * (p + pypow (dw_x phi) p - 1)
  / (phi0^2 * (pypow (dw_x phi) p - 1)^2).
(* DoubleWellPotential.get_epsilon_3V, potentials.py:798-802 *)
Definition dw_eps3 (phi : R) :=
  2*p*pypow (dw_x phi) (p-2)
  * (p^2-3*p+2*pypow (dw_x phi) (2*p)+pypow (dw_x phi) p*(p^2+3*p-4)+2)
  / (phi0^2 * (pypow (dw_x phi) p - 1)^2 * (p + pypow (dw_x phi) p - 1)).
(* DoubleWellPotential.get_epsilon_4V, potentials.py:804-818 *)
Definition dw_eps4 (phi : R) :=
  let num := 2 * p * pypow (dw_x phi) (p-2)
             * (p^4 - 6*p^3 + 13*p^2 - 12*p
                + 4*pypow (dw_x phi) (4*p)
                + pypow (dw_x phi) (3*p) * (p^3 + 3*p^2 + 12*p - 16)
                + pypow (dw_x phi) (2*p) * (5*p^3 + 7*p^2 - 36*p + 24)
                + pypow (dw_x phi) p * (3*p^4 - 23*p^2 + 36*p - 16) + 4) in
  let den := phi0^2 * (p^3 - 4 * p^2 + 5 * p
                       + 2 * pypow (dw_x phi) (5*p)
                       + pypow (dw_x phi) (4*p) * (p^2 + 5*p - 10)
                       + pypow (dw_x phi) (3*p) * (p^3 + p^2 - 20*p + 20)
                       + pypow (dw_x phi) (2*p) * (- p^3 - 9*p^2 + 30*p - 20)
                       + pypow (dw_x phi) p * (- p^3 + 11*p^2 - 20*p + 10) - 2) in
  num / den.
(** sr_phi2N, potentials.py:827-838; [phi_e] is the object's phi_end *)
(* DoubleWellPotential.sr_phi2N, potentials.py:827-838 *)
Definition dw_phi2N (phi_e phi : R) :=
  if Req_EM_T p 2 then
    phi0^2 * (- ln (phi0 - phi) + ln (phi0 - phi_e)) / 4
    + (phi0 - phi)^2 / 8 - (phi0 - phi_e)^2 / 8
  else
    (pypow phi0 p * pypow (phi0 - phi) (2 - p) / (2 * (p - 2))
     - pypow phi0 p * pypow (phi0 - phi_e) (2 - p) / (2 * (p - 2))
     + (phi0 - phi)^2 / 4
     - (phi0 - phi_e)^2 / 4) / p.
End DoubleWellModel.
(** DoubleWell2Potential.phi_end, potentials.py:862-866 *)
(* DoubleWell2Potential.phi_end, potentials.py:862-866 *)
Definition dw2_phi_end (phi0 : R) :=
  let x := sqrt (phi0^2 - 2 * sqrt 2 * sqrt (phi0^2 + 2) + 4) / phi0 in
  phi0 * (1 - x).
(** DoubleWell2Potential.phi2efolds, potentials.py:868-894  *)
(* DoubleWell2Potential.phi2efolds, potentials.py:868-894 *)
Definition dw2_phi2efolds (phi_shifted phi0 : R) : res R :=
  if Rlt_dec phi_shifted phi0 then
    let phi2 := (phi_shifted - phi0)^2 in
    let phi_end2 := 4 + phi0^2 - 2 * sqrt (4 + 2 * phi0^2) in
    Ok ((phi2 - phi_end2 - phi0^2 * ln (phi2 / phi_end2)) / 8)
  else Raise AssertionError.
(** DoubleWell4Potential.phi_end_squared, potentials.py:911-929 *)
(* DoubleWell4Potential.phi_end_squared, potentials.py:911-929 *)
Definition dw4_phi_end_squared (phi0 : R) :=
  let a := pypow (216 * phi0^8 + phi0^12 - 12 * sqrt (3 * phi0^16 * (108 + phi0^4))) (1/3) in
  let b := 192 + phi0^4 + phi0^8 / a + a in
  8 + sqrt b / sqrt 3
  - sqrt (128 - (a - phi0^4)^2 / (3 * a) + (8 * sqrt 3 * (128 + phi0^4)) / sqrt b).
(** DoubleWell4Potential.phi2efolds, potentials.py:931-957  *)
(* DoubleWell4Potential.phi2efolds, potentials.py:931-957 *)
Definition dw4_phi2efolds (phi_shifted phi0 : R) : res R :=
  if Rlt_dec phi_shifted phi0 then
    let phi2 := (phi_shifted - phi0)^2 in
    let phi_end2 := dw4_phi_end_squared phi0 in
    Ok ((phi2 - phi_end2 + phi0^4 * (1/phi2 - 1/phi_end2)) / 16)
  else Raise AssertionError.

(** ** TmodelPotential, potentials.py:960-1043 *)
Section TmodelModel.
Variables (p alpha L : R).
Definition tm_C (phi : R) := tanh (phi / s_6_a alpha).
(* TmodelPotential.V, potentials.py:974-976 *)
Definition tm_V (phi : R) := L^4 * pypow (tm_C phi) (2 * p).
(* TmodelPotential.dV, potentials.py:978-982 *)
Definition tm_dV (phi : R) :=
  let L1 := p * L^4 / s_6_a alpha in
  2 * L1 * (pypow (tm_C phi) (2*p-1) - pypow (tm_C phi) (2*p+1)).
(* TmodelPotential.d2V, potentials.py:984-990 *)
Definition tm_d2V (phi : R) :=
  let L2 := 2 * p * L^4 / (s_6_a alpha)^2 in
  L2 * (pypow (tm_C phi) (2*p-2) * (2 * p - 1)
        - pypow (tm_C phi) (2*p+0) * 4 * p
        + pypow (tm_C phi) (2*p+2) * (2 * p + 1)).
(* TmodelPotential.d3V, potentials.py:992-999 *)
Definition tm_d3V (phi : R) :=
  let L3 := 4 * p * L^4 / (s_6_a alpha)^3 in
  L3 * (pypow (tm_C phi) (2*p-3) * (2*p^2 - 3*p + 1)
        + pypow (tm_C phi) (2*p-1) * (-6*p^2 + 3*p - 1)
        + pypow (tm_C phi) (2*p+1) * (6*p^2 + 3*p + 1)
        + pypow (tm_C phi) (2*p+3) * (-2*p^2 - 3*p - 1)).
(* TmodelPotential.d4V, potentials.py:1001-1009 *)
Definition tm_d4V (phi : R) :=
  let L4 := 4 * p * L^4 / (s_6_a alpha)^4 in
  L4 * (pypow (tm_C phi) (2*p - 4) * (4*p^3 - 12*p^2 + 11*p - 3)
        + pypow (tm_C phi) (2*p - 2) * (-16*p^3 + 24*p^2 - 16*p + 4)
        + pypow (tm_C phi) (2*p + 0) * (24 * p^3 + 10 * p)
        + pypow (tm_C phi) (2*p + 2) * (-16*p^3 - 24*p^2 - 16*p - 4)
        + pypow (tm_C phi) (2*p + 4) * (4*p^3 + 12*p^2 + 11*p + 3)).
(** np.arctanh as its real closed form *)
Definition np_arctanh (x : R) := ln ((1 + x) / (1 - x)) / 2.
(** np.arccosh as its real closed form *)
Definition np_arccosh (x : R) := ln (x + sqrt (x^2 - 1)).
(* TmodelPotential.inv_V, potentials.py:1011-1013 *)
Definition tm_inv_V (v : R) :=
  s_6_a alpha * np_arctanh (pypow v (1/(2*p)) / pypow L (2/p)).
(* TmodelPotential.get_epsilon_1V, potentials.py:1015-1016 *)
Definition tm_eps1 (phi : R) :=
  8 * p^2 / ((s_6_a alpha)^2 * (sinh (2 * phi / s_6_a alpha))^2).
(* TmodelPotential.get_epsilon_2V, potentials.py:1018-1020 *)
Definition tm_eps2 (phi : R) :=
  let C := tm_C phi in 4 * p * (1 - C^4) / (C^2 * (s_6_a alpha)^2).
(* TmodelPotential.get_epsilon_3V, potentials.py:1022-1024 *)
Definition tm_eps3 (phi : R) :=
  let C := tm_C phi in
  4 * p * (- C^6 + C^4 - C^2 + 1) / (C^2 * (s_6_a alpha)^2 * (C^2 + 1)).
(* TmodelPotential.get_epsilon_4V, potentials.py:1026-1029 *)
Definition tm_eps4 (phi : R) :=
  let C := tm_C phi in
  4 * p * (- C^10 - C^8 + 4*C^6 - 4*C^4 + C^2 + 1)
  / (C^2 * (s_6_a alpha)^2 * (C^6 + C^4 + C^2 + 1)).
(* TmodelPotential.phi_end, potentials.py:1031-1033 *)
Definition tm_phi_end := s_6_a alpha / 2 * arcsinh (2 * sqrt 2 * p / s_6_a alpha).
(* TmodelPotential.sr_phi2N, potentials.py:1035-1038 *)
Definition tm_phi2N (phi : R) :=
  s_6_a alpha / (8*p) * (s_6_a alpha * cosh (2*phi/s_6_a alpha) - sqrt (8*p^2 + (s_6_a alpha)^2)).
(* TmodelPotential.sr_N2phi, potentials.py:1040-1043 *)
Definition tm_N2phi (N : R) :=
  s_6_a alpha / 2
  * np_arccosh (8*p/(s_6_a alpha)^2 * N + sqrt (8*p^2 + (s_6_a alpha)^2) / s_6_a alpha).
End TmodelModel.

(** ** RadionGaugePotential, potentials.py:1046-1164 *)
Section RadionModel.
Variables (p alpha L : R).
(* RadionGaugePotential.V, potentials.py:1081-1082 *)
Definition rg_V (phi : R) := L^4 * pypow phi p / (alpha + pypow phi p).
(* RadionGaugePotential.dV, potentials.py:1084-1088 *)
Definition rg_dV (phi : R) :=
  let L1 := L^4 * alpha * p * pypow phi (p-1) in
  L1 / (alpha + pypow phi p)^2.
(* RadionGaugePotential.d2V, potentials.py:1090-1094 *)
Definition rg_d2V (phi : R) :=
  let L2 := L^4 * alpha * p * pypow phi (p-2) in
  L2 * (alpha * p - alpha - p * pypow phi p - pypow phi p) / (alpha + pypow phi p)^3.
(* RadionGaugePotential.d3V, potentials.py:1096-1102 *)
Definition rg_d3V (phi : R) :=
  let L3 := L^4 * alpha * p * pypow phi (p-3) in
  L3 * (p^2 * (alpha^2 - 4*alpha*pypow phi p + pypow phi (2*p))
        - 3 * p * (alpha - pypow phi p) * (alpha + pypow phi p)
        + 2 * (alpha + pypow phi p)^2) / (alpha + pypow phi p)^4.
(* RadionGaugePotential.d4V, potentials.py:1104-1111 *)
Definition rg_d4V (phi : R) :=
  let L4 := L^4 * alpha * p * pypow phi (p-4) in
  L4 * (p^3 * (alpha - pypow phi p) * (alpha^2 - 10*alpha*pypow phi p + pypow phi (2*p))
        - 6 * p^2 * (alpha + pypow phi p) * (alpha^2 - 4*alpha*pypow phi p + pypow phi (2*p))
        + 11 * p * (alpha - pypow phi p) * (alpha + pypow phi p)^2
        - 6 * (alpha + pypow phi p)^3) / (alpha + pypow phi p)^5.
(* RadionGaugePotential.inv_V, potentials.py:1113-1114 *)
Definition rg_inv_V (v : R) := pypow (alpha / (L^4/v - 1)) (1/p).
(* RadionGaugePotential.get_epsilon_1V, potentials.py:1116-1117 *)
Definition rg_eps1 (phi : R) := alpha^2 * p^2 / (2 * phi^2 * (alpha + pypow phi p)^2).
(* RadionGaugePotential.get_epsilon_2V, potentials.py:1119-1122 *)
Definition rg_eps2 (phi : R) :=
  2 * alpha * p * (alpha + pypow phi p*(p+1)) / (phi^2 * (alpha + pypow phi p)^2).
(* RadionGaugePotential.get_epsilon_3V, potentials.py:1124-1130 *)
Definition rg_eps3 (phi : R) :=
  alpha * p * (p^2*(alpha - pypow phi p) * (3*alpha - pypow phi p)
               - 3 * p * (alpha^2*p - alpha*p*pypow phi p - alpha*pypow phi p - pypow phi (2*p))
               + 2 * (alpha + pypow phi p)^2)
  / (phi^2 * (alpha + pypow phi p)^2 * (alpha + p*pypow phi p + pypow phi p)).
(* RadionGaugePotential.get_epsilon_4V, potentials.py:1132-1143 *)
Definition rg_eps4 (phi : R) :=
  alpha * p * (p^4 * pypow phi (3*p) * (3*alpha - pypow phi p)
               - p^3*pypow phi p*(alpha+pypow phi p) * (alpha^2-6*alpha*pypow phi p+6*pypow phi (2*p))
               + p^2*pypow phi p*(alpha + pypow phi p)^2*(3*alpha - 13*pypow phi p)
               - 12*p*pypow phi p*(alpha + pypow phi p)^3
               - 4*(alpha + pypow phi p)^4)
  / (phi^2 * (p^3 * pypow phi (2*p) * (alpha - pypow phi p) * (alpha + pypow phi p)^2
              + p^2 * pypow phi p * (alpha - 4*pypow phi p) * (alpha + pypow phi p)^3
              - 5 * p * pypow phi p * (alpha + pypow phi p)^4
              - 2 * (alpha + pypow phi p)^5)).
(** sr_phi2N, potentials.py:1152-1157; [phi_end] is the object's phi_end *)
(* RadionGaugePotential.sr_phi2N, potentials.py:1152-1157 *)
Definition rg_phi2N (phi_end phi : R) :=
  (pypow phi (p+2) - pypow phi_end (p+2) + (phi^2 - phi_end^2) * (alpha*p/2 + alpha))
  / (alpha * p * (p+2)).
End RadionModel.
(** RadionGauge2Potential.phi_end, potentials.py:1197-1207 *)
(* RadionGauge2Potential.phi_end, potentials.py:1197-1207 *)
Definition rg2_phi_end (a : R) :=
  pypow 3 (1/12) * sqrt (
    3 * pypow a (4/3)
    + pypow 3 (2/3) * pypow a (2/3) * pypow (sqrt 3*a + 9*sqrt (2*a+27) + 27*sqrt 3) (2/3)
    - 2 * pypow 3 (5/6) * a * pypow (sqrt 3*a + 9*sqrt (2*a+27) + 27*sqrt 3) (1/3))
  / (3 * pypow (sqrt 3*a + 9*sqrt (2*a+27) + 27*sqrt 3) (1/6)).
(** RadionGauge2Potential.sr_N2phi, potentials.py:1209-1212 *)
(* RadionGauge2Potential.sr_N2phi, potentials.py:1209-1212 *)
Definition rg2_N2phi (alpha phi_end N : R) :=
  sqrt (- alpha + sqrt (8*N*alpha + alpha^2 + 2*alpha*phi_end^2 + phi_end^4)).

(** ** Features, potentials.py:1302-1350 *)
(* GaussianDip.F, potentials.py:1305-1308 *)
Definition gd_F (x x0 a b : R) := - a * exp (- (x - x0)^2 / (2 * b^2)).
(* GaussianDip.dF, potentials.py:1310-1313 *)
Definition gd_dF (x x0 a b : R) := a / b^2 * (x - x0) * exp (- (x - x0)^2 / (2 * b^2)).
(* GaussianDip.d2F, potentials.py:1315-1318 *)
Definition gd_d2F (x x0 a b : R) :=
  a / b^4 * (b^2 - (x - x0)^2) * exp (- (x - x0)^2 / (2 * b^2)).
(* GaussianDip.d3F, potentials.py:1320-1323 *)
Definition gd_d3F (x x0 a b : R) :=
  a / b^6 * (x - x0) * ((x - x0)^2 - 3 * b^2) * exp (- (x - x0)^2 / (2 * b^2)).
(* TanhStep.F, potentials.py:1329-1332 *)
Definition ts_F (x x0 a b : R) := a * tanh ((x - x0) / b).
(* TanhStep.dF, potentials.py:1334-1338 *)
Definition ts_dF (x x0 a b : R) := a / b * (1 - (tanh ((x - x0) / b))^2).
(* TanhStep.d2F, potentials.py:1340-1344 *)
Definition ts_d2F (x x0 a b : R) :=
  -2 * a / b^2 * tanh ((x - x0) / b) * (1 - (tanh ((x - x0) / b))^2).
(* TanhStep.d3F, potentials.py:1346-1350 *)
Definition ts_d3F (x x0 a b : R) :=
  -2 * a / b^3 * (1 - 4 * (tanh ((x - x0) / b))^2 + 3 * (tanh ((x - x0) / b))^4).

(** FeaturePotential, potentials.py:1353-1412: [V0..] are the super() values of the
    next potential class in the MRO, [F..] those of the feature class. *)
Section FeatureModel.
Variables (V0 dV0 d2V0 d3V0 : R -> R) (F dF d2F d3F : R -> R).
(* FeaturePotential.V, potentials.py:1362-1369 *)
Definition feat_V (phi : R) := V0 phi * (1 + F phi).
(* FeaturePotential.dV, potentials.py:1371-1380 *)
Definition feat_dV (phi : R) := dV0 phi * (1 + F phi) + V0 phi * dF phi.
(* FeaturePotential.d2V, potentials.py:1382-1393 *)
Definition feat_d2V (phi : R) := d2V0 phi * (1 + F phi) + 2 * dV0 phi * dF phi + V0 phi * d2F phi.
(* FeaturePotential.d3V, potentials.py:1395-1412 *)
Definition feat_d3V (phi : R) :=
  d3V0 phi * (1 + F phi) + 3 * d2V0 phi * dF phi + 3 * dV0 phi * d2F phi + V0 phi * d3F phi.
End FeatureModel.

(* ------------------------------------------------------------------ *)
(** ** Method dispatch *)

Definition V (P : pot) (L phi : R) : R :=
  match P with
  | Monomial p => mono_V p L phi
  | Linear => mono_V 1 L phi
  | Quadratic => quad_V L phi
  | Cubic => mono_V 3 L phi
  | Quartic => mono_V 4 L phi
  | Starobinsky => star_V L phi
  | Natural phi0 => nat_V phi0 L phi
  | DoubleWell p phi0 => dw_V p phi0 L phi
  | DoubleWell2 phi0 => dw_V 2 phi0 L phi
  | DoubleWell4 phi0 => dw_V 4 phi0 L phi
  | Tmodel p alpha => tm_V p alpha L phi
  | RadionGauge p alpha => rg_V p alpha L phi
  | RadionGauge2 alpha => rg_V 2 alpha L phi
  | StarobinskyGaussianDip f a b => feat_V (star_V L) (fun x => gd_F x f a b) phi
  | StarobinskyTanhStep f a b => feat_V (star_V L) (fun x => ts_F x f a b) phi
  end.

Definition dV (P : pot) (L phi : R) : R :=
  match P with
  | Monomial p => mono_dV p L phi
  | Linear => mono_dV 1 L phi
  | Quadratic => quad_dV L phi
  | Cubic => mono_dV 3 L phi
  | Quartic => mono_dV 4 L phi
  | Starobinsky => star_dV L phi
  | Natural phi0 => nat_dV phi0 L phi
  | DoubleWell p phi0 => dw_dV p phi0 L phi
  | DoubleWell2 phi0 => dw_dV 2 phi0 L phi
  | DoubleWell4 phi0 => dw_dV 4 phi0 L phi
  | Tmodel p alpha => tm_dV p alpha L phi
  | RadionGauge p alpha => rg_dV p alpha L phi
  | RadionGauge2 alpha => rg_dV 2 alpha L phi
  | StarobinskyGaussianDip f a b =>
      feat_dV (star_V L) (star_dV L) (fun x => gd_F x f a b) (fun x => gd_dF x f a b) phi
  | StarobinskyTanhStep f a b =>
      feat_dV (star_V L) (star_dV L) (fun x => ts_F x f a b) (fun x => ts_dF x f a b) phi
  end.

Definition d2V (P : pot) (L phi : R) : R :=
  match P with
  | Monomial p => mono_d2V p L phi
  | Linear => mono_d2V 1 L phi
  | Quadratic => quad_d2V L phi
  | Cubic => mono_d2V 3 L phi
  | Quartic => mono_d2V 4 L phi
  | Starobinsky => star_d2V L phi
  | Natural phi0 => nat_d2V phi0 L phi
  | DoubleWell p phi0 => dw_d2V p phi0 L phi
  | DoubleWell2 phi0 => dw_d2V 2 phi0 L phi
  | DoubleWell4 phi0 => dw_d2V 4 phi0 L phi
  | Tmodel p alpha => tm_d2V p alpha L phi
  | RadionGauge p alpha => rg_d2V p alpha L phi
  | RadionGauge2 alpha => rg_d2V 2 alpha L phi
  | StarobinskyGaussianDip f a b =>
      feat_d2V (star_V L) (star_dV L) (star_d2V L)
        (fun x => gd_F x f a b) (fun x => gd_dF x f a b) (fun x => gd_d2F x f a b) phi
  | StarobinskyTanhStep f a b =>
      feat_d2V (star_V L) (star_dV L) (star_d2V L)
        (fun x => ts_F x f a b) (fun x => ts_dF x f a b) (fun x => ts_d2F x f a b) phi
  end.

Definition d3V (P : pot) (L phi : R) : R :=
  match P with
  | Monomial p => mono_d3V p L phi
  | Linear => mono_d3V 1 L phi
  | Quadratic => quad_d3V phi
  | Cubic => mono_d3V 3 L phi
  | Quartic => mono_d3V 4 L phi
  | Starobinsky => star_d3V L phi
  | Natural phi0 => nat_d3V phi0 L phi
  | DoubleWell p phi0 => dw_d3V p phi0 L phi
  | DoubleWell2 phi0 => dw_d3V 2 phi0 L phi
  | DoubleWell4 phi0 => dw_d3V 4 phi0 L phi
  | Tmodel p alpha => tm_d3V p alpha L phi
  | RadionGauge p alpha => rg_d3V p alpha L phi
  | RadionGauge2 alpha => rg_d3V 2 alpha L phi
  | StarobinskyGaussianDip f a b =>
      feat_d3V (star_V L) (star_dV L) (star_d2V L) (star_d3V L)
        (fun x => gd_F x f a b) (fun x => gd_dF x f a b) (fun x => gd_d2F x f a b)
        (fun x => gd_d3F x f a b) phi
  | StarobinskyTanhStep f a b =>
      feat_d3V (star_V L) (star_dV L) (star_d2V L) (star_d3V L)
        (fun x => ts_F x f a b) (fun x => ts_dF x f a b) (fun x => ts_d2F x f a b)
        (fun x => ts_d3F x f a b) phi
  end.

(** FeaturePotential does not define d4V: the MRO finds StarobinskyPotential.d4V. *)
Definition d4V (P : pot) (L phi : R) : R :=
  match P with
  | Monomial p => mono_d4V p L phi
  | Linear => mono_d4V 1 L phi
  | Quadratic => quad_d4V phi
  | Cubic => mono_d4V 3 L phi
  | Quartic => mono_d4V 4 L phi
  | Starobinsky => star_d4V L phi
  | Natural phi0 => nat_d4V phi0 L phi
  | DoubleWell p phi0 => dw_d4V p phi0 L phi
  | DoubleWell2 phi0 => dw_d4V 2 phi0 L phi
  | DoubleWell4 phi0 => dw_d4V 4 phi0 L phi
  | Tmodel p alpha => tm_d4V p alpha L phi
  | RadionGauge p alpha => rg_d4V p alpha L phi
  | RadionGauge2 alpha => rg_d4V 2 alpha L phi
  | StarobinskyGaussianDip f a b => star_d4V L phi
  | StarobinskyTanhStep f a b => star_d4V L phi
  end.

Definition inv_V (P : pot) (L v : R) : R :=
  match P with
  | Monomial p => mono_inv_V p L v
  | Linear => mono_inv_V 1 L v
  | Quadratic => quad_inv_V L v
  | Cubic => mono_inv_V 3 L v
  | Quartic => mono_inv_V 4 L v
  | Starobinsky => star_inv_V L v
  | Natural phi0 => nat_inv_V phi0 L v
  | DoubleWell p phi0 => dw_inv_V p phi0 L v
  | DoubleWell2 phi0 => dw_inv_V 2 phi0 L v
  | DoubleWell4 phi0 => dw_inv_V 4 phi0 L v
  | Tmodel p alpha => tm_inv_V p alpha L v
  | RadionGauge p alpha => rg_inv_V p alpha L v
  | RadionGauge2 alpha => rg_inv_V 2 alpha L v
  | StarobinskyGaussianDip _ _ _ => star_inv_V L v
  | StarobinskyTanhStep _ _ _ => star_inv_V L v
  end.

Definition eps1V (P : pot) (phi : R) : R :=
  match P with
  | Monomial p => mono_eps1 p phi
  | Linear => mono_eps1 1 phi
  | Quadratic => mono_eps1 2 phi
  | Cubic => mono_eps1 3 phi
  | Quartic => mono_eps1 4 phi
  | Starobinsky => star_eps1 phi
  | Natural phi0 => nat_eps1 phi0 phi
  | DoubleWell p phi0 => dw_eps1 p phi0 phi
  | DoubleWell2 phi0 => dw_eps1 2 phi0 phi
  | DoubleWell4 phi0 => dw_eps1 4 phi0 phi
  | Tmodel p alpha => tm_eps1 p alpha phi
  | RadionGauge p alpha => rg_eps1 p alpha phi
  | RadionGauge2 alpha => rg_eps1 2 alpha phi
  | StarobinskyGaussianDip _ _ _ => star_eps1 phi
  | StarobinskyTanhStep _ _ _ => star_eps1 phi
  end.

Definition eps2V (P : pot) (phi : R) : R :=
  match P with
  | Monomial p => mono_eps2 p phi
  | Linear => mono_eps2 1 phi
  | Quadratic => mono_eps2 2 phi
  | Cubic => mono_eps2 3 phi
  | Quartic => mono_eps2 4 phi
  | Starobinsky => star_eps2 phi
  | Natural phi0 => nat_eps2 phi0 phi
  | DoubleWell p phi0 => dw_eps2 p phi0 phi
  | DoubleWell2 phi0 => dw_eps2 2 phi0 phi
  | DoubleWell4 phi0 => dw_eps2 4 phi0 phi
  | Tmodel p alpha => tm_eps2 p alpha phi
  | RadionGauge p alpha => rg_eps2 p alpha phi
  | RadionGauge2 alpha => rg_eps2 2 alpha phi
  | StarobinskyGaussianDip _ _ _ => star_eps2 phi
  | StarobinskyTanhStep _ _ _ => star_eps2 phi
  end.

Definition eps3V (P : pot) (phi : R) : R :=
  match P with
  | Monomial p => mono_eps3 p phi
  | Linear => mono_eps3 1 phi
  | Quadratic => mono_eps3 2 phi
  | Cubic => mono_eps3 3 phi
  | Quartic => mono_eps3 4 phi
  | Starobinsky => star_eps3 phi
  | Natural phi0 => nat_eps3 phi0 phi
  | DoubleWell p phi0 => dw_eps3 p phi0 phi
  | DoubleWell2 phi0 => dw_eps3 2 phi0 phi
  | DoubleWell4 phi0 => dw_eps3 4 phi0 phi
  | Tmodel p alpha => tm_eps3 p alpha phi
  | RadionGauge p alpha => rg_eps3 p alpha phi
  | RadionGauge2 alpha => rg_eps3 2 alpha phi
  | StarobinskyGaussianDip _ _ _ => star_eps3 phi
  | StarobinskyTanhStep _ _ _ => star_eps3 phi
  end.

Definition eps4V (P : pot) (phi : R) : R :=
  match P with
  | Monomial p => mono_eps4 p phi
  | Linear => mono_eps4 1 phi
  | Quadratic => mono_eps4 2 phi
  | Cubic => mono_eps4 3 phi
  | Quartic => mono_eps4 4 phi
  | Starobinsky => star_eps4 phi
  | Natural phi0 => nat_eps4 phi0 phi
  | DoubleWell p phi0 => dw_eps4 p phi0 phi
  | DoubleWell2 phi0 => dw_eps4 2 phi0 phi
  | DoubleWell4 phi0 => dw_eps4 4 phi0 phi
  | Tmodel p alpha => tm_eps4 p alpha phi
  | RadionGauge p alpha => rg_eps4 p alpha phi
  | RadionGauge2 alpha => rg_eps4 2 alpha phi
  | StarobinskyGaussianDip _ _ _ => star_eps4 phi
  | StarobinskyTanhStep _ _ _ => star_eps4 phi
  end.
