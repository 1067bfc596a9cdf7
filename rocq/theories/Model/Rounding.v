(** Model of the floating-point evaluation of the background quantities H2, w and inflating:
    /repo/primpy/time/inflation.py:48-49,120-131 and /repo/primpy/efolds/inflation.py:52-54,129-140.

    IEEE binary64 with rounding to nearest even, one rounding per Python operator, in the order in which
    Python evaluates the expression. Simplifications: overflow is not modelled (the format has no largest
    number) and zeros have no sign; gradual underflow is modelled. [pow2 x] is what [x**2] returns (numpy
    calls the C library's pow, which is not promised to be correctly rounded) and [fexp] is np.exp: both
    are arbitrary functions here, constrained only where a theorem says so. *)
From Coq Require Import Reals ZArith.
From Flocq Require Import Core.
Open Scope R_scope.

(** the doubles, and rounding to the nearest one *)
Definition D (x : R) : Prop := generic_format radix2 (FLT_exp (-1074) 53) x.
Definition rn (x : R) : R := round radix2 (FLT_exp (-1074) 53) ZnearestE x.

Section Rounded.
Variables (pow2 fexp : R -> R).
(** InflationEquationsT.get_H2, time/inflation.py:48-49: (dphi**2 / 2 + V) / 3 - K * np.exp(-2 * N) *)
Definition fT_get_H2 (N dphi V K : R) : R :=
  rn (rn (rn (rn (pow2 dphi / 2) + V) / 3) - rn (K * fexp (rn (-2 * N)))).
(** InflationEquationsT.w, time/inflation.py:123-128 *)
Definition fT_w (dphi V : R) : R :=
  let dphidt_2 := pow2 dphi in
  let p := rn (rn (dphidt_2 / 2) - V) in
  let rho := rn (rn (dphidt_2 / 2) + V) in
  rn (p / rho).
(** InflationEquationsT.inflating, time/inflation.py:130-131 *)
Definition fT_inflating (dphi V : R) : R := rn (V - pow2 dphi).
(** InflationEquationsN.get_H2, efolds/inflation.py:52-54: (2 * V - 6 * K * np.exp(-2 * N)) / (6 - dphi**2) *)
Definition fN_get_H2 (N dphi V K : R) : R :=
  rn (rn (rn (2 * V) - rn (rn (6 * K) * fexp (rn (-2 * N)))) / rn (6 - pow2 dphi)).
(** InflationEquationsN.w, efolds/inflation.py:132-137 *)
Definition fN_w (N dphi V K : R) : R :=
  let dphidt_2 := rn (fN_get_H2 N dphi V K * pow2 dphi) in
  let p := rn (rn (dphidt_2 / 2) - V) in
  let rho := rn (rn (dphidt_2 / 2) + V) in
  rn (p / rho).
(** InflationEquationsN.inflating, efolds/inflation.py:139-140 *)
Definition fN_inflating (N dphi V K : R) : R := rn (V - rn (fN_get_H2 N dphi V K * pow2 dphi)).
End Rounded.
