(** IEEE-style special values around the reals, used where NaN/inf matter.
    A Python/numpy float is [Fin r] with r a real (no rounding, no signed zero, no
    overflow), an infinity or NaN. Arithmetic is numpy's (no ZeroDivisionError). *)
From Coq Require Import Reals List.
From Verif Require Import Base.
Open Scope R_scope.

Inductive fl := Fin (r : R) | PInf | NInf | NaN.

Definition isfinite (a : fl) : bool := match a with Fin _ => true | _ => false end.
Definition isnan (a : fl) : bool := match a with NaN => true | _ => false end.
Definition fneg (a : fl) : fl := match a with Fin x => Fin (- x) | PInf => NInf | NInf => PInf | NaN => NaN end.
Definition fadd (a b : fl) : fl :=
  match a, b with
  | Fin x, Fin y => Fin (x + y)
  | NaN, _ | _, NaN | PInf, NInf | NInf, PInf => NaN
  | PInf, _ | _, PInf => PInf
  | NInf, _ | _, NInf => NInf
  end.
Definition fsub (a b : fl) : fl :=
  match a, b with Fin x, Fin y => Fin (x - y) | _, _ => fadd a (fneg b) end.
(** infinity with the sign of x, NaN for 0 *)
Definition inf_of (x : R) : fl := if Rlt_dec 0 x then PInf else if Rlt_dec x 0 then NInf else NaN.
Definition fmul (a b : fl) : fl :=
  match a, b with
  | Fin x, Fin y => Fin (x * y)
  | NaN, _ | _, NaN => NaN
  | PInf, PInf | NInf, NInf => PInf
  | PInf, NInf | NInf, PInf => NInf
  | PInf, Fin x | Fin x, PInf => inf_of x
  | NInf, Fin x | Fin x, NInf => inf_of (- x)
  end.
Definition fdiv (a b : fl) : fl :=
  match a, b with
  | Fin x, Fin y => if Req_EM_T y 0 then inf_of x else Fin (x / y)
  | NaN, _ | _, NaN => NaN
  | Fin x, _ => Fin 0
  | PInf, Fin y => if Rlt_dec y 0 then NInf else PInf
  | NInf, Fin y => if Rlt_dec y 0 then PInf else NInf
  | _, _ => NaN
  end.
(** np.log, np.sqrt, np.exp *)
Definition flog (a : fl) : fl :=
  match a with
  | Fin x => if Rlt_dec 0 x then Fin (ln x) else if Req_EM_T x 0 then NInf else NaN
  | PInf => PInf | NInf => NaN | NaN => NaN
  end.
Definition fsqrt (a : fl) : fl :=
  match a with
  | Fin x => if Rlt_dec x 0 then NaN else Fin (sqrt x)
  | PInf => PInf | NInf => NaN | NaN => NaN
  end.
Definition fexp (a : fl) : fl :=
  match a with Fin x => Fin (exp x) | PInf => PInf | NInf => Fin 0 | NaN => NaN end.
(** [a ** p] for a real exponent (simplified: (-inf)**p and 0**(negative) are not numpy's; the two callers,
    inflation.py:594 (1/4 of a density) and the square in Omega_K0, never meet them with a finite background) *)
Definition fpow (a : fl) (p : R) : fl :=
  match a with
  | Fin x => if Rlt_dec x 0 then (if Req_EM_T p (IZR (Int_part p)) then Fin (pypow x p) else NaN) else Fin (pypow x p)
  | PInf => if Rlt_dec 0 p then PInf else if Req_EM_T p 0 then Fin 1 else Fin 0
  | NInf => NaN | NaN => NaN
  end.
(** comparisons: every comparison with NaN is False *)
Definition flt (a b : fl) : bool :=
  match a, b with
  | Fin x, Fin y => if Rlt_dec x y then true else false
  | NaN, _ | _, NaN => false
  | NInf, NInf => false | NInf, _ => true
  | _, NInf => false
  | PInf, _ => false
  | _, PInf => true
  end.
Definition feq (a b : fl) : bool :=
  match a, b with
  | Fin x, Fin y => if Req_EM_T x y then true else false
  | PInf, PInf | NInf, NInf => true
  | _, _ => false
  end.
Definition fle (a b : fl) : bool := (flt a b || feq a b)%bool.
