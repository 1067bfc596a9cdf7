(** What the C library promises about x**2 (a faithful rounding of the exact square), for C107-C109. *)
From Coq Require Import Reals ZArith.
From Flocq Require Import Core.
From Verif Require Import Model.Rounding.
Open Scope R_scope.

(** faithful: the result is a double, and no double lies strictly between it and the exact square *)
Definition faithful_square (pow2 : R -> R) : Prop :=
  forall x, D x -> D (pow2 x) /\ (forall v, D v -> v <= x ^ 2 -> v <= pow2 x) /\ (forall v, D v -> x ^ 2 <= v -> pow2 x <= v).
(** the unit roundoff 2^-53 and the smallest positive double 2^-1074 *)
Definition u : R := / 2 ^ 53.
Definition tiny : R := bpow radix2 (-1074).
(** what C107 asks of np.exp for open universes: a double, not negative, within four units of roundoff (plus the
    smallest double, for underflow) *)
Definition accurate_exp (fexp : R -> R) : Prop :=
  forall x, D x -> D (fexp x) /\ 0 <= fexp x /\ Rabs (fexp x - exp x) <= 4 * u * exp x + tiny.
