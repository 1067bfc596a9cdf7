(** Specification of standard Big Bang cosmology, independent of the code: the Friedmann equation
    H^2 = H0^2 E^2(x) with x = a0/a, so x >= 1 is the past and 0 < x <= 1 the future. *)
From Coq Require Import Reals.
Open Scope R_scope.

(** density parameters today: radiation, matter, curvature, cosmological constant *)
Definition E2 (r m k l x : R) : R := r * x ^ 4 + m * x ^ 3 + k * x ^ 2 + l.
(** the Friedmann equation has a solution at all earlier times *)
Definition has_big_bang (r m k l : R) : Prop := forall x, 1 <= x -> 0 <= E2 r m k l x.
(** the expansion cannot be followed back beyond some earlier time: a bounce *)
Definition bounces (r m k l : R) : Prop := exists x, 1 < x /\ E2 r m k l x < 0.
Definition expands_forever (r m k l : R) : Prop := forall x, 0 < x <= 1 -> 0 <= E2 r m k l x.
(** the expansion stops at some later time *)
Definition recollapses (r m k l : R) : Prop := exists x, 0 < x < 1 /\ E2 r m k l x < 0.
