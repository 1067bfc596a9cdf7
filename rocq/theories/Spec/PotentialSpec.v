(** Vocabulary for the properties of potentials: field domains and the
    independent definition of the potential slow-roll hierarchy. *)
From Coq Require Import Reals ZArith Lra.
From Coquelicot Require Import Coquelicot.
From Verif Require Import Base Model.Potentials.
Open Scope R_scope.

(** classes without a feature *)
Definition featureless (P : pot) : Prop :=
  match P with
  | StarobinskyGaussianDip _ _ _ | StarobinskyTanhStep _ _ _ => False
  | _ => True
  end.

(** Parameters and field values where every expression in the class is an
    ordinary non-singular real number (no 0/0, no real power of a negative number). *)
Definition in_domain (P : pot) (phi : R) : Prop :=
  match P with
  | Monomial _ | Linear | Cubic | Quartic => phi <> 0
  | Quadratic => True
  | Starobinsky => True
  | Natural phi0 => phi0 <> 0
  | DoubleWell p phi0 => phi0 <> 0 /\ pow_ok (1 - phi / phi0) p
  | DoubleWell2 phi0 | DoubleWell4 phi0 => phi0 <> 0 /\ 1 - phi / phi0 <> 0
  | Tmodel p alpha => 0 < alpha /\ phi <> 0 /\ (0 < phi \/ exists z : Z, 2 * p = IZR z)
  | RadionGauge p alpha => pow_ok phi p /\ alpha + pypow phi p <> 0
  | RadionGauge2 alpha => phi <> 0 /\ alpha + phi^2 <> 0
  | StarobinskyGaussianDip _ _ b | StarobinskyTanhStep _ _ b => b <> 0
  end.

(** [f1..f4] are the first to fourth derivatives of [f] at [x]. *)
Definition derivatives_upto4 (f f1 f2 f3 f4 : R -> R) (x : R) : Prop :=
  is_derive_n f 1 x (f1 x) /\ is_derive_n f 2 x (f2 x) /\
  is_derive_n f 3 x (f3 x) /\ is_derive_n f 4 x (f4 x).

(** The potential slow-roll hierarchy, defined from V and V' alone:
    eps_1 = (V'/V)^2/2 and eps_{n+1} = - (V'/V) d ln eps_n / dphi
    (the field rolls down, dphi/dN = -V'/V). [e'] follows [e] in the hierarchy of [v], [dv] at [x]. *)
Definition next_in_hierarchy (v dv e : R -> R) (e' x : R) : Prop :=
  exists d, is_derive e x d /\ e' = - (dv x / v x) * (d / e x).

(** Parameters for which a class describes an inflationary potential. *)
Definition valid (P : pot) : Prop :=
  match P with
  | Monomial p => 0 < p
  | Linear | Quadratic | Cubic | Quartic | Starobinsky => True
  | Natural phi0 => 0 < phi0
  | DoubleWell p phi0 => 0 < p /\ 0 < phi0
  | DoubleWell2 phi0 | DoubleWell4 phi0 => 0 < phi0
  | Tmodel p alpha => 0 < p /\ 0 < alpha
  | RadionGauge p alpha => 0 < p /\ 0 < alpha
  | RadionGauge2 alpha => 0 < alpha
  | StarobinskyGaussianDip _ _ b | StarobinskyTanhStep _ _ b => b <> 0
  end.

(** The inflating branch: the field values between the minimum at 0 and the
    top of the potential. *)
Definition branch (P : pot) (phi : R) : Prop :=
  match P with
  | Natural phi0 | DoubleWell _ phi0 | DoubleWell2 phi0 | DoubleWell4 phi0 => 0 < phi < phi0
  | _ => 0 < phi
  end.

(** Potential values taken on the closed branch. *)
Definition attainable (P : pot) (L v : R) : Prop :=
  match P with
  | Monomial _ | Linear | Quadratic | Cubic | Quartic => L <> 0 /\ 0 <= v
  | Starobinsky => L <> 0 /\ 0 <= v < L^4
  | StarobinskyGaussianDip _ _ _ | StarobinskyTanhStep _ _ _ => L <> 0 /\ 0 <= v < L^4
  | Natural _ | DoubleWell _ _ | DoubleWell2 _ | DoubleWell4 _ => L <> 0 /\ 0 <= v <= L^4
  | Tmodel _ _ => 0 < L /\ 0 <= v < L^4
  | RadionGauge _ _ | RadionGauge2 _ => L <> 0 /\ 0 < v < L^4
  end.
