(** Specifications of the numerical oracles used by the slow-roll conversions. *)
From Coq Require Import Reals.
From Verif Require Import Base Model.Potentials.
Open Scope R_scope.

(** scipy.optimize.root_scalar(f, bracket=(a,b)): if it returns, the result is a
    zero of [f] inside the bracket (exact arithmetic: no tolerance). *)
Definition root_spec (root : (R -> R) -> R -> R -> res R) : Prop :=
  forall f a b r, root f a b = Ok r -> f r = 0 /\ Rmin a b <= r <= Rmax a b.

(** continuity on a closed interval *)
Definition cont_on (f : R -> R) (a b : R) : Prop :=
  forall x, a <= x <= b -> forall eps, 0 < eps ->
  exists d, 0 < d /\ forall y, a <= y <= b -> Rabs (y - x) < d -> Rabs (f y - f x) < eps.
(** root_scalar with a bracket returns whenever the function is continuous and does not have the
    same strict sign at both ends *)
Definition root_total (root : (R -> R) -> R -> R -> res R) : Prop :=
  forall f a b, a < b -> cont_on f a b -> f a * f b <= 0 -> exists r, root f a b = Ok r.

(** scipy.special.lambertw(., -1): the lower real branch on [-1/e, 0). *)
Definition lambert_spec (W : R -> R) : Prop :=
  forall z, - exp (-1) <= z < 0 -> W z * exp (W z) = z /\ W z <= -1.

(** the double-well classes; their sr_N2phi interpolates a table with 99999 nodes *)
Definition double_well (P : pot) : Prop :=
  match P with DoubleWell _ _ | DoubleWell2 _ | DoubleWell4 _ => True | _ => False end.
(** (power, well position) of a double well *)
Definition dwP (P : pot) : R * R :=
  match P with DoubleWell p phi0 => (p, phi0) | DoubleWell2 phi0 => (2, phi0) | DoubleWell4 phi0 => (4, phi0) | _ => (0,0) end.

(* ------------------------------------------------------------------ *)
(** ** C11: documented keyword arguments of the potential classes *)
From Coq Require Import List String.
From Verif Require Import Model.SlowRoll.
Import ListNotations.
Open Scope string_scope.

(** the class's own parameters (all mandatory) *)
Definition own_keys (c : klass) : list string :=
  match c with
  | KMonomial => ["p"]
  | KLinear | KQuadratic | KCubic | KQuartic | KStarobinsky => []
  | KNatural | KDoubleWell2 | KDoubleWell4 => ["phi0"]
  | KDoubleWell => ["p"; "phi0"]
  | KTmodel | KRadionGauge => ["p"; "alpha"]
  | KRadionGauge2 => ["alpha"]
  | KStarobinskyGaussianDip | KStarobinskyTanhStep => ["phi_feature"; "a_feature"; "b_feature"]
  end.
(** the parameters shared by all classes (all optional) *)
Definition common_keys : list string := ["Lambda"; "A_s"; "N_star"; "phi_star"].
(** the object a class builds from its parameter values *)
Definition object (c : klass) (g : string -> R) : pot :=
  match c with
  | KMonomial => Monomial (g "p")
  | KLinear => Linear | KQuadratic => Quadratic | KCubic => Cubic | KQuartic => Quartic
  | KStarobinsky => Starobinsky
  | KNatural => Natural (g "phi0")
  | KDoubleWell => DoubleWell (g "p") (g "phi0")
  | KDoubleWell2 => DoubleWell2 (g "phi0")
  | KDoubleWell4 => DoubleWell4 (g "phi0")
  | KTmodel => Tmodel (g "p") (g "alpha")
  | KRadionGauge => RadionGauge (g "p") (g "alpha")
  | KRadionGauge2 => RadionGauge2 (g "alpha")
  | KStarobinskyGaussianDip => StarobinskyGaussianDip (g "phi_feature") (g "a_feature") (g "b_feature")
  | KStarobinskyTanhStep => StarobinskyTanhStep (g "phi_feature") (g "a_feature") (g "b_feature")
  end.

(** [lookup l k]: the value passed for keyword [k] (Some v) or None if it is absent *)
Definition given (l : kwargs) (k : string) : Prop := exists v, In (k, v) l.

(** the documented keyword combinations *)
Definition accepted (c : klass) (l : kwargs) : Prop :=
  (forall k, In k (own_keys c) -> given l k) /\
  (forall k, given l k -> In k (own_keys c) \/ In k common_keys) /\
  ((~ given l "A_s" /\ ~ given l "N_star" /\ ~ given l "phi_star") \/
   (given l "A_s" /\ given l "N_star" /\ ~ given l "phi_star") \/
   (given l "A_s" /\ ~ given l "N_star" /\ given l "phi_star")).
