(** Vocabulary for the perturbation properties: samples of a background solution,
    oscillator equations, canonical variables, linearised Einstein equations. *)
From Coq Require Import Reals List.
From Coquelicot Require Import Coquelicot.
From Verif Require Import Base Model.Potentials Model.Equations Model.Background
     Model.Perturbations Spec.BackgroundSpec.
Open Scope R_scope.

(** the sample a mode object reads at time t (resp. e-fold n) of a background solution *)
Definition T_sample K U te y : R -> sample := fun t =>
  mksample (T_N te y t) (T_Hub K U te y t) (T_phi te y t) (T_dphi te y t)
           (T_dphi te y t / T_Hub K U te y t) (OmegaK_attr K (T_N te y t) (T_Hub K U te y t)).
Definition N_sample K U tt te y : R -> sample := fun n =>
  mksample n (N_Hub K U tt te y n) (N_phi tt te y n) (N_dphi tt te y n * N_Hub K U tt te y n)
           (N_dphi tt te y n) (OmegaK_attr K n (N_Hub K U tt te y n)).

(** f'' + 2 damping f' + frequency2 f = 0 on (a,b) *)
Definition oscillator (damping frequency2 f : R -> R) (a b : R) : Prop :=
  exists f1 : R -> R, forall x, a < x < b ->
    is_derive f x (f1 x) /\
    is_derive f1 x (- (2 * damping x * f1 x + frequency2 x * f x)).

(** tau is the inverse of the e-fold number: a bijection between the two intervals *)
Definition clock (Nf : R -> R) (a b : R) (tau : R -> R) (n0 n1 : R) : Prop :=
  (forall n, n0 < n < n1 -> a < tau n < b /\ Nf (tau n) = n) /\
  (forall t, a < t < b -> n0 < Nf t < n1 /\ tau (Nf t) = t).

(** the canonical variable z = a phi'/H of scalar modes *)
Definition zvar K U te y : R -> R := fun t =>
  exp (T_N te y t) * T_dphi te y t / T_Hub K U te y t.
Definition zvarN tt te y : R -> R := fun n => exp n * N_dphi tt te y n.
(** its generalisation to curved space, Z^2 = z^2 kappa2 / (kappa2 + K phi'^2/(2H^2)) *)
Definition Z2var K k U te y : R -> R := fun t =>
  (zvar K U te y t)^2 * kappa2 K k / (kappa2 K k + K * (T_dphi te y t)^2 / (2 * (T_Hub K U te y t)^2)).

(** Linearised Einstein equations in longitudinal gauge (reduced Planck mass 1) for a mode
    with -Laplacian eigenvalue D = k^2 + k K (K+1) on the unit 3-space of curvature K:
    metric potential [Phi], inflaton perturbation [q], with derivatives [dPhi], [dq]:
      0i:  Phi' + H Phi = phi' q / 2
      00:  -(D - 3K)/a^2 Phi - 3H (Phi' + H Phi) = (phi' q' - phi'^2 Phi + V'(phi) q) / 2 *)
Definition linear_einstein K k U te y (Phi q : R -> R) (a b : R) : Prop :=
  exists dPhi dq : R -> R, forall t, a < t < b ->
    let A := exp (T_N te y t) in let H := T_Hub K U te y t in let p := T_dphi te y t in
    let D := k^2 + k * K * (K + 1) in
    is_derive Phi t (dPhi t) /\ is_derive q t (dq t) /\
    dPhi t + H * Phi t = p * q t / 2 /\
    - (D - 3 * K) / A^2 * Phi t - 3 * H * (dPhi t + H * Phi t)
      = (p * dq t - p^2 * Phi t + pdV U (T_phi te y t) * q t) / 2.
(** comoving curvature perturbation R = Phi + H q / phi' *)
Definition curvature_pert K U te y (Phi q : R -> R) : R -> R := fun t =>
  Phi t + T_Hub K U te y t * q t / T_dphi te y t.

(** Wronskian conj(u) u' - u conj(u') of a complex mode with value u and derivative u' *)
Definition wronskian (v : C * C) : C := (Cconj (fst v) * snd v - fst v * Cconj (snd v))%C.

(** complex modes: real and imaginary part each obey the oscillator equation; |u'|^2 *)
Definition complex_mode (damping frequency2 : R -> R) (u : R -> C) (a b : R) : Prop :=
  oscillator damping frequency2 (fun x => fst (u x)) a b /\ oscillator damping frequency2 (fun x => snd (u x)) a b.
Definition speed2 (u : R -> C) (x : R) : R :=
  (Derive (fun s => fst (u s)) x)^2 + (Derive (fun s => snd (u s)) x)^2.
(** the Hubble rate falls slowly on [x1,x2]: -H'/H^2 <= e (H' with respect to cosmic time; in e-folds
    -H'/H <= e) *)
Definition slowly_falling_T (e : R) (H : R -> R) (x1 x2 : R) : Prop :=
  forall x, x1 <= x <= x2 -> - Derive H x / (H x)^2 <= e.
Definition slowly_falling_N (e : R) (H : R -> R) (x1 x2 : R) : Prop :=
  forall x, x1 <= x <= x2 -> - Derive H x / H x <= e.

(** a mode with the given initial value and derivative at x *)
Definition starts_from (vac : C * C) (u : R -> C) (x : R) : Prop :=
  u x = fst vac /\ is_derive (fun s => fst (u s)) x (fst (snd vac)) /\ is_derive (fun s => snd (u s)) x (snd (snd vac)).
(** the canonical variable v = z u is in the positive-frequency state of frequency w at x:
    v = c / sqrt(2 w) and dv/deta = - i w v, with deta = dx / A *)
Definition positive_frequency (z : R -> R) (A w c : R) (u : R -> C) (x : R) : Prop :=
  z x * fst (u x) = c / sqrt (2 * w) /\ z x * snd (u x) = 0 /\
  is_derive (fun s => z s * fst (u s)) x 0 /\
  is_derive (fun s => z s * snd (u s)) x (- (w / A) * (c / sqrt (2 * w))).
(** the mode itself has u' = - i (w/A) u, with amplitude c / (z sqrt(2 w)) *)
Definition renormalised (z : R -> R) (A w c : R) (u : R -> C) (x : R) : Prop :=
  z x * fst (u x) = c / sqrt (2 * w) /\ snd (u x) = 0 /\
  is_derive (fun s => fst (u s)) x 0 /\ is_derive (fun s => snd (u s)) x (- (w / A) * fst (u x)).
