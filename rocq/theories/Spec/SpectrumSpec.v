(** Specification for C115: a background object that holds exact samples of a solution, and an
    integrator that integrates the mode equation exactly. *)
From Coq Require Import Reals List String.
From Coquelicot Require Import Coquelicot.
From Verif Require Import Base Model.Potentials Model.Equations Model.Background Model.Perturbations Model.Oscode Spec.BackgroundSpec Spec.PerturbationSpec Properties.ModeProps.
Import ListNotations.
Open Scope R_scope.
Open Scope string_scope.

(** the background object [b] holds the values [samp x] at the points [xs] of its time variable, and
    log(aH) = N + log(H) there *)
Definition holds_samples (time : bool) (K : R) (U : potfun) (samp : R -> sample) (xs : list R) (b : obg) : Prop :=
  ob_K b = K /\ ob_U b = U /\ ob_indep b = (if time then "t" else "_N") /\ ob_x b = xs /\
  ob_s b = map samp xs /\ ob_logaH b = map (fun x => s_N (samp x) + ln (s_H (samp x))) xs.

(** from xi to xj, sampled at [xs], the integrator [osc] returns the exact solutions of
    f'' + 2 damping f' + frequency2 f = 0: the value at xj is f(xj) x0 + h(xj) dx0 with the two
    solutions that start at xi from (1, 0) and (0, 1), and has frozen by then (the last five steps,
    whose median is reported, have this value) *)
Definition integrates_exactly (osc : list R -> R -> R -> list C -> list R -> R -> R -> list C * list C)
    (damping frequency2 : R -> R) (a b : R) (xs : list R) (xi xj : R) : Prop :=
  exists f h, oscillator damping frequency2 f a b /\ oscillator damping frequency2 h a b /\
    f xi = 1 /\ is_derive f xi 0 /\ h xi = 0 /\ is_derive h xi 1 /\
    integrates osc xs xi xj (map frequency2 xs) (map damping xs) (RtoC (f xj)) (RtoC (h xj)).
