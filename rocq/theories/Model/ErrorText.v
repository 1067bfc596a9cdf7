(** Model of the texts of the errors with which the initial conditions are rejected:
    InflationStartError (/repo/primpy/exceptionhandling.py:8-27) as raised by SlowRollIC and InflationStartIC
    (initialconditions.py:48-51, 57-60, 120-123, 131-134).

    Simplifications: '%s' and '%g' of a float are arbitrary functions into strings. *)
From Coq Require Import Reals List String Bool.
From Verif Require Import Base Model.Float Model.Potentials Model.Equations Model.Background Model.Solution Model.InitCond.
Import ListNotations.
Open Scope R_scope.
Open Scope string_scope.

(** InflationStartError.__init__, exceptionhandling.py:23-27; [geometry] is the keyword, if given. The result is
    the pair of the attributes geometry and message (= str of the error). *)
Definition start_error (message : string) (geometry : option string) : string * string :=
  let g := match geometry with Some g => g | None => "all types of" end in
  (g, ("Inflation start condition for " ++ g ++ " universes is violated.") ++ " " ++ message).

Section ErrorText.
Variables (fmt_s fmt_g : fl -> string).

(** the error raised by SlowRollIC(equations, phi_i, ...), initialconditions.py:44-60, if any *)
Definition sr_error (q : ieqs) (phi : R) (kw : ickw) : option (string * string) :=
  match kw_N kw, kw_O kw with
  | Some n, None =>
      let aH2 := fsub (fmul (fdiv (Fin (pV (ie_U q) phi)) (Fin 3)) (fexp (Fin (2 * n)))) (Fin (ie_K q)) in
      if flt aH2 (Fin 0) then
        Some (start_error ("V_i / 3 * exp(2 N_i) - 1 = " ++ fmt_s aH2 ++ " < 0 but needs to be > 0. Increase either N_i or phi_i.") (Some "closed"))
      else None
  | None, Some o =>
      if flt (Fin o) (Fin 1) then None
      else Some (start_error ("Primordial curvature for open universes has to be Omega_Ki < 1, but Omega_Ki = " ++ fmt_g (Fin o) ++ " was requested.") (Some "open"))
  | _, _ => None
  end.
(** the error raised by InflationStartIC(equations, phi_i, ...), initialconditions.py:115-134, if any; the number
    printed is computed with 1 for the curvature (line 123), the test with equations.K (line 120) *)
Definition is_error (q : ieqs) (phi : R) (kw : ickw) : option (string * string) :=
  let A := fmul (fdiv (Fin (pV (ie_U q) phi)) (Fin 2)) in
  match kw_N kw, kw_O kw with
  | Some n, None =>
      if flt (fsub (A (fexp (Fin (2 * n)))) (Fin (ie_K q))) (Fin 0) then
        Some (start_error ("V_i / 2 * exp(2 N_i) - 1 = " ++ fmt_s (fsub (A (fexp (Fin (2 * n)))) (Fin 1)) ++ " < 0 but needs to be > 0. Increase either N_i or phi_i.") (Some "closed"))
      else None
  | None, Some o =>
      if flt (Fin o) (Fin 1) then None
      else Some (start_error ("Primordial curvature for open universes has to be Omega_Ki < 1, but Omega_Ki = " ++ fmt_g (Fin o) ++ " was requested.") (Some "open"))
  | _, _ => None
  end.
End ErrorText.
