(** Model of the calibration and output stages of SlowRollPPS.calculate,
    /repo/cobaya_wrapper/slowroll_pps.py:78-88 and 102-117, on the attribute dictionary of the
    background object (the loop around it is Model/Cobaya.v).

    Simplifications: the wavenumber array is a list of reals; the 'log_regular' and kmin/kmax
    entries of the state are constants of the wrapper and left out; the set of parameter names is
    a list in the order of the source. *)
From Coq Require Import Reals List String ZArith.
From Verif Require Import Base Model.Equations Model.Float Model.Solution Model.State
  Model.ApproxPower Model.Calibrate Model.Cobaya.
Import ListNotations.
Open Scope R_scope.
Open Scope string_scope.

(** get_can_provide_params, slowroll_pps.py:26-30 *)
Definition provided : list string :=
  ["N_star"; "N_end"; "phi_end"; "V_end"; "H_end";
   "N_reh"; "w_reh"; "DeltaN_reh"; "rho_reh_GeV"; "DeltaN_minus1";
   "A_s"; "n_s"; "n_run"; "n_runrun"; "A_t"; "n_t"; "r"].
(** get_can_support_params, slowroll_pps.py:23-24 *)
Definition supported : list string := ["A_s"; "n_s"; "N_star"; "rho_reh_GeV"; "w_reh"; "phi0"; "p"; "alpha"].

Section Wrapper.
Variables (C : consts) (S : splines) (q : aeqs) (find : root_oracle).

(** calibrate_scale_factor(calibration_method='reheating', rho_reh_GeV=..., w_reh=...), :79-80;
    the remaining arguments have the defaults of inflation.py:463-469 and derive_approx_power *)
Definition args_reheating (rho w : R) : calargs :=
  mkargs (Some "reheating") None None None None None (Some w) (Some rho) 100 None "CGS" (Some 3%Z) default_opts.
(** slowroll_pps.py:78-87 *)
Definition sr_run (m : calmode) : M unit :=
  match m with
  | ByReheating rho w => _ <<- calibrate_scale_factor C S q (args_reheating rho w); retM tt
  | ByNstar N rho => _ <<- calibrate_scale_factor C S q (args_N_star N rho); retM tt
  | ByNs N n rho =>
      _ <<- calibrate_scale_factor C S q (args_N_star N rho);
      _ <<- set_ns C S q find n 20 N rho; retM tt
  end.

Fixpoint mapM {A B} (f : A -> M B) (l : list A) : M (list B) :=
  match l with [] => retM [] | x :: t => y <<- f x; ys <<- mapM f t; retM (y :: ys) end.
(** {p: getattr(b, p) for p in derived_params}, slowroll_pps.py:115-117 *)
Definition derived_dict : M (list (string * val)) :=
  mapM (fun p s => (s, do v <- getattr s p; Ok (p, v))) provided.
(** slowroll_pps.py:102-117: both spectra at the wrapper's wavenumbers and the derived parameters *)
Definition sr_tail (ks : list R) : M (list R * list R * list (string * val)) :=
  Ps <<- mapM (fun k => P_approx C S q "s" k "CGS" (Some 3%Z) default_opts) ks;
  Pt <<- mapM (fun k => P_approx C S q "t" k "CGS" (Some 3%Z) default_opts) ks;
  d <<- derived_dict; retM (Ps, Pt, d).
End Wrapper.
