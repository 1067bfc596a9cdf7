(** Model of the first half of SlowRollPPS.calculate, /repo/cobaya_wrapper/slowroll_pps.py:32-60, and of its
    composition with the amplitude loop (Model/Cobaya.v: slowroll_calculate).

    Simplifications: the values in the parameter dictionary are numbers (cobaya passes the sampled and fixed
    floats; no None); the solution of the background equations and its calibration are oracles that see the
    potential object, its amplitude and the initial field; t_eval, tolerances and K = 0 are constants of them. *)
From Coq Require Import Reals List String.
From Verif Require Import Base Model.Potentials Model.SlowRoll Model.Cobaya.
Import ListNotations.
Open Scope R_scope.
Open Scope string_scope.

(** self.Pot of the wrapper classes, slowroll_pps.py:19-21 and 126-193. None: the base class sets the abstract
    InflationaryPotential, which cannot be instantiated. *)
Definition wrappers : list (string * option klass) :=
  [("SlowRollPPS", None); ("MonomialSlowRollPPS", Some KMonomial); ("LinearSlowRollPPS", Some KLinear);
   ("QuadraticSlowRollPPS", Some KQuadratic); ("StarobinskySlowRollPPS", Some KStarobinsky);
   ("NaturalSlowRollPPS", Some KNatural); ("DoubleWell2SlowRollPPS", Some KDoubleWell2);
   ("DoubleWell4SlowRollPPS", Some KDoubleWell4); ("TmodelSlowRollPPS", Some KTmodel);
   ("RadionGaugeSlowRollPPS", Some KRadionGauge); ("RadionGauge2SlowRollPPS", Some KRadionGauge2)].
Definition instantiate (root : (R -> R) -> R -> R -> res R) (W : R -> R) (c : option klass) (l : kwargs) : res (pot * R) :=
  match c with None => Raise TypeError | Some k => construct root W k l end.

(** pot_kwargs, slowroll_pps.py:37-46 *)
Definition pot_kwargs (d : kwargs) : kwargs :=
  let add k l := match get k d with Some v => (l ++ [(k, v)])%list | None => l end in
  add "alpha" (add "p" (add "phi0" [])).

Section Setup.
Variable root : (R -> R) -> R -> R -> res R.
Variable W : R -> R.
(** :32, :52-56. Result: the starting amplitude, the initial field and N_star *)
Definition sr_setup (c : option klass) (d : kwargs) : res (R * R * R) :=
  let N_star := match get "N_star" d with Some v => v | None => 75 end in
  let kw := pot_kwargs d in
  do PL <- instantiate root W c kw;
  do Lambda <- match get "A_s" d with
               | Some A => do t <- sr_As2Lambda root W (fst PL) (snd PL) A None (Some N_star); Ok (fst (fst t))
               | None => do _ <- sr_N2phi root W (fst PL) (snd PL) N_star; Raise TypeError   (* None / float *)
               end;
  do phi <- sr_N2phi root W (fst PL) (snd PL) 90;
  let phi_i := match get "phi0" kw with Some phi0 => if Rlt_dec phi0 phi then phi0 else phi | None => phi end in
  Ok (Lambda, phi_i, N_star).

(** oracles: solve(ic=SlowRollIC(eq, phi_i, N_i=0), ...) and the calibration of its result *)
Variable background : pot -> R -> R -> res solved.
Variable calibrate : pot -> R -> R -> calmode -> res calibrated.
(** slowroll_pps.py:32-101 *)
Definition slowroll_pps (c : option klass) (d : kwargs) : res (R * calibrated * list R) :=
  do s <- sr_setup c d;
  let Lambda := fst (fst s) in let phi_i := snd (fst s) in
  let with_pot {A} (f : pot -> R -> R -> res A) (L : R) : res A :=
    do PL <- instantiate root W c (("Lambda", L) :: pot_kwargs d); f (fst PL) (snd PL) phi_i in
  match get "A_s" d with
  | None => Raise TypeError
  | Some A =>
      slowroll_calculate (with_pot background) (fun L m => with_pot (fun P L' f => calibrate P L' f m) L)
        A (get "n_s" d) (get "rho_reh_GeV" d) (get "w_reh" d) Lambda (Some (snd s))
  end.
End Setup.
