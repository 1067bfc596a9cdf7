(** When calibrate_scale_factor rejects its arguments, in words of its documentation.
    [C] constants, [a] keyword arguments, [b] the background. *)
From Coq Require Import Reals List String ZArith Bool.
From Verif Require Import Base Model.Interp Model.ApproxPower Model.Calibrate Spec.CalibSpec.
Import ListNotations.
Open Scope R_scope.
Open Scope string_scope.

Definition given {A} (o : option A) : Prop := o <> None.
(** a keyword is given with another value than [v] *)
Definition other_than (o : option R) (v : R) : Prop := exists x, o = Some x /\ x <> v.
(** [x] lies between two of the values [l] *)
Definition spanned (l : list R) (x : R) : Prop := (exists y, In y l /\ y <= x) /\ (exists y, In y l /\ x <= y).

(** ** conditions on the reheating keywords *)
(** negative number of reheating e-folds, or expansion that is not decelerated *)
Definition unphysical (a : calargs) : Prop :=
  (exists d, ca_DeltaN_reh a = Some d /\ d < 0) \/ (exists w, ca_w_reh a = Some w /\ w < -1/3).
(** some keyword says that reheating is instantaneous *)
Definition says_instant (a : calargs) : Prop :=
  ca_w_reh a = Some (1/3) \/ ca_DeltaN_reh a = Some 0 \/ ca_DeltaN_minus1 a = Some 0.
(** some keyword says that it is not *)
Definition says_extended (a : calargs) : Prop :=
  other_than (ca_w_reh a) (1/3) \/ other_than (ca_DeltaN_reh a) 0 \/ other_than (ca_DeltaN_minus1 a) 0 \/ given (ca_rho_reh_GeV a).
Definition no_reheating (a : calargs) : Prop :=
  ca_rho_reh_GeV a = None /\ ca_w_reh a = None /\ ca_DeltaN_reh a = None /\ ca_DeltaN_minus1 a = None.
(** the question only arises without N_star *)
Definition contradictory (a : calargs) : Prop := ca_N_star a = None /\ says_instant a /\ says_extended a.
Definition instant (a : calargs) : Prop := ca_N_star a = None /\ (no_reheating a \/ says_instant a) /\ ~ says_extended a.
Definition extended (a : calargs) : Prop := ca_N_star a <> None \/ ~ (no_reheating a \/ says_instant a).
(** the documented combinations: (w, DeltaN) or (w, rho) *)
Definition pair (a : calargs) : Prop :=
  (given (ca_w_reh a) /\ given (ca_DeltaN_reh a) /\ ca_rho_reh_GeV a = None) \/
  (given (ca_w_reh a) /\ ca_DeltaN_reh a = None /\ given (ca_rho_reh_GeV a)).

(** what a flat universe accepts *)
Definition flat_combination (a : calargs) : Prop :=
  instant a \/ (extended a /\ ((given (ca_DeltaN_minus1 a) /\ ca_w_reh a = None /\ ca_DeltaN_reh a = None) \/ (ca_DeltaN_minus1 a = None /\ pair a))).

(** ** calibration of the end of inflation *)
(** log of the temperature ratio of instantaneous reheating, without the potential *)
Definition log_dof (C : consts) (a : calargs) : R :=
  ln (pypow (45 / PI^2) (1/4) * pypow (g0 C) (-1/3)) + ln (ca_g_th a) / 12.
Definition log_V (C : consts) (V : R) : R := ln (V / T_CMB_Tp C ^ 4) / 4.
(** energy density in Planck units *)
Definition density (C : consts) (rho : R) : R := rho^4 / mp_GeV C * lp_iGeV C ^ 3.
(** DeltaN_minus1 that goes with the reheating keywords; [f w x] is the number of e-folds of
    reheating in which the density drops by the factor exp x *)
Inductive minus1 (C : consts) (f : R -> R -> R) (a : calargs) (b : bg) : R -> Prop :=
| m1_instant : instant a -> minus1 C f a b 0
| m1_given dm : extended a -> ca_DeltaN_minus1 a = Some dm -> minus1 C f a b dm
| m1_wN w dn : extended a -> ca_DeltaN_minus1 a = None -> ca_w_reh a = Some w -> ca_DeltaN_reh a = Some dn ->
    minus1 C f a b (dn / 4 * (1 - 3 * w))
| m1_wrho w rho : extended a -> ca_DeltaN_minus1 a = None -> ca_w_reh a = Some w -> ca_rho_reh_GeV a = Some rho ->
    minus1 C f a b (f w (ln (3/2 * b_Vend b / density C rho)) / 4 * (1 - 3 * w)).
(** log(aH) of the pivot scale on the uncalibrated background: flat universe, reheating *)
Definition pivot_flat (C : consts) (a : calargs) (b : bg) (dm : R) : R :=
  ln (K_STAR_lp C) - ((- log_dof C a - log_V C (b_Vend b) - dm) - b_end b).
(** a0 in Mpc: curved universe *)
Definition a0_of_Omega (C : consts) (h K om : R) : R := c_light C / (h * 100 * 1000) * sqrt (- K / om).

(** ** flat universes *)
Definition flat_method (a : calargs) : string := match ca_method a with Some m => m | None => "N_star" end.
Definition no_curvature (a : calargs) : Prop := ca_Omega_K0 a = None \/ ca_Omega_K0 a = Some 0.
(** N_star given, positive and not more than the total number of e-folds *)
Definition star_ok (a : calargs) (b : bg) (ns : R) : Prop := ca_N_star a = Some ns /\ 0 < ns <= b_end b - b_beg b.
(** number of e-folds of reheating with equation of state [w] that N_star implies *)
Definition implied_duration (C : consts) (a : calargs) (b : bg) (ns ls w : R) : R :=
  4 * (- ns - ln (K_STAR_lp C / exp (ls - (b_end b - ns))) - log_dof C a - log_V C (b_Vend b)) / (1 - 3 * w).
Definition samplesN (b : bg) : list R := map fst (used (b_N b) (b_H b) (b_mask b)).
Definition samplesL (b : bg) : list R := map (fun p => fst p + ln (snd p)) (used (b_N b) (b_H b) (b_mask b)).

Inductive flat_reject (C : consts) (a : calargs) (b : bg) : exn -> Prop :=
| fr_curvature om : ca_Omega_K0 a = Some om -> om <> 0 -> flat_reject C a b ValueError
| fr_method : no_curvature a -> flat_method a <> "N_star" -> flat_method a <> "reheating" -> flat_reject C a b NotImplementedError
(* method N_star *)
| fr_star : no_curvature a -> flat_method a = "N_star" -> (ca_N_star a = None \/ exists ns, ca_N_star a = Some ns /\ ns <= 0) ->
    flat_reject C a b ValueError
| fr_insufficient ns : no_curvature a -> flat_method a = "N_star" -> ca_N_star a = Some ns -> 0 < ns -> b_end b - b_beg b < ns ->
    flat_reject C a b InsufficientInflationError
| fr_unsampled ns : no_curvature a -> flat_method a = "N_star" -> star_ok a b ns -> ~ spanned (samplesN b) (b_end b - ns) ->
    flat_reject C a b ValueError
| fr_star_many ns : no_curvature a -> flat_method a = "N_star" -> star_ok a b ns -> spanned (samplesN b) (b_end b - ns) ->
    (given (ca_DeltaN_reh a) \/ (given (ca_w_reh a) /\ given (ca_rho_reh_GeV a))) -> flat_reject C a b ValueError
| fr_star_w ns ls w : no_curvature a -> flat_method a = "N_star" -> star_ok a b ns ->
    interp1d (combine (samplesN b) (samplesL b)) (b_end b - ns) = Ok ls ->
    ca_DeltaN_reh a = None -> ca_rho_reh_GeV a = None -> ca_w_reh a = Some w ->
    (w = 1/3 \/ w < -1/3 \/ implied_duration C a b ns ls w < 0) -> flat_reject C a b ValueError
(* method reheating *)
| fr_unphysical : no_curvature a -> flat_method a = "reheating" -> unphysical a -> flat_reject C a b ValueError
| fr_contradictory : no_curvature a -> flat_method a = "reheating" -> ~ unphysical a -> contradictory a -> flat_reject C a b ValueError
| fr_agnostic : no_curvature a -> flat_method a = "reheating" -> ~ unphysical a -> extended a -> given (ca_DeltaN_minus1 a) ->
    (given (ca_w_reh a) \/ given (ca_DeltaN_reh a)) -> flat_reject C a b NotImplementedError
| fr_combination : no_curvature a -> flat_method a = "reheating" -> ~ unphysical a -> extended a -> ca_DeltaN_minus1 a = None -> ~ pair a ->
    flat_reject C a b ValueError
| fr_window dm : no_curvature a -> flat_method a = "reheating" -> ~ unphysical a ->
    flat_combination a ->
    minus1 C (fun w x => x / (3 * (1 + w))) a b dm ->
    (pivot_flat C a b dm < b_beg b + ln (b_Hbeg b) \/ b_end b + ln (b_Hend b) < pivot_flat C a b dm) ->
    flat_reject C a b InsufficientInflationError
| fr_window_unsampled dm : no_curvature a -> flat_method a = "reheating" -> ~ unphysical a ->
    flat_combination a ->
    minus1 C (fun w x => x / (3 * (1 + w))) a b dm ->
    b_beg b + ln (b_Hbeg b) <= pivot_flat C a b dm <= b_end b + ln (b_Hend b) -> ~ spanned (samplesL b) (pivot_flat C a b dm) ->
    flat_reject C a b ValueError.

(** ** curved universes *)
Definition curved_method (a : calargs) : string := match ca_method a with Some m => m | None => "Omega_K0" end.
(** N_star is not given, h is and is positive *)
Definition hubble (a : calargs) (h : R) : Prop := ca_N_star a = None /\ ca_h a = Some h /\ 0 < h.
(** Omega_K0 of the sign that goes with the curvature K *)
Definition curvature_ok (b : bg) (om : R) : Prop := om * b_K b < 0.
(** samples whose value of aH occurs there for the first time *)
Definition retained (b : bg) (x : R) : Prop :=
  exists i, nth_error (logaH b) i = Some x /\ nth_error (b_mask b) i = Some true /\
            forall j, (j < i)%nat -> nth_error (logaH b) j <> Some x.
(** the pivot scale is inside the window of the retained samples *)
Definition pivot_curved (C : consts) (b : bg) (am : R) : Prop :=
  (exists x, retained b x /\ x - ln am <= ln (K_STAR C)) /\ (exists x, retained b x /\ ln (K_STAR C) <= x - ln am).
Inductive minus1_curved (C : consts) (a : calargs) (b : bg) : R -> Prop :=
| mc_instant : instant a -> minus1_curved C a b 0
| mc_wN w dn : extended a -> ca_w_reh a = Some w -> ca_DeltaN_reh a = Some dn -> minus1_curved C a b (dn / 4 * (1 - 3 * w))
| mc_wrho w rho : extended a -> ca_w_reh a = Some w -> ca_rho_reh_GeV a = Some rho ->
    minus1_curved C a b (- (1 + w) / 3 * ln (2/3 * density C rho / b_Vend b) / 4 * (1 - 3 * w)).
Inductive a0_calibration (C : consts) (a : calargs) (b : bg) (h : R) : R -> Prop :=
| a0_Omega om : curved_method a = "Omega_K0" -> ca_Omega_K0 a = Some om -> curvature_ok b om ->
    a0_calibration C a b h (a0_of_Omega C h (b_K b) om)
| a0_reheating dm : curved_method a = "reheating" -> ca_Omega_K0 a = None -> ~ unphysical a -> (instant a \/ (extended a /\ pair a)) ->
    minus1_curved C a b dm ->
    a0_calibration C a b h (exp (b_end b + log_dof C a + log_V C (b_Vend b) + dm) * lp_m C / Mpc_m C).

Inductive curved_reject (C : consts) (a : calargs) (b : bg) : exn -> Prop :=
| cr_star : given (ca_N_star a) -> curved_reject C a b ValueError
| cr_h : ca_N_star a = None -> (ca_h a = None \/ exists h, ca_h a = Some h /\ h <= 0) -> curved_reject C a b ValueError
| cr_method h : hubble a h -> curved_method a <> "Omega_K0" -> curved_method a <> "reheating" -> curved_reject C a b NotImplementedError
| cr_missing h : hubble a h -> curved_method a = "Omega_K0" -> ca_Omega_K0 a = None -> curved_reject C a b ValueError
| cr_sign h om : hubble a h -> curved_method a = "Omega_K0" -> ca_Omega_K0 a = Some om -> ~ curvature_ok b om -> curved_reject C a b ValueError
| cr_both h : hubble a h -> curved_method a = "reheating" -> given (ca_Omega_K0 a) -> curved_reject C a b ValueError
| cr_unphysical h : hubble a h -> curved_method a = "reheating" -> ca_Omega_K0 a = None -> unphysical a -> curved_reject C a b ValueError
| cr_contradictory h : hubble a h -> curved_method a = "reheating" -> ca_Omega_K0 a = None -> ~ unphysical a -> contradictory a ->
    curved_reject C a b ValueError
| cr_combination h : hubble a h -> curved_method a = "reheating" -> ca_Omega_K0 a = None -> ~ unphysical a -> extended a -> ~ pair a ->
    curved_reject C a b ValueError
| cr_nothing h am : hubble a h -> a0_calibration C a b h am -> (forall x, ~ retained b x) -> curved_reject C a b ValueError
| cr_window h am x : hubble a h -> a0_calibration C a b h am -> retained b x -> ~ pivot_curved C b am ->
    curved_reject C a b InsufficientInflationError.
(** ** both *)
Definition reject (C : consts) (a : calargs) (b : bg) (e : exn) : Prop :=
  (b_K b = 0 /\ flat_reject C a b e) \/ (b_K b <> 0 /\ curved_reject C a b e).
