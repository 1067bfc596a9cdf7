(** Model of the Cobaya wrappers /repo/cobaya_wrapper/{powerlaw_pps,feature_pps,slowroll_pps}.py.

    Simplifications: floats are reals; the parameter dictionary maps names to a number or None;
    cobaya's Theory base class and the [state] dictionary are reduced to the returned spectra
    (the entries 'kmin', 'kmax', 'log_regular' are constants); for the slow-roll wrapper the
    background solution and its calibration are oracles. *)
From Coq Require Import Reals List String ZArith Bool Lra.
From Verif Require Import Base Model.Float.
Import ListNotations.
Open Scope R_scope.
Open Scope string_scope.

(** ** k grid: ExternalPrimordialPowerSpectrum.initialize, powerlaw_pps.py:19-30 *)
Definition kmin : R := 5 / 10^7.
Definition kmax : R := 50.
Definition log10 (x : R) : R := ln x / ln 10.
(** np.logspace(a, b, n) *)
Definition logspace (a b : R) (n : nat) : list R :=
  map (fun i => Rpower 10 (a + INR i * ((b - a) / INR (n - 1)))) (seq 0 n).
(** int(x) for x >= 0 *)
Definition py_int (x : R) : nat := Z.to_nat (Int_part x).
Definition num_k : nat := py_int ((log10 kmax - log10 kmin) * 100 + 1).
Definition ks_grid : list R := logspace (log10 kmin) (log10 kmax) num_k.

(** ** power laws, powerlaw_pps.py:8-15, for one k *)
Definition scalar_pk (k A_s n_s n_run n_runrun k_pivot : R) : R :=
  let lnk := ln (k / k_pivot) in
  A_s * exp ((n_s - 1) * lnk + n_run / 2 * lnk ^ 2 + n_runrun / 6 * lnk ^ 3).
Definition tensor_pk (k A_t n_t n_t_run k_pivot : R) : R :=
  let lnk := ln (k / k_pivot) in A_t * exp (n_t * lnk + n_t_run / 2 * lnk ^ 2).

(** ** parameter dictionaries *)
Definition pdict := list (string * option R).
(** params_values_dict.get(name, default) *)
Fixpoint pget (name : string) (default : option R) (d : pdict) : option R :=
  match d with
  | [] => default
  | (n, v) :: t => if String.eqb n name then v else pget name default t
  end.
(** a number; None in arithmetic or in an order comparison is a TypeError *)
Definition num (v : option R) : res R := match v with Some x => Ok x | None => Raise TypeError end.
(** Python's true division of floats *)
Definition pydiv (x y : R) : res R := if Req_EM_T y 0 then Raise ZeroDivisionError else Ok (x / y).
(** truth value of a number or None *)
Definition truthy (v : option R) : bool := match v with None => false | Some x => if Req_EM_T x 0 then false else true end.

(** the parameters of the two power laws after resolution *)
Record plpar := mkplpar { q_As : R; q_ns : R; q_nrun : R; q_nrunrun : R; q_At : R; q_nt : R; q_ntrun : R }.
(** the common part of all calculate methods, powerlaw_pps.py:43-61 (n_t_run defaults to 0) and
    feature_pps.py:29-53, 88-112, 147-170 (n_t_run defaults to None). The unresolved [option]s are
    checked where the code uses them; all failures of the final spectra are TypeErrors. *)
Definition resolve (default_ntrun : option R) (d : pdict) : res plpar :=
  let A_s := pget "A_s" None d in
  let n_s := pget "n_s" (Some 1) d in
  let n_run := pget "n_run" (Some 0) d in
  let n_runrun := pget "n_runrun" (Some 0) d in
  let A_t := pget "A_t" (Some 0) d in
  let n_t := pget "n_t" None d in
  let n_t_run := pget "n_t_run" default_ntrun d in
  (* the default A_t/A_s is computed even if r is given *)
  do at_ <- num A_t; do as_ <- num A_s; do ratio <- pydiv at_ as_;
  let r := pget "r" (Some ratio) d in
  do nt2 <- match n_t with
            | None =>
                if truthy n_t_run then Raise GenericException
                else
                  do rv <- num r; do ns <- num n_s;
                  Ok (Some (- rv / 8 * (2 - ns - rv / 8)), Some (rv / 8 * (rv / 8 + ns - 1)))
            | Some x => Ok (Some x, n_t_run)
            end;
  do at2 <- (if Rlt_dec 0 at_ then
               match r with
               | None => Raise GenericException     (* None != number *)
               | Some rv => if Req_EM_T rv ratio then Ok at_ else Raise GenericException
               end
             else do rv <- num r; if Rlt_dec 0 rv then Ok (rv * as_) else Ok at_);
  do ns <- num n_s; do nr <- num n_run; do nrr <- num n_runrun;
  do nt <- num (fst nt2); do ntr <- num (snd nt2);
  Ok (mkplpar as_ ns nr nrr at2 nt ntr).
Definition spectra (ks : list R) (k_pivot : R) (p : plpar) : list R * list R :=
  (map (fun k => scalar_pk k (q_As p) (q_ns p) (q_nrun p) (q_nrunrun p) k_pivot) ks,
   map (fun k => tensor_pk k (q_At p) (q_nt p) (q_ntrun p) k_pivot) ks).

(** PowerLawPPS.calculate, powerlaw_pps.py:42-72 *)
Definition powerlaw_calculate (ks : list R) (k_pivot : R) (d : pdict) : res (list R * list R) :=
  do p <- resolve (Some 0) d; Ok (spectra ks k_pivot p).

(** ** features, feature_pps.py:8-19 *)
Definition cutoff (k k_cut s_cut : R) : R := exp (- pypow (k / k_cut) s_cut).
Definition log_oscillations (k A w p k_pivot : R) : R := A * cos (w * ln (k / k_pivot) + 2 * PI * p).
Definition lin_oscillations (k A w p k_pivot : R) : R := A * cos (w * (k / k_pivot) + 2 * PI * p).
(** both spectra times a factor depending on k *)
Definition modulate (f : R -> R) (ks : list R) (P : list R * list R) : list R * list R :=
  (map (fun kp => snd kp * f (fst kp)) (combine ks (fst P)), map (fun kp => snd kp * f (fst kp)) (combine ks (snd P))).
(** LogOscillationPPS.calculate, feature_pps.py:28-69 *)
Definition logosc_calculate (ks : list R) (k_pivot : R) (d : pdict) : res (list R * list R) :=
  do p <- resolve None d;
  do A <- num (pget "A_log" (Some 0) d); do w <- num (pget "w_log" None d); do ph <- num (pget "p_log" None d);
  Ok (modulate (fun k => 1 + log_oscillations k A w ph k_pivot) ks (spectra ks k_pivot p)).
(** LinOscillationPPS.calculate, feature_pps.py:85-126 *)
Definition linosc_calculate (ks : list R) (k_pivot : R) (d : pdict) : res (list R * list R) :=
  do p <- resolve None d;
  do A <- num (pget "A_lin" (Some 0) d); do w <- num (pget "w_lin" None d); do ph <- num (pget "p_lin" None d);
  Ok (modulate (fun k => 1 + lin_oscillations k A w ph k_pivot) ks (spectra ks k_pivot p)).
(** CutoffPPS.calculate, feature_pps.py:142-182. Simplification: k_cut <> 0. *)
Definition cutoff_calculate (ks : list R) (k_pivot : R) (d : pdict) : res (list R * list R) :=
  do p <- resolve None d;
  do kc <- num (pget "k_cut" (Some (1/1000)) d); do sc <- num (pget "s_cut" (Some 2) d);
  Ok (modulate (fun k => 1 - cutoff k kc sc) ks (spectra ks k_pivot p)).

(** ** SlowRollPPS.calculate, slowroll_pps.py:31-117 *)
(** the calibration chosen in slowroll_pps.py:78-88 *)
Inductive calmode :=
| ByReheating (rho w : R)                          (* :79-80 *)
| ByNstar (N_star : R) (rho : option R)            (* :82-83 *)
| ByNs (N_star n_s : R) (rho : option R).          (* :85-87 *)
(** a solved background, before calibration: b.success, rho_end_GeV (:70-72), b.N_tot *)
Record solved := mksolved { so_success : bool; so_rho_end : R; so_N_tot : R }.
(** after calibration: A_s and the attributes tested in :98 *)
Record calibrated := mkcal { c_As : R; c_w : fl; c_DeltaN : fl; c_Nreh : fl; c_N0 : fl }.

Section Shoot.
(** oracles: the background solution for an amplitude Lambda and its calibration *)
Variable background : R -> res solved.
Variable calibrate : R -> calmode -> res calibrated.
(** the dictionary entries used; N_star defaults to 75 (slowroll_pps.py:32-36) *)
Variable target : R.
Variables (n_s rho_reh w_reh : option R).
Definition atol : R := 1 / 10^14.
Definition rtol : R := 1 / 10^6.

(** which calibration is used and the updated N_star, slowroll_pps.py:78-87 *)
Definition choose (N_star : option R) (N_tot : R) : res (calmode * option R) :=
  match w_reh, rho_reh with
  | Some w, Some rho => Ok (ByReheating rho w, N_star)
  | _, _ =>
      match N_star, n_s with
      | Some N, None => Ok (ByNstar N rho_reh, N_star)
      | None, _ => Raise TypeError                        (* min(None, ...) *)
      | Some N, Some n =>
          let N' := if Rlt_dec (N_tot - 1/10) N then N_tot - 1/10 else N in
          Ok (ByNs N' n rho_reh, Some N')
      end
  end.
(** the for loop, slowroll_pps.py:58-96; [i] is the loop index, [trace] the amplitudes tried so far *)
Fixpoint shoot (fuel : nat) (i : nat) (Lambda : R) (N_star : option R) (trace : list R) : res (R * calibrated * list R) :=
  match fuel with
  | O => Raise UnboundLocalError      (* range(11) exhausted: excluded by the i < 10 test *)
  | S fuel =>
      do b <- background Lambda;
      if negb (so_success b) then Raise StepSizeError
      else if match rho_reh with Some rho => if Rlt_dec (so_rho_end b) rho then true else false | None => false end
      then Raise PrimpyError
      else
        do m <- choose N_star (so_N_tot b);
        do c <- calibrate Lambda (fst m);
        let trace := (trace ++ [Lambda])%list in
        if Rlt_dec (Rabs (c_As c - target)) (atol + rtol * target) then Ok (Lambda, c, trace)
        else if Nat.ltb i 10 then shoot fuel (S i) (pypow (target / c_As c) (1/4) * Lambda) (snd m) trace
        else Raise PrimpyError
  end.
(** the consistency test after the loop, slowroll_pps.py:98-101 *)
Definition unrealistic (c : calibrated) : bool :=
  (fle (c_w c) (Fin (-1/3)) || fle (Fin 1) (c_w c) || flt (c_DeltaN c) (Fin 0) || flt (c_N0 c) (c_Nreh c))%bool.
Definition slowroll_calculate (Lambda0 : R) (N_star : option R) : res (R * calibrated * list R) :=
  do o <- shoot 11 0 Lambda0 N_star [];
  if unrealistic (snd (fst o)) then Raise PrimpyError else Ok o.
End Shoot.
