(** Model of /repo/primpy/oscode_solver.py (solve_oscode) and of the parts of
    /repo/primpy/perturbations.py it drives (PrimordialPowerSpectrum, Mode, post-processing).

    Simplifications: [pyoscode.solve] is an oracle returning the lists 'sol' and 'dsol';
    its tolerances (rtol, even_grid) are part of the oracle; here num_eval = 0 (dense output is
    in Model/Dense.v); [ws] is passed as the frequency
    itself instead of its logarithm. Wavenumbers and factors are positive reals
    (log of non-positive numbers is not modelled). Attribute names are strings. *)
From Coq Require Import Reals List String Bool.
From Coquelicot Require Import Coquelicot Complex.
From Verif Require Import Base Model.Potentials Model.Equations Model.Background Model.Float Model.Perturbations.
Import ListNotations.
Open Scope R_scope.
Open Scope string_scope.

Definition rltb (a b : R) : bool := if Rlt_dec a b then true else false.

(** np.argwhere(mask).ravel() *)
Fixpoint argwhere_from (i : nat) (m : list bool) : list nat :=
  match m with
  | [] => []
  | b :: t => if b then i :: argwhere_from (S i) t else argwhere_from (S i) t
  end.
Definition argwhere (m : list bool) : list nat := argwhere_from 0 m.

(** l[i] on a list: IndexError when out of range *)
Definition at_index {A} (l : list A) (i : nat) : res A :=
  match nth_error l i with Some a => Ok a | None => Raise IndexError end.

(** the background object as solve_oscode reads it *)
Record obg := mkobg {
  ob_K : R; ob_U : potfun; ob_x : list R; ob_s : list sample;
  ob_logaH : list R;                (** _logaH, inflation.py:457 *)
  ob_logaH_star : option R;         (** _logaH_star, set by calibration; None: attribute missing *)
  ob_indep : string;                (** independent_variable *)
  ob_ic : list R }.                 (** potential.perturbation_ic *)

(** the integration window of one mode, oscode_solver.py:92-104 *)
Definition window (logaH Ns : list R) (k fac_beg fac_end : R) : res (nat * nat) :=
  let idx_beg :=
    if Req_EM_T fac_beg 0 then 0%nat
    else let l := argwhere (map (fun h => rltb (ln fac_beg) (ln k - h)) logaH) in
         match l with [] => 0%nat | _ => last l 0%nat end in
  do idx_end <- at_index (argwhere (map (fun h => rltb (ln fac_end) (h - ln k)) logaH)) 0;
  do Ne <- at_index Ns idx_end;
  do Nb <- at_index Ns idx_beg;
  if rltb (Ne - Nb) 10 then
    do idx_end' <- at_index (argwhere (map (fun n => rltb 10 (n - Nb)) Ns)) 0;
    Ok (idx_beg, idx_end')
  else Ok (idx_beg, idx_end).

(** attribute dictionaries *)
Fixpoint dset {A} (k : string) (v : A) (d : list (string * A)) : list (string * A) :=
  match d with
  | [] => [(k, v)]
  | (k', v') :: t => if String.eqb k k' then (k, v) :: t else (k', v') :: dset k v t
  end.
Definition dget {A} (k : string) (d : list (string * A)) : res A :=
  match find (fun q => String.eqb k (fst q)) d with Some q => Ok (snd q) | None => Raise AttributeError end.

(** getattr(mode, 'get_vacuum_ic_%s' % vac)(), perturbations.py:65 with the twelve methods of
    time/perturbations.py and efolds/perturbations.py; [time] selects PerturbationT *)
Definition vacuum_ic (time tensor : bool) (K k : R) (U : potfun) (vac : string) (s : sample) : res (C * C) :=
  if String.eqb vac "k" then
    Ok (if time then (if tensor then Tt_vac_k k s else Ts_vac_k K k U s)
        else (if tensor then Nt_vac_k k s else Ns_vac_k K k U s))
  else if String.eqb vac "HD" then
    Ok (if time then (if tensor then Tt_vac_HD K k s else Ts_vac_HD K k U s)
        else (if tensor then Nt_vac_HD K k s else Ns_vac_HD K k U s))
  else if String.eqb vac "RST" then
    Ok (if time then (if tensor then Tt_vac_RST k s else Ts_vac_RST k s)
        else (if tensor then Nt_vac_RST k s else Ns_vac_RST k s))
  else Raise AttributeError.

(** mukhanov_sasaki_frequency_damping of the four mode classes on a slice *)
Definition mode_coeffs (time tensor : bool) (K k : R) (U : potfun) (ss : list sample) : list C * list R :=
  let f2 := if time then (if tensor then Tt_frequency2 K k else Ts_frequency2 K k U)
            else (if tensor then Nt_frequency2 K k else Ns_frequency2 K k U) in
  let g := if time then (if tensor then Tt_damping else Ts_damping K k U)
           else (if tensor then Nt_damping K else Ns_damping K k U) in
  (ms_frequency (map f2 ss), map g ss).

Section Solve.
(** pyoscode.solve: ts, ti, tf, ws, gs, x0, dx0 -> (sol, dsol) *)
Variable oscode : list R -> R -> R -> list C -> list R -> R -> R -> list C * list C.
Variable nanmedian : list C -> C.

(** oscode_postprocessing and _combine_solutions for one mode, perturbations.py:46-70 *)
Definition mode_powers (norm : R) (ic : string -> res (C * C)) (r1 r2 : list C * list C) (vacuum : list string)
  : res (list (string * R)) :=
  fold_left (fun acc vac =>
    do d <- acc;
    do v <- ic vac;
    do P <- combine_solutions nanmedian norm v (fst r1) (snd r1) (fst r2) (snd r2);
    Ok (dset vac P d)) vacuum (Ok []).

(** the attributes P_s_<vac> and P_t_<vac> of the perturbation object *)
Record pert := mkpert { pk : R; pP_s : list (string * R); pP_t : list (string * R) }.

(** one pass of the loop, oscode_solver.py:92-128 *)
Definition solve_mode (b : obg) (vacuum : list string) (drop : bool) (fac_beg fac_end : R) (y0 : list R) (k : R) : res pert :=
  do w <- window (ob_logaH b) (map s_N (ob_s b)) k fac_beg fac_end;
  let i := fst w in let j := snd w in
  do time <- (if String.eqb (ob_indep b) "t" then Ok true
              else if String.eqb (ob_indep b) "_N" then Ok false else Raise NotImplementedError);
  do ti <- at_index (ob_x b) i;
  do tf <- at_index (ob_x b) j;
  do s0 <- at_index (ob_s b) i;
  let run tensor num :=
    let c := mode_coeffs time tensor (ob_K b) k (ob_U b) (slice i j (ob_s b)) in
    do x0 <- at_index y0 (2 * num);
    do dx0 <- at_index y0 (2 * num + 1);
    Ok (oscode (slice i j (ob_x b)) ti tf (fst c) (snd c) x0 dx0) in
  do s1 <- run false 0%nat; do s2 <- run false 1%nat;
  do t1 <- run true 0%nat; do t2 <- run true 1%nat;
  do Ps <- mode_powers (scalar_pps_norm k) (fun v => vacuum_ic time false (ob_K b) k (ob_U b) v s0) s1 s2 vacuum;
  do Pt <- mode_powers (tensor_pps_norm k) (fun v => vacuum_ic time true (ob_K b) k (ob_U b) v s0) t1 t2 vacuum;
  let Ps := if rltb k 1 && (if Req_EM_T (ob_K b) 1 then true else false) && drop
            then dset "RST" (1 / 10^30) Ps else Ps in
  Ok (mkpert k Ps Pt).

(** PrimordialPowerSpectrum, perturbations.py:13-21: arrays filled with NaN *)
Record pps := mkpps { ps_k : list R; ps_k_iMpc : list R; ps_s : list (string * list fl); ps_t : list (string * list fl) }.
Definition K_STAR : R := 5 / 100.   (** parameters.py:4 *)
Definition init_pps (b : obg) (ks : list R) (vacuum : list string) : res pps :=
  match ob_logaH_star b with
  | None => Raise AttributeError
  | Some l =>
      let arr := fold_left (fun d v => dset v (map (fun _ => NaN) ks) d) vacuum [] in
      Ok (mkpps ks (map (fun k => k * K_STAR / exp l) ks) arr arr)
  end.
(** getattr(PPS, 'P_s_%s' % vac)[i] = ..., oscode_solver.py:129-131 *)
Definition store (i : nat) (p : pert) (S : pps) (vacuum : list string) : res pps :=
  fold_left (fun acc vac =>
    do S <- acc;
    do arr <- dget vac (ps_s S);
    do v <- dget vac (pP_s p);
    let S := mkpps (ps_k S) (ps_k_iMpc S) (dset vac (set_nth i (Fin v) arr) (ps_s S)) (ps_t S) in
    do arr <- dget vac (ps_t S);
    do v <- dget vac (pP_t p);
    Ok (mkpps (ps_k S) (ps_k_iMpc S) (ps_s S) (dset vac (set_nth i (Fin v) arr) (ps_t S)))) vacuum (Ok S).

(** k is a Python int/float or an array, oscode_solver.py:84-88 *)
Inductive karg := KScalar (k : R) | KArray (ks : list R).
Inductive ret := RetPPS (S : pps) | RetMode (p : option pert).

(** for i, ki in enumerate(k) *)
Fixpoint k_loop (step : R -> res pert) (vacuum : list string) (i : nat) (ks : list R) (S : pps) (p : option pert)
  : res (pps * option pert) :=
  match ks with
  | [] => Ok (S, p)
  | k :: t => do q <- step k; do S <- store i q S vacuum; k_loop step vacuum (Datatypes.S i) t S (Some q)
  end.

(** solve_oscode, oscode_solver.py:9-135; [tol]: the keyword 'tol' was given *)
Definition solve_oscode (b : obg) (k : karg) (vacuum : option (list string)) (drop : bool) (fac_beg fac_end : R)
           (y0 : option (list R)) (tol : bool) : res ret :=
  if tol then Raise AssertionError else
  let vacuum := match vacuum with None => ["RST"] | Some v => v end in
  let y0 := match y0 with None => ob_ic b | Some y => y end in
  let ks := match k with KScalar k => [k] | KArray ks => ks end in
  do S <- init_pps b ks vacuum;
  do r <- k_loop (solve_mode b vacuum drop fac_beg fac_end y0) vacuum 0 ks S None;
  match k with KArray _ => Ok (RetPPS (fst r)) | KScalar _ => Ok (RetMode (snd r)) end.
End Solve.
