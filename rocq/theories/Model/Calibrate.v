(** Model of [calibrate_scale_factor], /repo/primpy/inflation.py:463-868, and [set_ns],
    inflation.py:1545-1589, on the solution object.

    Numbers are [fl] (reals plus NaN and infinities). Simplifications: keyword values are finite
    reals; integers are reals; numpy's behaviour on samples that are NaN is replaced by
    ValueError inside interp1d (see Model/State.v). *)
From Coq Require Import Reals List String ZArith Bool.
From Verif Require Import Base Model.Equations Model.Background Model.Float Model.Solution Model.Interp
  Model.State Model.Reheating Model.ApproxPower.
Import ListNotations.
Open Scope R_scope.
Open Scope string_scope.

(** keyword arguments, inflation.py:463-470; [ca_method = None] means the default *)
Record calargs := mkargs {
  ca_method : option string;
  ca_Omega_K0 : option R; ca_h : option R;
  ca_N_star : option R; ca_background : option attrs;
  ca_DeltaN_reh : option R; ca_w_reh : option R; ca_rho_reh_GeV : option R; ca_g_th : R;
  ca_DeltaN_minus1 : option R;
  ca_approx : string; ca_order : option Z; ca_opts : splopts }.

Inductive cal_warning := NegativeReheating | ReheatingAfterToday.

Section Calibrate.
Variables (C : consts) (S : splines) (q : aeqs).

Definition num (r : R) : fl := Fin r.
(** np.log((45/pi**2)**(1/4) * g0**(-1/3)) *)
Definition log_g0 : fl := flog (Fin (pypow (45 / PI^2) (1/4) * pypow (g0 C) (-1/3))).
(** np.log(g_th) / 12 *)
Definition log_gth (a : calargs) : fl := fdiv (flog (Fin (ca_g_th a))) (Fin 12).
(** np.log(sol.V_end / T_CMB_Tp**4) / 4 *)
Definition log_Vend (V : fl) : fl := fdiv (flog (fdiv V (Fin (T_CMB_Tp C ^ 4)))) (Fin 4).
(** rho_reh_GeV**4 / mp_GeV * lp_iGeV**3 *)
Definition rho_mp4 (rho : R) : fl := Fin (rho^4 / mp_GeV C * lp_iGeV C ^ 3).
(** (sol.rho_reh_mp4 * mp_GeV / lp_iGeV**3)**(1/4) *)
Definition rho_GeV (r : fl) : fl := fpow (fdiv (fmul r (Fin (mp_GeV C))) (Fin (lp_iGeV C ^ 3))) (1/4).
(** np.log(3/2 * T_CMB_Tp**4 / sol.rho_reh_mp4) / 4 *)
Definition log_Treh (r : fl) : fl := fdiv (flog (fdiv (Fin (3/2 * T_CMB_Tp C ^ 4)) r)) (Fin 4).
(** np.log(3/2*sol.V_end/sol.rho_reh_mp4) *)
Definition log_V_rho (V r : fl) : fl := flog (fdiv (fmul (Fin (3/2)) V) r).

Definition is_given {A} (o : option A) : bool := negb (is_none o).
(** [DeltaN_reh is not None and DeltaN_reh < 0 or w_reh is not None and w_reh < -1/3] *)
Definition bad_reheating (a : calargs) : bool :=
  ((match ca_DeltaN_reh a with Some d => if Rlt_dec d 0 then true else false | None => false end)
   || (match ca_w_reh a with Some w => if Rlt_dec w (-1/3) then true else false | None => false end))%bool.
Definition set_nans (ks : list string) : M unit := fold_right (fun k m => setF k NaN;; m) (retM tt) ks.

(** ** flat universe, calibration_method='N_star' *)
(** the reheating part, inflation.py:568-611 *)
Definition flat_N_star_reheating (a : calargs) : M unit :=
  match ca_rho_reh_GeV a, ca_w_reh a, ca_DeltaN_reh a with
  | None, None, None => set_nans ["rho_reh_GeV"; "rho_reh_mp4"; "_N_reh"; "w_reh"; "DeltaN_reh"]
  | None, Some w, None =>
      if Req_EM_T w (1/3) then raiseM ValueError
      else
        setF "w_reh" (Fin w);;
        dm <<- getF "DeltaN_minus1";
        setF "DeltaN_reh" (fdiv (fmul (Fin 4) dm) (Fin (1 - 3 * w)));;
        ne <<- getF "_N_end"; dn <<- getF "DeltaN_reh"; setF "_N_reh" (fadd ne dn);;
        nr <<- getF "_N_reh"; dc <<- getF "delta_N_calib"; setF "N_reh" (fadd nr dc);;
        if (flt dn (Fin 0) || (if Rlt_dec w (-1/3) then true else false))%bool then raiseM ValueError
        else
          V <<- getF "V_end";
          setF "rho_reh_mp4" (fmul (fmul (Fin (3/2)) V) (fexp (fmul (Fin (-3 * (1+w))) dn)));;
          r <<- getF "rho_reh_mp4"; setF "rho_reh_GeV" (rho_GeV r)
  | Some rho, None, None =>
      setF "rho_reh_GeV" (Fin rho);;
      setF "rho_reh_mp4" (rho_mp4 rho);;
      n0 <<- getF "N0"; r <<- getF "rho_reh_mp4";
      setF "N_reh" (fadd (fsub (fsub n0 log_g0) (log_gth a)) (log_Treh r));;
      nr <<- getF "N_reh"; dc <<- getF "delta_N_calib"; setF "_N_reh" (fsub nr dc);;
      nr' <<- getF "_N_reh"; ne <<- getF "_N_end"; setF "DeltaN_reh" (fsub nr' ne);;
      V <<- getF "V_end"; dn <<- getF "DeltaN_reh";
      setF "w_reh" (fsub (fdiv (log_V_rho V r) (fmul (Fin 3) dn)) (Fin 1))
  | _, _, _ => raiseM ValueError
  end.
(** inflation.py:545-611 *)
Definition flat_N_star (a : calargs) : M unit :=
  match ca_N_star a with
  | None => raiseM ValueError
  | Some ns =>
      if Rle_dec ns 0 then raiseM ValueError
      else
        nt <<- getF "N_tot";
        if flt nt (Fin ns) then raiseM InsufficientInflationError
        else
          setF "N_star" (Fin ns);;
          ne <<- getF "_N_end"; ns' <<- getF "N_star"; setF "_N_cross" (fsub ne ns');;
          Ns <<- getA "_N"; m <<- getB "inflation_mask"; laH <<- getA "_logaH";
          nc <<- getF "_N_cross";
          v <<- liftM (interp_fl (select m Ns) (select m laH) nc); setF "_logaH_star" v;;
          ls <<- getF "_logaH_star"; setF "H_star" (fexp (fsub ls nc));;
          n0 <<- getF "N0";
          setF "delta_N_calib" (fadd (fsub n0 ls) (flog (Fin (K_STAR_lp C))));;
          hs <<- getF "H_star"; V <<- getF "V_end";
          setF "DeltaN_minus1"
            (fsub (fsub (fsub (fsub (fsub n0 (Fin ns)) (flog (fdiv (Fin (K_STAR_lp C)) hs))) log_g0) (log_gth a)) (log_Vend V));;
          flat_N_star_reheating a
  end.

(** ** flat universe, calibration_method='reheating' *)
(** the case distinction, inflation.py:626-687: sets the reheating parameters and N_end *)
Definition flat_reheating_cases (a : calargs) : M unit :=
  b <<- liftM (is_instant_reheating (ca_N_star a) (ca_rho_reh_GeV a) (ca_w_reh a) (ca_DeltaN_reh a) (ca_DeltaN_minus1 a));
  if b then
    setF "DeltaN_reh" (Fin 0);; setF "w_reh" (Fin (1/3));; setF "DeltaN_minus1" (Fin 0);;
    V <<- getF "V_end"; setF "rho_reh_mp4" (fmul (Fin (3/2)) V);;
    r <<- getF "rho_reh_mp4"; setF "rho_reh_GeV" (rho_GeV r)
  else match ca_DeltaN_minus1 a with
  | Some dm =>
      setF "DeltaN_minus1" (Fin dm);;
      ne <<- getF "N_end"; setF "N_end" (fsub ne (Fin dm));;
      if (is_given (ca_w_reh a) || is_given (ca_DeltaN_reh a))%bool then raiseM NotImplementedError
      else match ca_rho_reh_GeV a with
      | Some rho =>
          setF "rho_reh_GeV" (Fin rho);; setF "rho_reh_mp4" (rho_mp4 rho);;
          n0 <<- getF "N0"; r <<- getF "rho_reh_mp4";
          setF "N_reh" (fadd (fsub (fsub n0 log_g0) (log_gth a)) (log_Treh r));;
          nr <<- getF "N_reh"; ne' <<- getF "N_end"; setF "DeltaN_reh" (fsub nr ne');;
          V <<- getF "V_end"; dn <<- getF "DeltaN_reh";
          setF "w_reh" (fsub (fdiv (log_V_rho V r) (fmul (Fin 3) dn)) (Fin 1))
      | None => set_nans ["rho_reh_GeV"; "rho_reh_mp4"; "_N_reh"; "w_reh"; "DeltaN_reh"]
      end
  | None =>
      match ca_w_reh a, ca_DeltaN_reh a, ca_rho_reh_GeV a with
      | Some w, Some dn, None =>
          setF "w_reh" (Fin w);; setF "DeltaN_reh" (Fin dn);;
          setF "DeltaN_minus1" (Fin (dn / 4 * (1 - 3 * w)));;
          ne <<- getF "N_end"; dm <<- getF "DeltaN_minus1"; setF "N_end" (fsub ne dm);;
          V <<- getF "V_end";
          setF "rho_reh_mp4" (fmul (fmul (Fin (3/2)) V) (Fin (exp (-3 * (1+w) * dn))));;
          r <<- getF "rho_reh_mp4"; setF "rho_reh_GeV" (rho_GeV r)
      | Some w, None, Some rho =>
          setF "w_reh" (Fin w);; setF "rho_reh_GeV" (Fin rho);; setF "rho_reh_mp4" (rho_mp4 rho);;
          V <<- getF "V_end"; r <<- getF "rho_reh_mp4";
          setF "DeltaN_reh" (fdiv (log_V_rho V r) (Fin (3 * (1+w))));;
          dn <<- getF "DeltaN_reh"; setF "DeltaN_minus1" (fmul (fdiv dn (Fin 4)) (Fin (1 - 3 * w)));;
          ne <<- getF "N_end"; dm <<- getF "DeltaN_minus1"; setF "N_end" (fsub ne dm)
      | _, _, _ => raiseM ValueError
      end
  end.
(** inflation.py:613-703 *)
Definition flat_reheating (a : calargs) : M unit :=
  if bad_reheating a then raiseM ValueError
  else
    n0 <<- getF "N0"; V <<- getF "V_end";
    setF "N_end" (fsub (fsub (fsub n0 log_g0) (log_gth a)) (log_Vend V));;
    flat_reheating_cases a;;
    ne <<- getF "N_end"; ne' <<- getF "_N_end"; setF "delta_N_calib" (fsub ne ne');;
    dc <<- getF "delta_N_calib";
    setF "_logaH_star" (fsub (fadd n0 (flog (Fin (K_STAR_lp C)))) dc);;
    laH <<- getA "_logaH"; m <<- getB "inflation_mask"; Ns <<- getA "_N";
    ls <<- getF "_logaH_star"; lb <<- getF "_logaH_beg"; le <<- getF "_logaH_end";
    (if (flt ls lb || flt le ls)%bool then raiseM InsufficientInflationError
     else v <<- liftM (interp_fl (select m laH) (select m Ns) ls); setF "_N_cross" v);;
    nc <<- getF "_N_cross"; setF "N_star" (fsub ne' nc);;
    dn <<- getF "DeltaN_reh"; setF "_N_reh" (fadd ne' dn).

(** the override with an earlier background, inflation.py:711-723 *)
Definition copy (bg : attrs) (k : string) : M unit := v <<- liftM (getattr bg k); setM k v.
Definition flat_background (a : calargs) (bg : attrs) : M unit :=
  match ca_N_star a with
  | None => raiseM ValueError
  | Some ns =>
      if Rle_dec ns 0 then raiseM ValueError
      else
        b <<- liftM (get_F bg "N_star");
        if feq (Fin ns) b then
          copy bg "delta_N_calib";; copy bg "_logaH_star";; copy bg "_N_cross";; copy bg "_N_reh";;
          copy bg "_N_end";; copy bg "N_star"
        else raiseM ValueError
  end.

(** duplicates are dropped from the mask: inflation.py:727-729, 831-833 *)
Definition set_logk (logk : list fl) : M unit :=
  m <<- getB "inflation_mask";
  setM "inflation_mask" (VB (zipw andb m (first_occ [] logk)));;
  m' <<- getB "inflation_mask";
  setM "logk" (VA (select m' logk)).
(** inflation.py:725-729 *)
Definition flat_finish : M unit :=
  ls <<- getF "_logaH_star"; setF "a0_Mpc" (fdiv (fexp ls) (Fin (K_STAR C)));;
  laH <<- getA "_logaH";
  set_logk (map (fun x => fsub (fadd x (flog (Fin (K_STAR C)))) ls) laH).

(** inflation.py:536-729 *)
Definition calibrate_flat (a : calargs) : M unit :=
  match ca_Omega_K0 a with
  | Some o => if Req_EM_T o 0 then retM tt else raiseM ValueError
  | None => retM tt
  end;;
  setF "a0" (Fin 1);; setF "N0" (Fin 0);; setF "Omega_K0" (Fin 0);;
  (match ca_background a with
   | None =>
       let me := match ca_method a with Some x => x | None => "N_star" end in
       if String.eqb me "N_star" then flat_N_star a
       else if String.eqb me "reheating" then flat_reheating a
       else raiseM NotImplementedError
   | Some bg => flat_background a bg
   end);;
  flat_finish.

(** ** curved universe *)
(** calibration_method='Omega_K0', inflation.py:741-767 *)
Definition curved_Omega_K0 (a : calargs) (h : R) : M unit :=
  match ca_Omega_K0 a with
  | None => raiseM ValueError
  | Some o =>
      if Req_EM_T o 0 then raiseM ValueError
      else
        K <<- getF "K";
        if negb (feq (Fin (np_sign o)) (fneg K)) then raiseM ValueError
        else
          setF "Omega_K0" (Fin o);;
          setF "a0_Mpc" (fmul (Fin (c_light C / (h * 100 * 1000))) (fsqrt (fdiv (fneg K) (Fin o))));;
          am <<- getF "a0_Mpc"; setF "a0" (fdiv (fmul am (Fin (Mpc_m C))) (Fin (lp_m C)));;
          a0 <<- getF "a0"; setF "N0" (flog a0);;
          match ca_rho_reh_GeV a with
          | None => set_nans ["rho_reh_GeV"; "_N_reh"; "w_reh"; "DeltaN_reh"; "DeltaN_minus1"]
          | Some rho =>
              setF "rho_reh_GeV" (Fin rho);; setF "rho_reh_mp4" (rho_mp4 rho);;
              n0 <<- getF "N0"; r <<- getF "rho_reh_mp4";
              setF "_N_reh" (fadd (fsub (fsub n0 log_g0) (log_gth a)) (log_Treh r));;
              nr <<- getF "_N_reh"; ne <<- getF "_N_end"; setF "DeltaN_reh" (fsub nr ne);;
              V <<- getF "V_end"; dn <<- getF "DeltaN_reh";
              setF "w_reh" (fsub (fdiv (log_V_rho V r) (fmul (Fin 3) dn)) (Fin 1));;
              w <<- getF "w_reh";
              setF "DeltaN_minus1" (fmul (fdiv dn (Fin 4)) (fsub (Fin 1) (fmul (Fin 3) w)))
          end
  end.
(** the case distinction of calibration_method='reheating', inflation.py:786-820 *)
Definition curved_reheating_cases (a : calargs) : M unit :=
  b <<- liftM (is_instant_reheating (ca_N_star a) (ca_rho_reh_GeV a) (ca_w_reh a) (ca_DeltaN_reh a) (ca_DeltaN_minus1 a));
  if b then
    setF "DeltaN_reh" (Fin 0);; setF "w_reh" (Fin (1/3));; setF "DeltaN_minus1" (Fin 0);;
    V <<- getF "V_end"; setF "rho_reh_mp4" (fmul (Fin (3/2)) V);;
    r <<- getF "rho_reh_mp4"; setF "rho_reh_GeV" (rho_GeV r);;
    ne <<- getF "_N_end"; setF "_N_reh" ne
  else
    match ca_w_reh a, ca_DeltaN_reh a, ca_rho_reh_GeV a with
    | Some w, Some dn, None =>
        setF "w_reh" (Fin w);; setF "DeltaN_reh" (Fin dn);;
        setF "DeltaN_minus1" (Fin (dn / 4 * (1 - 3 * w)));;
        n0 <<- getF "N0"; dm <<- getF "DeltaN_minus1"; setF "N0" (fadd n0 dm);;
        V <<- getF "V_end";
        setF "rho_reh_mp4" (fmul (fmul (Fin (3/2)) V) (Fin (exp (-3 * (1+w) * dn))));;
        r <<- getF "rho_reh_mp4"; setF "rho_reh_GeV" (rho_GeV r);;
        ne <<- getF "_N_end"; setF "_N_reh" (fadd ne (Fin dn))
    | Some w, None, Some rho =>
        setF "w_reh" (Fin w);; setF "rho_reh_GeV" (Fin rho);; setF "rho_reh_mp4" (rho_mp4 rho);;
        r <<- getF "rho_reh_mp4"; V <<- getF "V_end";
        setF "DeltaN_reh" (fmul (Fin (- (1+w) / 3)) (flog (fdiv (fmul (Fin (2/3)) r) V)));;
        dn <<- getF "DeltaN_reh"; setF "DeltaN_minus1" (fmul (fdiv dn (Fin 4)) (Fin (1 - 3 * w)));;
        n0 <<- getF "N0"; dm <<- getF "DeltaN_minus1"; setF "N0" (fadd n0 dm);;
        ne <<- getF "_N_end"; setF "_N_reh" (fadd ne dn)
    | _, _, _ => raiseM ValueError
    end.
(** inflation.py:769-823 *)
Definition curved_reheating (a : calargs) (h : R) : M unit :=
  if is_given (ca_Omega_K0 a) then raiseM ValueError
  else if bad_reheating a then raiseM ValueError
  else
    ne <<- getF "_N_end"; V <<- getF "V_end";
    setF "N0" (fadd (fadd (fadd ne log_g0) (log_gth a)) (log_Vend V));;
    curved_reheating_cases a;;
    n0 <<- getF "N0"; setF "a0" (fexp n0);;
    a0 <<- getF "a0"; setF "a0_Mpc" (fdiv (fmul a0 (Fin (lp_m C))) (Fin (Mpc_m C)));;
    am <<- getF "a0_Mpc"; K <<- getF "K";
    setF "Omega_K0" (fdiv (fmul (fneg K) (Fin (c_light C ^ 2)))
                          (fpow (fmul (fmul (fmul am (Fin h)) (Fin 100)) (Fin 1000)) 2)).
(** np.min, np.max: ValueError on an empty array, NaN if there is one *)
Definition fmin2 (a b : fl) : fl := if isnan a then NaN else if isnan b then NaN else if flt b a then b else a.
Definition fmax2 (a b : fl) : fl := if isnan a then NaN else if isnan b then NaN else if flt a b then b else a.
Definition np_min (l : list fl) : res fl := match l with [] => Raise ValueError | h :: t => Ok (fold_left fmin2 t h) end.
Definition np_max (l : list fl) : res fl := match l with [] => Raise ValueError | h :: t => Ok (fold_left fmax2 t h) end.
(** inflation.py:830-844 *)
Definition curved_finish : M unit :=
  laH <<- getA "_logaH"; am <<- getF "a0_Mpc";
  set_logk (map (fun x => fsub x (flog am)) laH);;
  setF "_logaH_star" (flog (fmul (Fin (K_STAR C)) am));;
  lk <<- getA "logk"; mn <<- liftM (np_min lk); mx <<- liftM (np_max lk);
  let p := flog (Fin (K_STAR C)) in
  (if (flt p mn || flt mx p)%bool then raiseM InsufficientInflationError
   else
     Ns <<- getA "_N"; m <<- getB "inflation_mask";
     v <<- liftM (interp_fl lk (select m Ns) p); setF "_N_cross" v);;
  ne <<- getF "_N_end"; nc <<- getF "_N_cross"; setF "N_star" (fsub ne nc).
(** inflation.py:731-844 *)
Definition calibrate_curved (a : calargs) : M unit :=
  if is_given (ca_N_star a) then raiseM ValueError
  else match ca_h a with
  | None => raiseM ValueError
  | Some h =>
      if Rle_dec h 0 then raiseM ValueError
      else
        setF "delta_N_calib" (Fin 0);;
        (let me := match ca_method a with Some x => x | None => "Omega_K0" end in
         if String.eqb me "Omega_K0" then curved_Omega_K0 a h
         else if String.eqb me "reheating" then curved_reheating a h
         else raiseM NotImplementedError);;
        curved_finish
  end.

(** ** both geometries, inflation.py:846-864 *)
Definition cHH (a0 N H : fl) : fl :=
  fdiv (fmul (fdiv a0 (fmul (fexp N) H)) (Fin (lp_m C))) (Fin (Mpc_m C)).
Definition calibrate_common (a : calargs) : M (list cal_warning) :=
  dc <<- getF "delta_N_calib";
  Ns <<- getA "_N"; setM "N" (VA (map (fun n => fadd n dc) Ns));;
  nb <<- getF "_N_beg"; setF "N_beg" (fadd nb dc);;
  ne <<- getF "_N_end"; setF "N_end" (fadd ne dc);;
  nr <<- getF "_N_reh"; setF "N_reh" (fadd nr dc);;
  nc <<- getF "_N_cross"; setF "N_cross" (fadd nc dc);;
  xc <<- getF "N_cross"; xb <<- getF "N_beg"; setF "N_dagg" (fsub xc xb);;
  lk <<- getA "logk"; setM "k_iMpc" (VA (map fexp lk));;
  laH <<- getA "_logaH"; m <<- getB "inflation_mask"; setM "_k" (VA (map fexp (select m laH)));;
  w <<- match ca_background a with
        | Some _ => retM []
        | None =>
            dn <<- getF "DeltaN_reh";
            if flt dn (Fin 0) then retM [NegativeReheating]
            else
              xr <<- getF "N_reh"; n0 <<- getF "N0";
              if flt n0 xr then retM [ReheatingAfterToday] else retM []
        end;
  a0 <<- getF "a0"; N <<- getA "N"; H <<- getA "H";
  setM "cHH_Mpc" (VA (zipw (cHH a0) N H));;
  xe <<- getF "N_end"; he <<- getF "H_end"; setF "cHH_end_Mpc" (cHH a0 xe he);;
  retM w.

(** calibrate_scale_factor, inflation.py:463-868 *)
Definition calibrate_scale_factor (a : calargs) : M (list cal_warning) :=
  (if Req_EM_T (a_K q) 0 then calibrate_flat a else calibrate_curved a);;
  w <<- calibrate_common a;
  match ca_background a with
  | None => derive_approx_power C S q (ca_approx a) (ca_order a) (ca_opts a)
  | Some _ => retM tt
  end;;
  retM w.

(** the call with only N_star (and rho_reh_GeV) given *)
Definition args_N_star (ns : R) (rho : option R) : calargs :=
  mkargs (Some "N_star") None None (Some ns) None None None rho 100 None "CGS" (Some 3%Z) default_opts.
(** scipy.optimize.root_scalar on a function that mutates the solution: an oracle that may evaluate
    its argument any number of times and either fails or returns a root *)
Definition root_oracle := (R -> M fl) -> R -> R -> M R.
(** set_ns, inflation.py:1545-1589 *)
Definition Nstar2ns_minus_ns (n_s : R) (ns : R) : M fl :=
  w <<- calibrate_scale_factor (args_N_star ns None);
  v <<- getF "n_s"; retM (fsub v (Fin n_s)).
Definition set_ns (find : root_oracle) (n_s N_star_min N_star_max : R) (rho : option R) : M (list cal_warning) :=
  K <<- getF "K";
  if negb (feq K (Fin 0)) then raiseM PrimpyError
  else
    u <<- Nstar2ns_minus_ns n_s N_star_min;
    let ns_min := fadd u (Fin n_s) in
    v <<- Nstar2ns_minus_ns n_s N_star_max;
    let ns_max := fadd v (Fin n_s) in
    if (flt (Fin n_s) ns_min && flt (Fin n_s) ns_max)%bool then raiseM PrimpyError
    else if (flt ns_min (Fin n_s) && flt ns_max (Fin n_s))%bool then raiseM PrimpyError
    else
      root <<- find (Nstar2ns_minus_ns n_s) N_star_min N_star_max;
      calibrate_scale_factor (args_N_star root rho).
End Calibrate.
