(** Model of the solution object: /repo/primpy/solver.py, /repo/primpy/equations.py:44-61,
    /repo/primpy/events.py, /repo/primpy/exceptionhandling.py:90-171 and
    /repo/primpy/inflation.py:407-461.

    scipy's solve_ivp is an oracle: [raw_sol] is what it returns. *)
From Coq Require Import Reals List String ZArith Ascii Bool DecimalString.
From Verif Require Import Base Model.Potentials Model.Equations Model.Background Model.Float.
Import ListNotations.
Open Scope R_scope.
Open Scope string_scope.

(* ------------------------------------------------------------------ *)
(** ** Events, events.py *)

(** [%d] of an int and of a bool *)
Definition fmt_d (z : Z) : string := NilEmpty.string_of_int (Z.to_int z).
Definition fmt_b (b : bool) : string := if b then "1" else "0".

(** the event classes with their constructor arguments *)
Inductive event :=
| UntilT (value : R)                                        (* events.py:54-63 *)
| UntilN (value : R)                                        (* events.py:66-75 *)
| Inflation (dir : Z) (term : bool) (value : R) (t_i : option R) (* events.py:78-90 *)
| AfterInflationEnd (dir : Z) (term : bool) (value : R)     (* events.py:93-102 *)
| Collapse (value : R)                                      (* events.py:105-114 *)
| Phi0 (dir : Z) (term : bool) (value : R)                  (* events.py:117-126 *)
| ModeExit (dir : Z) (term : bool) (value : R).             (* events.py:129-139 *)

(** Event.name, events.py:32,59,71,83,98,110,122,134. [fmt_e] is Python's '%e' conversion
    (not modelled further). *)
Definition event_name (fmt_e : R -> string) (e : event) : string :=
  match e with
  | UntilT _ => "UntilT"
  | UntilN _ => "UntilN"
  | Inflation d t _ _ => "Inflation_dir" ++ fmt_d d ++ "_term" ++ fmt_b t
  | AfterInflationEnd d t _ => "AfterInflationEnd_dir" ++ fmt_d d ++ "_term" ++ fmt_b t
  | Collapse _ => "Collapse"
  | Phi0 d t _ => "Phi0_dir" ++ fmt_d d ++ "_term" ++ fmt_b t
  | ModeExit d t v => "ModeExit_dir" ++ fmt_d d ++ "_term" ++ fmt_b t ++ "_" ++ fmt_e v
  end.

(** an equations object as the solution code uses it *)
Record eqs := mkeqs {
  e_idx : idx_map;                     (* self.idx *)
  e_xname : string;                    (* self.independent_variable *)
  e_t : R -> list R -> R;              (* self.t(x,y) *)
  e_N : R -> list R -> R;              (* self._N(x,y) *)
  e_phi : R -> list R -> R;            (* self.phi(x,y) *)
  e_H2 : R -> list R -> R;             (* self.H2(x,y) *)
  e_w : R -> list R -> R;              (* self.w(x,y) *)
  e_inflating : R -> list R -> R;      (* self.inflating(x,y) *)
  e_V : R -> R;                        (* self.potential.V(phi) *)
  e_K : R                              (* self.K *)
}.
(** InflationEquationsT, time/inflation.py:6-135 *)
Definition T_eqs (K : R) (U : potfun) (te : bool) : eqs :=
  mkeqs (T_idx te) "t" (fun x y => x) (fun x y => var (T_idx te) "_N" y) (fun x y => var (T_idx te) "phi" y)
        (T_H2 K U te) (T_w U te) (T_inflating U te) (pV U) K.
(** InflationEquationsN, efolds/inflation.py:6-144 (the method t exists only if tracked) *)
Definition N_eqs (K : R) (U : potfun) (tt te : bool) : eqs :=
  mkeqs (N_idx tt te) "_N" (fun x y => var (N_idx tt te) "t" y) (fun x y => x) (fun x y => var (N_idx tt te) "phi" y)
        (N_H2 K U tt te) (N_w K U tt te) (N_inflating K U tt te) (pV U) K.

(** Event.__call__, events.py:61-63,73-75,86-90,100-102,112-114,124-126,136-139.
    np.log over the reals: theorems about ModeExit assume H2 <> 0 and value > 0. *)
Definition event_call (q : eqs) (e : event) (x : R) (y : list R) : R :=
  match e with
  | UntilT v => e_t q x y - v
  | UntilN v => e_N q x y - v
  | Inflation d _ v ti =>
      match ti with
      | Some t => if Req_EM_T x t then IZR d else e_inflating q x y - v
      | None => e_inflating q x y - v
      end
  | AfterInflationEnd _ _ v => e_w q x y - v
  | Collapse v => e_H2 q x y - v
  | Phi0 _ _ v => e_phi q x y - v
  | ModeExit _ _ v => ln (Rabs (e_H2 q x y)) / 2 + e_N q x y - ln v
  end.

(* ------------------------------------------------------------------ *)
(** ** the solution object: a Bunch (dict with attribute access) *)
Inductive val :=
| VStr (s : string)
| VStrs (l : list string)                 (* event_keys *)
| VF (a : fl)                             (* scalar *)
| VA (l : list fl)                        (* 1-d float array *)
| VB (l : list bool)                      (* mask *)
| VM (ncomp : nat) (l : list (list R))    (* sol.y, one state per time *)
| VRawT (l : list (list R))               (* t_events as returned by solve_ivp *)
| VRawY (l : list (list (list R)))        (* y_events as returned by solve_ivp *)
| VDT (d : dict (list R))                 (* dict: event name -> 1-d array *)
| VDY (d : dict (list (list R)))          (* dict: event name -> states *)
| VNat (n : nat)
| VSpl (k : nat) (ext : string) (knots : list (R * R)). (* an InterpolatedUnivariateSpline, or a closure over one *)
Definition attrs := dict val.
(** attribute access *)
Definition getattr (s : attrs) (k : string) : res val :=
  match dict_get k s with Some v => Ok v | None => Raise AttributeError end.
Definition setattr (k : string) (v : val) (s : attrs) : attrs := dict_set k v s.
(** [del sol.k] / [sol.pop(k)] *)
Definition delattr (k : string) (s : attrs) : attrs := filter (fun q => negb (String.eqb k (fst q))) s.

(** OdeResult of scipy.integrate.solve_ivp: abscissae, states, and per event the times and states *)
Record raw_sol := mkraw { r_t : list R; r_y : list (list R); r_t_events : list (list R); r_y_events : list (list (list R)) }.
(** the returned Bunch plus [sol.event_keys = [e.name for e in events]], solver.py:37-39 *)
Definition bunch_of (ncomp : nat) (r : raw_sol) (keys : list string) : attrs :=
  [("t", VA (map Fin (r_t r))); ("y", VM ncomp (r_y r)); ("t_events", VRawT (r_t_events r));
   ("y_events", VRawY (r_y_events r)); ("event_keys", VStrs keys)].

Definition as_A (v : val) : res (list fl) := match v with VA l => Ok l | _ => Raise TypeError end.
Definition as_M (v : val) : res (nat * list (list R)) := match v with VM n l => Ok (n, l) | _ => Raise TypeError end.
(** [sol.y[i]] *)
Definition row (i : nat) (m : nat * list (list R)) : res (list fl) :=
  if Nat.ltb i (fst m) then Ok (map (fun s => Fin (nth i s 0)) (snd m)) else Raise IndexError.
(** [for name, i in self.idx.items(): setattr(sol, name, sol.y[i])], equations.py:50-51 *)
Fixpoint set_rows (items : idx_map) (s : attrs) : res attrs :=
  match items with
  | [] => Ok s
  | (name, i) :: t =>
      do v <- getattr s "y"; do m <- as_M v; do r <- row i m;
      set_rows t (setattr name (VA r) s)
  end.
(** [value[:, i] if value.size > 0 else np.array([])], equations.py:58-60 *)
Definition event_col (ncomp i : nat) (states : list (list R)) : res (list R) :=
  match states with
  | [] => Ok []
  | _ => if Nat.ltb i ncomp then Ok (map (fun s => nth i s 0) states) else Raise IndexError
  end.
Fixpoint map_dict {A B} (f : A -> res B) (d : dict A) : res (dict B) :=
  match d with
  | [] => Ok []
  | (k, v) :: t => do w <- f v; do r <- map_dict f t; Ok ((k, w) :: r)
  end.
Definition as_DY (v : val) : res (dict (list (list R))) := match v with VDY d => Ok d | _ => Raise TypeError end.
(** equations.py:58-60 *)
Fixpoint set_event_cols (ncomp : nat) (items : idx_map) (s : attrs) : res attrs :=
  match items with
  | [] => Ok s
  | (name, i) :: t =>
      do v <- getattr s "y_events"; do d <- as_DY v; do e <- map_dict (event_col ncomp i) d;
      set_event_cols ncomp t (setattr (name ++ "_events") (VDT e) s)
  end.
(** Equations.sol, equations.py:44-61 *)
Definition base_sol (idx : idx_map) (xname : string) (s : attrs) : res attrs :=
  let s := setattr "independent_variable" (VStr xname) s in
  do t <- getattr s "t";
  let s := setattr "x" t s in
  let s := delattr "t" s in
  do s <- set_rows idx s;
  do x <- getattr s "x";
  let s := setattr xname x s in
  match dict_get "event_keys" s with
  | Some (VStrs keys) =>
      match dict_get "t_events" s with
      | Some (VRawT te) =>
          let s := setattr "x_events" (VDT (dict_zip keys te)) s in
          let s := setattr (xname ++ "_events") (VDT (dict_zip keys te)) (delattr "t_events" s) in
          match dict_get "y_events" s with
          | Some (VRawY ye) =>
              let s := setattr "y_events" (VDY (dict_zip keys ye)) (delattr "y_events" s) in
              do v <- getattr s "y"; do m <- as_M v;
              set_event_cols (fst m) idx s
          | _ => Raise KeyError
          end
      | _ => Raise TypeError
      end
  | Some _ => Raise TypeError
  | None => Ok s
  end.

(* ------------------------------------------------------------------ *)
(** ** warnings, exceptionhandling.py:90-171 *)
Definition has_key {A} (k : string) (d : dict A) : bool := match dict_get k d with Some _ => true | None => false end.
(** does InflationStartWarning(events=d) say that InflationEvent is not tracked?
    exceptionhandling.py:119-132 *)
Definition start_warning_untracked {A} (d : dict A) : bool :=
  (negb (has_key "Inflation_dir+1_term1" d) && negb (has_key "Inflation_dir+1_term0" d))%bool.
(** InflationEndWarning, exceptionhandling.py:135-171 *)
Definition end_warning_untracked {A} (d : dict A) : bool :=
  (negb (has_key "Inflation_dir-1_term1" d) && negb (has_key "Inflation_dir-1_term0" d))%bool.
Inductive warning := CollapseWarning | InflationStartWarning (untracked : bool) | InflationEndWarning (untracked : bool).

(* ------------------------------------------------------------------ *)
(** ** InflationEquations post-processing, inflation.py:407-461 *)
Definition as_DT (v : val) : res (dict (list R)) := match v with VDT d => Ok d | _ => Raise TypeError end.
Definition as_F (v : val) : res fl := match v with VF a => Ok a | _ => Raise TypeError end.
Definition as_B (v : val) : res (list bool) := match v with VB a => Ok a | _ => Raise TypeError end.
Definition get_A s k := do v <- getattr s k; as_A v.
Definition get_F s k := do v <- getattr s k; as_F v.
Definition get_B s k := do v <- getattr s k; as_B v.
Definition get_DT s k := do v <- getattr s k; as_DT v.
Definition get_DY s k := do v <- getattr s k; as_DY v.
Definition head_of {A} (l : list A) : res A := match l with h :: _ => Ok h | [] => Raise IndexError end.
(** [key in d and d[key].size > 0]: the recorded values *)
Definition fired {A} (k : string) (d : dict (list A)) : bool :=
  match dict_get k d with Some (_ :: _) => true | _ => false end.
Definition item {A} (k : string) (d : dict A) : res A := match dict_get k d with Some v => Ok v | None => Raise KeyError end.
(** InflationEquations.H, inflation.py:379-381 *)
Definition e_H (q : eqs) (x : R) (y : list R) : fl := fsqrt (Fin (e_H2 q x y)).
Definition vwarn (verbose : bool) (w : warning) : list warning := if verbose then [w] else [].
(** x of a solution as reals (solve_ivp returns finite abscissae) *)
Definition as_R (a : fl) : res R := match a with Fin r => Ok r | _ => Raise TypeError end.

(** postprocessing_inflation_start, inflation.py:407-426 *)
Definition postprocessing_inflation_start (q : eqs) (verbose : bool) (s : attrs) : res (attrs * list warning) :=
  let s := setattr "_N_beg" (VF NaN) s in
  let s := setattr "H_beg" (VF NaN) s in
  let key := "Inflation_dir1_term0" in
  do Nev <- get_DT s "_N_events";
  do r <-
    (if fired "Collapse" Nev then Ok (s, vwarn verbose CollapseWarning)
     else
       do xs <- get_A s "x"; do x0' <- head_of xs; do x0 <- as_R x0';
       do v <- getattr s "y"; do m <- as_M v; do y0 <- head_of (snd m);
       do ws <- get_A s "w"; do w0 <- head_of ws;
       if (fle (Fin 0) (Fin (e_inflating q x0 y0)) || fle w0 (Fin (-1/3)))%bool then
         do Ns <- get_A s "_N"; do N0 <- head_of Ns;
         let s := setattr "_N_beg" (VF N0) s in
         Ok (setattr "H_beg" (VF (e_H q x0 y0)) s, [])
       else if fired key Nev then
         do l <- item key Nev; do n <- head_of l;
         let s := setattr "_N_beg" (VF (Fin n)) s in
         do xev <- get_DT s "x_events"; do xl <- item key xev; do x <- head_of xl;
         do yev <- get_DY s "y_events"; do yl <- item key yev; do y <- head_of yl;
         Ok (setattr "H_beg" (VF (e_H q x y)) s, [])
       else Ok (s, vwarn verbose (InflationStartWarning (start_warning_untracked Nev))));
  let s := fst r in
  do nb <- get_F s "_N_beg"; do hb <- get_F s "H_beg";
  Ok (setattr "_logaH_beg" (VF (fadd nb (flog hb))) s, snd r).

(** the body of the for loop with break, inflation.py:436-442 *)
Definition end_from (q : eqs) (key : string) (s : attrs) : res attrs :=
  do Nev <- get_DT s "_N_events"; do l <- item key Nev; do n <- head_of l;
  let s := setattr "_N_end" (VF (Fin n)) s in
  do pev <- get_DT s "phi_events"; do pl <- item key pev; do p <- head_of pl;
  let s := setattr "phi_end" (VF (Fin p)) s in
  do xev <- get_DT s "x_events"; do xl <- item key xev; do x <- head_of xl;
  do yev <- get_DY s "y_events"; do yl <- item key yev; do y <- head_of yl;
  let H := e_H q x y in
  let s := setattr "H_end" (VF H) s in
  Ok (setattr "_logaH_end" (VF (fadd (Fin n) (flog H))) s).
(** postprocessing_inflation_end, inflation.py:428-446 *)
Definition postprocessing_inflation_end (q : eqs) (verbose : bool) (s : attrs) : res (attrs * list warning) :=
  let s := setattr "_N_end" (VF NaN) s in
  let s := setattr "_logaH_end" (VF NaN) s in
  let s := setattr "phi_end" (VF NaN) s in
  let s := setattr "H_end" (VF NaN) s in
  let s := setattr "V_end" (VF NaN) s in
  do Nev <- get_DT s "_N_events";
  do s <- (if fired "Inflation_dir-1_term1" Nev then end_from q "Inflation_dir-1_term1" s
           else if fired "Inflation_dir-1_term0" Nev then end_from q "Inflation_dir-1_term0" s
           else Ok s);
  do p <- get_F s "phi_end";
  match p with
  | Fin phi => Ok (setattr "V_end" (VF (Fin (e_V q phi))) s, [])
  | _ => Ok (s, vwarn verbose (InflationEndWarning (end_warning_untracked Nev)))
  end.

(** apply f(x, y) columnwise: self.w(sol.x, sol.y), self.H2(sol.x, sol.y) *)
Fixpoint columnwise (f : R -> list R -> R) (xs : list fl) (ys : list (list R)) : res (list R) :=
  match xs, ys with
  | x :: xs', y :: ys' => do r <- as_R x; do t <- columnwise f xs' ys'; Ok (f r y :: t)
  | _, _ => Ok []
  end.
(** elementwise binary operation of equally long arrays *)
Fixpoint zipw {A B C} (f : A -> B -> C) (l : list A) (m : list B) : list C :=
  match l, m with a :: l', b :: m' => f a b :: zipw f l' m' | _, _ => [] end.

(** InflationEquations.sol up to the definition of calibrate_scale_factor: inflation.py:448-461 *)
Definition inflation_sol (q : eqs) (verbose : bool) (s : attrs) : res (attrs * list warning) :=
  do s <- base_sol (e_idx q) (e_xname q) s;
  do xs <- get_A s "x"; do v <- getattr s "y"; do m <- as_M v;
  do w <- columnwise (e_w q) xs (snd m);
  let s := setattr "w" (VA (map Fin w)) s in
  do r1 <- postprocessing_inflation_start q verbose s;
  do r2 <- postprocessing_inflation_end q verbose (fst r1);
  let s := fst r2 in
  let s := setattr "K" (VF (Fin (e_K q))) s in
  do H2 <- columnwise (e_H2 q) xs (snd m);
  let H := map (fun h => fsqrt (Fin h)) H2 in
  let s := setattr "H" (VA H) s in
  do Ns <- get_A s "_N";
  let laH := zipw (fun n h => fadd n (flog h)) Ns H in
  let s := setattr "_logaH" (VA laH) s in
  let s := setattr "Omega_K" (VA (map (fun a => fmul (Fin (- e_K q)) (fexp (fmul (Fin (-2)) a))) laH)) s in
  do ne <- get_F s "_N_end"; do nb <- get_F s "_N_beg";
  let s := setattr "N_tot" (VF (fsub ne nb)) s in
  let s := if (isfinite nb && isfinite ne)%bool
           then setattr "inflation_mask" (VB (map (fun n => (flt nb n && flt n ne)%bool) Ns)) s else s in
  Ok (s, (snd r1 ++ snd r2)%list).

(** solve, solver.py:11-40, with [ivp] the result of integrate.solve_ivp for these equations,
    initial state and events *)
Definition solve (fmt_e : R -> string) (q : eqs) (verbose : bool) (events : list event) (ivp : raw_sol) : res (attrs * list warning) :=
  inflation_sol q verbose (bunch_of (List.length (e_idx q)) ivp (map (event_name fmt_e) events)).
