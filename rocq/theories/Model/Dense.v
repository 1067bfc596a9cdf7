(** Model of the dense output of solve_oscode (num_eval > 0): the output grids set by the four mode
    classes (/repo/primpy/time/perturbations.py:31-38 and 126-133, /repo/primpy/efolds/perturbations.py:33-43
    and 133-143), the call of pyoscode with t_eval (oscode_solver.py:113-124) and the attributes
    P_<tag>_<vac>_eval (perturbations.py:53-73).

    Simplifications: as in Model/Oscode.v, except that num_eval is a parameter; the floats of the grids
    are [fl] because log10 of a time that is not positive is -inf or NaN. pyoscode's key 'x_eval'
    (with 'dx_eval') is an optional component of the oracle's result; the two lists have the same
    length (np.vstack would raise otherwise), and so do the outputs of the two solutions. *)
From Coq Require Import Reals List String Bool ZArith.
From Coquelicot Require Import Coquelicot Complex.
From Verif Require Import Base Model.Potentials Model.Equations Model.Background Model.Float Model.Perturbations Model.Oscode.
Import ListNotations.
Open Scope R_scope.
Open Scope string_scope.

(** np.linspace(a, b, n): a + i * (b - a)/(n-1), the last point is b itself; n = 1 gives only a *)
Definition linspace (a b : fl) (n : nat) : list fl :=
  match n with
  | O => []
  | S O => [fadd (fmul (Fin 0) (fsub b a)) a]
  | S m => (map (fun i => fadd (fmul (Fin (INR i)) (fdiv (fsub b a) (Fin (INR m)))) a) (seq 0 m) ++ [b])%list
  end.
(** np.log10 and np.logspace(a, b, n) = 10 ** np.linspace(a, b, n) *)
Definition flog10 (x : fl) : fl := fdiv (flog x) (Fin (ln 10)).
Definition logspace (a b : fl) (n : nat) : list fl := map (fun y => fexp (fmul y (Fin (ln 10)))) (linspace a b n).

(** the attributes x_eval (= t_eval or _N_eval) and N_eval of a mode *)
Record grids := mkgrids { g_x : option (list fl); g_N : option (list fl) }.
(** 'num_eval' in kwargs and kwargs['num_eval'] > 0 (oscode always passes num_eval); [N]: the attribute
    background.N set by the calibration *)
Definition mode_grids (time : bool) (b : obg) (N : option (list R)) (num_eval : Z) (i j : nat) : res grids :=
  if (0 <? num_eval)%Z then
    let n := Z.to_nat num_eval in
    if time then
      do ti <- at_index (ob_x b) i; do tf <- at_index (ob_x b) j;
      Ok (mkgrids (Some (logspace (flog10 (Fin ti)) (flog10 (Fin tf)) n)) None)
    else
      do Ni <- at_index (map s_N (ob_s b)) i; do Nf <- at_index (map s_N (ob_s b)) j;
      match N with
      | None => Raise AttributeError
      | Some N => do Mi <- at_index N i; do Mf <- at_index N j;
          Ok (mkgrids (Some (linspace (Fin Ni) (Fin Nf) n)) (Some (linspace (Fin Mi) (Fin Mf) n)))
      end
  else Ok (mkgrids None None).

Section Dense.
(** pyoscode.solve: ts, ti, tf, ws, gs, x0, dx0, t_eval -> (sol, dsol), optional x_eval with dx_eval *)
Variable oscode : list R -> R -> R -> list C -> list R -> R -> R -> option (list fl) -> (list C * list C) * option (list (C * C)).
Variable nanmedian : list C -> C.

(** coefficients of the vacuum solution, perturbations.py:66-68; the lists are not empty here *)
Definition vac_coeffs (vac : C * C) (r1 r2 : list C * list C) : res (C * C) :=
  match fst r1, snd r1, fst r2, snd r2 with
  | a1 :: _, b1 :: _, a2 :: _, b2 :: _ => Ok (coefficients_a_b (fst vac) (snd vac) a1 b1 a2 b2)
  | _, _, _, _ => Raise IndexError
  end.
(** _combine_solutions for one mode, perturbations.py:58-73: P_<tag>_<vac> and, if the mode has a grid,
    P_<tag>_<vac>_eval from the first rows of the two y_eval (AttributeError when pyoscode returned none) *)
Definition mode_powers_dense (norm : R) (ic : string -> res (C * C)) (grid : option (list fl))
    (r1 r2 : (list C * list C) * option (list (C * C))) (vacuum : list string)
  : res (list (string * R) * list (string * list R)) :=
  fold_left (fun acc vac =>
    do d <- acc;
    do v <- ic vac;
    do P <- combine_solutions nanmedian norm v (fst (fst r1)) (snd (fst r1)) (fst (fst r2)) (snd (fst r2));
    do ab <- vac_coeffs v (fst r1) (fst r2);
    match grid with
    | None => Ok (dset vac P (fst d), snd d)
    | Some _ =>
        match snd r1, snd r2 with
        | Some e1, Some e2 => Ok (dset vac P (fst d), dset vac (combine_eval norm ab (map fst e1) (map fst e2)) (snd d))
        | _, _ => Raise AttributeError
        end
    end) vacuum (Ok ([], [])).

(** a perturbation object with its dense output *)
Record dpert := mkdpert { dp_p : pert; dp_grids : grids; dp_Ps : list (string * list R); dp_Pt : list (string * list R) }.

(** one pass of the loop, oscode_solver.py:92-128 *)
Definition solve_mode_dense (b : obg) (N : option (list R)) (vacuum : list string) (drop : bool) (fac_beg fac_end : R)
    (y0 : list R) (num_eval : Z) (k : R) : res dpert :=
  do w <- window (ob_logaH b) (map s_N (ob_s b)) k fac_beg fac_end;
  let i := fst w in let j := snd w in
  do time <- (if String.eqb (ob_indep b) "t" then Ok true
              else if String.eqb (ob_indep b) "_N" then Ok false else Raise NotImplementedError);
  do gs <- mode_grids time b N num_eval i j;
  do gt <- mode_grids time b N num_eval i j;
  do ti <- at_index (ob_x b) i;
  do tf <- at_index (ob_x b) j;
  do s0 <- at_index (ob_s b) i;
  let run (tensor : bool) num :=
    let c := mode_coeffs time tensor (ob_K b) k (ob_U b) (slice i j (ob_s b)) in
    do x0 <- at_index y0 (2 * num);
    do dx0 <- at_index y0 (2 * num + 1);
    Ok (oscode (slice i j (ob_x b)) ti tf (fst c) (snd c) x0 dx0 (g_x (if tensor then gt else gs))) in
  do s1 <- run false 0%nat; do s2 <- run false 1%nat;
  do t1 <- run true 0%nat; do t2 <- run true 1%nat;
  do Ps <- mode_powers_dense (scalar_pps_norm k) (fun v => vacuum_ic time false (ob_K b) k (ob_U b) v s0) (g_x gs) s1 s2 vacuum;
  do Pt <- mode_powers_dense (tensor_pps_norm k) (fun v => vacuum_ic time true (ob_K b) k (ob_U b) v s0) (g_x gt) t1 t2 vacuum;
  let P := if rltb k 1 && (if Req_EM_T (ob_K b) 1 then true else false) && drop
           then dset "RST" (1 / 10^30) (fst Ps) else fst Ps in
  Ok (mkdpert (mkpert k P (fst Pt)) gs (snd Ps) (snd Pt)).

Inductive dret := DPPS (S : pps) | DMode (p : option dpert).
Fixpoint k_loop_dense (step : R -> res dpert) (vacuum : list string) (i : nat) (ks : list R) (S : pps) (p : option dpert)
  : res (pps * option dpert) :=
  match ks with
  | [] => Ok (S, p)
  | k :: t => do q <- step k; do S <- store i (dp_p q) S vacuum; k_loop_dense step vacuum (Datatypes.S i) t S (Some q)
  end.
(** solve_oscode with num_eval, oscode_solver.py:9-135 *)
Definition solve_oscode_dense (b : obg) (N : option (list R)) (k : karg) (vacuum : option (list string)) (drop : bool) (fac_beg fac_end : R)
           (y0 : option (list R)) (num_eval : Z) (tol : bool) : res dret :=
  if tol then Raise AssertionError else
  let vacuum := match vacuum with None => ["RST"] | Some v => v end in
  let y0 := match y0 with None => ob_ic b | Some y => y end in
  let ks := match k with KScalar k => [k] | KArray ks => ks end in
  do S <- init_pps b ks vacuum;
  do r <- k_loop_dense (solve_mode_dense b N vacuum drop fac_beg fac_end y0 num_eval) vacuum 0 ks S None;
  match k with KArray _ => Ok (DPPS (fst r)) | KScalar _ => Ok (DMode (snd r)) end.
End Dense.
