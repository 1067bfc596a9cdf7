(** Vocabulary for C100: the change of units  V -> c V  (energy scale Lambda -> c^(1/4) Lambda) together
    with a shift of the origin of e-folds by s (a -> e^s a). *)
From Coq Require Import Reals List String.
From Verif Require Import Base Model.Potentials Model.Equations Model.Background Model.Float Model.Perturbations Model.Oscode.
Open Scope R_scope.

(** the potential object multiplied by c *)
Definition pot_times (c : R) (U : potfun) : potfun :=
  mkpotfun (fun x => c * pV U x) (fun x => c * pdV U x) (fun x => c * pd2V U x) (fun x => c * pd3V U x).
(** the curvature parameter that keeps the curvature density K/a^2 in proportion to V;
    it is K itself when K = 0 or when c e^(2s) = 1 *)
Definition K_times (c s K : R) : R := c * exp (2 * s) * K.

(** the background table of the rescaled universe: H and d/dt are multiplied by sqrt c, e-folds shift by s,
    derivatives with respect to e-folds and Omega_K do not change (C100_efolds) *)
Definition sample_times (c s : R) (x : sample) : sample :=
  mksample (s + s_N x) (sqrt c * s_H x) (s_phi x) (sqrt c * s_dphidt x) (s_dphidN x) (s_OmK x).
(** comoving wavenumbers: a H is multiplied by this *)
Definition k_unit (c s : R) : R := sqrt c * exp s.
Definition bg_times (c s : R) (b : obg) : obg :=
  mkobg (K_times c s (ob_K b)) (pot_times c (ob_U b)) (map (Rplus s) (ob_x b)) (map (sample_times c s) (ob_s b))
        (map (Rplus (ln (k_unit c s))) (ob_logaH b)) (option_map (Rplus (ln (k_unit c s))) (ob_logaH_star b)) (ob_indep b) (ob_ic b).
(** what should come out: powers times c, wavenumbers in the new unit, wavenumbers in 1/Mpc unchanged *)
Definition pert_times (c s : R) (p : pert) : pert :=
  mkpert (k_unit c s * pk p) (map (fun q => (fst q, c * snd q)) (pP_s p)) (map (fun q => (fst q, c * snd q)) (pP_t p)).
Definition pps_times (c s : R) (S : pps) : pps :=
  mkpps (map (Rmult (k_unit c s)) (ps_k S)) (ps_k_iMpc S)
        (map (fun q => (fst q, map (fmul (Fin c)) (snd q))) (ps_s S)) (map (fun q => (fst q, map (fmul (Fin c)) (snd q))) (ps_t S)).
Definition ret_times (c s : R) (r : ret) : ret :=
  match r with RetPPS z => RetPPS (pps_times c s z) | RetMode p => RetMode (option_map (pert_times c s) p) end.
Definition karg_times (c s : R) (k : karg) : karg :=
  match k with KScalar x => KScalar (k_unit c s * x) | KArray l => KArray (map (Rmult (k_unit c s)) l) end.
Definition res_map {A B} (f : A -> B) (r : res A) : res B := match r with Ok x => Ok (f x) | Raise e => Raise e end.
