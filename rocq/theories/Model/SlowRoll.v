(** Model of the slow-roll conversions and the constructor of /repo/primpy/potentials.py.

    Oracles: [root] is [scipy.optimize.root_scalar(f, bracket=(a,b)).root]
    (raises ValueError when it cannot bracket a root), [W] is the real branch
    [scipy.special.lambertw(., -1)]. *)
From Coq Require Import Reals ZArith List String.
From Verif Require Import Base Model.Potentials Model.Interp.
Import ListNotations.
Open Scope R_scope.

(** sys.float_info.epsilon, potentials.py:14 *)
Definition EPS : R := / 2^52.

Section Oracles.
Variable root : (R -> R) -> R -> R -> res R.
Variable W : R -> R.

(** phi_end of every class (cached_property; caching does not change the value) *)
Definition phi_end (P : pot) (L : R) : res R :=
  match P with
  | Monomial p => Ok (mono_phi_end p)
  | Linear => Ok (mono_phi_end 1)
  | Quadratic => Ok (mono_phi_end 2)
  | Cubic => Ok (mono_phi_end 3)
  | Quartic => Ok (mono_phi_end 4)
  | Starobinsky | StarobinskyGaussianDip _ _ _ | StarobinskyTanhStep _ _ _ => Ok star_phi_end
  | Natural phi0 => Ok (nat_phi_end phi0)
  | DoubleWell p phi0 =>                       (* potentials.py:820-825 *)
      root (fun phi => dw_eps1 p phi0 phi - 1) (EPS * phi0) phi0
  | DoubleWell2 phi0 => Ok (dw2_phi_end phi0)
  | DoubleWell4 phi0 =>                        (* inherited, potentials.py:820-825 *)
      root (fun phi => dw_eps1 4 phi0 phi - 1) (EPS * phi0) phi0
  | Tmodel p alpha => Ok (tm_phi_end p alpha)
  | RadionGauge p alpha =>                     (* potentials.py:1145-1150 *)
      root (fun phi => rg_eps1 p alpha phi - 1) (/ 10^30) (rg_inv_V p alpha L (L^4 * (1 - EPS)))
  | RadionGauge2 alpha => Ok (rg2_phi_end alpha)
  end.

(** sr_phi2N of every class *)
Definition sr_phi2N (P : pot) (L phi : R) : res R :=
  match P with
  | Monomial p => Ok (mono_phi2N p phi)
  | Linear => Ok (mono_phi2N 1 phi)
  | Quadratic => Ok (mono_phi2N 2 phi)
  | Cubic => Ok (mono_phi2N 3 phi)
  | Quartic => Ok (mono_phi2N 4 phi)
  | Starobinsky | StarobinskyGaussianDip _ _ _ | StarobinskyTanhStep _ _ _ => Ok (star_phi2N phi)
  | Natural phi0 => Ok (nat_phi2N phi0 phi)
  | DoubleWell p phi0 => do e <- phi_end P L; Ok (dw_phi2N p phi0 e phi)
  | DoubleWell2 phi0 => do e <- phi_end P L; Ok (dw_phi2N 2 phi0 e phi)
  | DoubleWell4 phi0 => do e <- phi_end P L; Ok (dw_phi2N 4 phi0 e phi)
  | Tmodel p alpha => Ok (tm_phi2N p alpha phi)
  | RadionGauge p alpha => do e <- phi_end P L; Ok (rg_phi2N p alpha e phi)
  | RadionGauge2 alpha => do e <- phi_end P L; Ok (rg_phi2N 2 alpha e phi)
  end.

(** np.linspace(0, phi0, 100001)[1:-1], potentials.py:842 *)
Definition dw_grid (phi0 : R) : list R :=
  map (fun k => INR k * (phi0 / 100000)) (seq 1 (Z.to_nat 99999)).

(** DoubleWellPotential.sr_N2phi, potentials.py:840-845; [phi_e] is the object's phi_end *)
Definition dw_N2phi (p phi0 phi_e N : R) : res R :=
  interp1d (map (fun phi => (dw_phi2N p phi0 phi_e phi, phi)) (dw_grid phi0)) N.

(** sr_N2phi of every class *)
Definition sr_N2phi (P : pot) (L N : R) : res R :=
  match P with
  | Monomial p => Ok (mono_N2phi p N)
  | Linear => Ok (mono_N2phi 1 N)
  | Quadratic => Ok (mono_N2phi 2 N)
  | Cubic => Ok (mono_N2phi 3 N)
  | Quartic => Ok (mono_N2phi 4 N)
  | Starobinsky | StarobinskyGaussianDip _ _ _ | StarobinskyTanhStep _ _ _ => Ok (star_N2phi W N)
  | Natural phi0 => Ok (nat_N2phi phi0 N)
  | DoubleWell p phi0 => do e <- phi_end P L; dw_N2phi p phi0 e N
  | DoubleWell2 phi0 => do e <- phi_end P L; dw_N2phi 2 phi0 e N
  | DoubleWell4 phi0 => do e <- phi_end P L; dw_N2phi 4 phi0 e N
  | Tmodel p alpha => Ok (tm_N2phi p alpha N)
  | RadionGauge p alpha =>                     (* potentials.py:1159-1164 *)
      do e <- phi_end P L;
      root (fun phi => rg_phi2N p alpha e phi - N) e (rg_inv_V p alpha L (L^4 * (1 - / 10^15)))
  | RadionGauge2 alpha => do e <- phi_end P L; Ok (rg2_N2phi alpha e N)
  end.

(** InflationaryPotential.sr_As2Lambda, potentials.py:231-276.
    [None] is Python's None; [sr_phi2N(None)] raises TypeError.
    The returned triple is (Lambda, phi_star, N_star). *)
Definition sr_As2Lambda (P : pot) (L A_s : R) (phi_star N_star : option R) : res (R * R * R) :=
  do pn <- match N_star, phi_star with
           | None, Some phi => do N <- sr_phi2N P L phi; Ok (phi, N)
           | None, None => Raise TypeError
           | Some N, None => do phi <- sr_N2phi P L N; Ok (phi, N)
           | Some _, Some _ => Raise GenericException
           end;
  let (phi, N) := (pn : R * R) in
  let e1 := eps1V P phi in
  let H2 := V P L phi / 3 in
  let A_s0 := H2 / (8 * PI^2 * e1) in
  let Lambda := L * pypow (A_s / A_s0) (1/4) in
  Ok (Lambda, phi, N).

(* ------------------------------------------------------------------ *)
(** ** Constructors: keyword arguments as an association list without duplicate keys *)
Definition kwargs := list (string * R).

Fixpoint get (k : string) (l : kwargs) : option R :=
  match l with
  | [] => None
  | (k', v) :: t => if String.eqb k k' then Some v else get k t
  end.
Definition remove (k : string) (l : kwargs) : kwargs :=
  filter (fun q => negb (String.eqb k (fst q))) l.
Definition has (k : string) (l : kwargs) : bool :=
  match get k l with Some _ => true | None => false end.

(** [self.x = pot_kwargs.pop('x')]: KeyError if absent *)
Definition pop (k : string) (l : kwargs) : res (R * kwargs) :=
  match get k l with Some v => Ok (v, remove k l) | None => Raise KeyError end.

(** the concrete classes without their parameters *)
Inductive klass :=
| KMonomial | KLinear | KQuadratic | KCubic | KQuartic | KStarobinsky | KNatural
| KDoubleWell | KDoubleWell2 | KDoubleWell4 | KTmodel | KRadionGauge | KRadionGauge2
| KStarobinskyGaussianDip | KStarobinskyTanhStep.

(** a subclass calling [super().__init__(p=.., **pot_kwargs)]: a second 'p' is a TypeError *)
Definition fixed_p (l : kwargs) (k : res (pot * kwargs)) : res (pot * kwargs) :=
  if has "p" l then Raise TypeError else k.

(** the part of each [__init__] that reads the class's own parameters:
    potentials.py:287-289, 366-367, 394-397, 442-443, 470-471, 499-500, 626-628, 751-754,
    859-860, 908-909, 968-972, 1075-1079, 1194-1195, 1356-1360 *)
Definition own_params (c : klass) (l : kwargs) : res (pot * kwargs) :=
  match c with
  | KMonomial => do q <- pop "p" l; Ok (Monomial (fst q), snd q)
  | KLinear => fixed_p l (Ok (Linear, l))
  | KQuadratic => if has "mass" l then Raise ValueError else fixed_p l (Ok (Quadratic, l))
  | KCubic => fixed_p l (Ok (Cubic, l))
  | KQuartic => fixed_p l (Ok (Quartic, l))
  | KStarobinsky => Ok (Starobinsky, l)
  | KNatural => do q <- pop "phi0" l; Ok (Natural (fst q), snd q)
  | KDoubleWell =>
      do q <- pop "phi0" l; do q' <- pop "p" (snd q);
      Ok (DoubleWell (fst q') (fst q), snd q')
  | KDoubleWell2 => fixed_p l (do q <- pop "phi0" l; Ok (DoubleWell2 (fst q), snd q))
  | KDoubleWell4 => fixed_p l (do q <- pop "phi0" l; Ok (DoubleWell4 (fst q), snd q))
  | KTmodel =>
      do q <- pop "p" l; do q' <- pop "alpha" (snd q);
      Ok (Tmodel (fst q) (fst q'), snd q')
  | KRadionGauge =>
      do q <- pop "p" l; do q' <- pop "alpha" (snd q);
      Ok (RadionGauge (fst q) (fst q'), snd q')
  | KRadionGauge2 => fixed_p l (do q <- pop "alpha" l; Ok (RadionGauge2 (fst q), snd q))
  | KStarobinskyGaussianDip =>
      do q <- pop "phi_feature" l; do q' <- pop "a_feature" (snd q);
      do q'' <- pop "b_feature" (snd q');
      Ok (StarobinskyGaussianDip (fst q) (fst q') (fst q''), snd q'')
  | KStarobinskyTanhStep =>
      do q <- pop "phi_feature" l; do q' <- pop "a_feature" (snd q);
      do q'' <- pop "b_feature" (snd q');
      Ok (StarobinskyTanhStep (fst q) (fst q') (fst q''), snd q'')
  end.

(** InflationaryPotential.__init__, potentials.py:20-36. Values are real numbers
    (never None); the warning about a given Lambda is not modelled. *)
Definition base_init (P : pot) (l : kwargs) : res R :=
  let L0 := match get "Lambda" l with Some v => v | None => 1 end in
  let l1 := remove "Lambda" l in
  do Ll <- (if has "A_s" l1 then
              if andb (negb (has "N_star" l1)) (negb (has "phi_star" l1)) then Raise PrimpyError
              else
                do qa <- pop "A_s" l1;
                let l2 := snd qa in
                let N_star := get "N_star" l2 in
                let l3 := remove "N_star" l2 in
                let phi_star := get "phi_star" l3 in
                let l4 := remove "phi_star" l3 in
                do t <- sr_As2Lambda P L0 (fst qa) phi_star N_star;
                Ok (fst (fst t), l4)
            else Ok (L0, l1));
  match snd Ll with
  | [] => Ok (fst Ll)
  | _ :: _ => Raise GenericException
  end.

(** calling the class: returns the object's class data and amplitude *)
Definition construct (c : klass) (l : kwargs) : res (pot * R) :=
  do Pl <- own_params c l;
  do L <- base_init (fst Pl) (snd Pl);
  Ok (fst Pl, L).
End Oracles.
