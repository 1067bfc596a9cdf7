(** Vocabulary for C122: what a positive entry of a spectrum is, when the Hamiltonian-diagonalisation vacuum is
    defined, and an integrator that is exact over the window solve_oscode selects. *)
From Coq Require Import Reals List String.
From Coquelicot Require Import Coquelicot.
From Verif Require Import Base Model.Potentials Model.Equations Model.Background Model.Float Model.Perturbations Model.Oscode Spec.BackgroundSpec Spec.PerturbationSpec Spec.OscodeSpec Spec.SpectrumSpec
  Properties.ModeProps.
Import ListNotations.
Open Scope R_scope.

(** neither NaN nor infinite nor zero *)
Definition positive_number (x : fl) : Prop := match x with Fin p => 0 < p | _ => False end.

(** the conformal frequency of the HD vacuum is real and positive *)
Definition real_HD (time tensor : bool) (K k : R) (U : potfun) (s : sample) : Prop :=
  match time, tensor with
  | true, false => 0 < Ts_HD_wk K k U s | true, true => 0 < Tt_HD_wk K k s
  | false, false => 0 < Ns_HD_wk K k U s | false, true => 0 < Nt_HD_wk K k s end.

(** whatever window of samples solve_oscode selects for the wavenumber k, it is not reversed and the integrator
    is exact over it, for scalar and tensor modes *)
Definition exact_over_window osc (time : bool) (K : R) (U : potfun) (samp : R -> sample) (a b : R) (X : list R) (bg : obg) (fb fe k : R) : Prop :=
  forall i j, window (ob_logaH bg) (map s_N (ob_s bg)) k fb fe = Ok (i, j) -> (i <= j)%nat /\
    exists xi xj xs, nth_error X i = Some xi /\ nth_error X j = Some xj /\ is_range xs X i j /\
      forall tensor : bool, integrates_exactly osc (fun x => damp time tensor K k U (samp x)) (fun x => freq2 time tensor K k U (samp x)) a b xs xi xj.
