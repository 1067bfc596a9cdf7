(** Vocabulary for the properties of calibrate_scale_factor. *)
From Coq Require Import Reals List String ZArith Bool.
From Verif Require Import Base Model.Equations Model.Float Model.Solution Model.ApproxPower Model.Calibrate.
Import ListNotations.
Open Scope R_scope.
Open Scope string_scope.

(** attribute [k] of the solution object is the finite number [x] / the array of finite numbers [l] *)
Definition scal (s : attrs) (k : string) (x : R) : Prop := dict_get k s = Some (VF (Fin x)).
Definition arr (s : attrs) (k : string) (l : list R) : Prop := dict_get k s = Some (VA (map Fin l)).

(** physical constants are positive *)
Definition consts_ok (C : consts) : Prop :=
  0 < K_STAR C /\ 0 < Mpc_m C /\ 0 < lp_m C /\ 0 < mp_GeV C /\ 0 < lp_iGeV C /\ 0 < T_CMB_Tp C /\ 0 < g0 C /\ 0 < c_light C.

(** the data of an inflating background: e-folds and Hubble parameter per sample, which samples
    are used, begin and end of inflation, H and V at the end *)
Record bg := mkbg {
  b_K : R; b_N : list R; b_H : list R; b_mask : list bool;
  b_beg : R; b_end : R; b_Hbeg : R; b_Hend : R; b_Vend : R }.
(** log(aH) per sample *)
Fixpoint logaH_of (N H : list R) : list R :=
  match N, H with n :: N', h :: H' => (n + ln h) :: logaH_of N' H' | _, _ => [] end.
Definition logaH (b : bg) : list R := logaH_of (b_N b) (b_H b).
(** (N, H) of the samples in use *)
Fixpoint used (N H : list R) (m : list bool) : list (R * R) :=
  match N, H, m with
  | n :: N', h :: H', true :: m' => (n, h) :: used N' H' m'
  | _ :: N', _ :: H', false :: m' => used N' H' m'
  | _, _, _ => []
  end.

(** a solution object on which inflation began and ended *)
Definition background (s : attrs) (b : bg) : Prop :=
  scal s "K" (b_K b) /\ arr s "_N" (b_N b) /\ arr s "H" (b_H b) /\ arr s "_logaH" (logaH b) /\
  dict_get "inflation_mask" s = Some (VB (b_mask b)) /\
  scal s "_N_beg" (b_beg b) /\ scal s "_N_end" (b_end b) /\ scal s "N_tot" (b_end b - b_beg b) /\
  scal s "H_end" (b_Hend b) /\ scal s "V_end" (b_Vend b) /\
  scal s "_logaH_beg" (b_beg b + ln (b_Hbeg b)) /\ scal s "_logaH_end" (b_end b + ln (b_Hend b)) /\
  List.length (b_H b) = List.length (b_N b) /\ List.length (b_mask b) = List.length (b_N b) /\
  Forall (fun h => 0 < h) (b_H b) /\ 0 < b_Hbeg b /\ 0 < b_Hend b /\ 0 < b_Vend b /\
  (** the samples in use lie inside inflation *)
  Forall (fun p => b_beg b < fst p < b_end b) (used (b_N b) (b_H b) (b_mask b)).

(** numeric keyword arguments that make physical sense *)
Definition sane (a : calargs) : Prop :=
  0 < ca_g_th a /\ (forall rho, ca_rho_reh_GeV a = Some rho -> 0 < rho).
