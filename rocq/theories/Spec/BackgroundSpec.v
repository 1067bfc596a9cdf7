(** Vocabulary for the background properties: solutions of the coded ODEs. *)
From Coq Require Import Reals List String.
From Coquelicot Require Import Coquelicot.
From Verif Require Import Base Model.Potentials Model.Equations Model.Background.
Open Scope R_scope.

(** [y] solves y' = f(x, y) on the open interval (a,b), with [n] components. *)
Definition is_solution (f : R -> list R -> list R) (n : nat) (y : R -> list R) (a b : R) : Prop :=
  forall x, a < x < b ->
    List.length (y x) = n /\
    forall i, (i < n)%nat -> is_derive (fun s => nth i (y s) 0) x (nth i (f x (y x)) 0).

(** the object's dV, d2V, d3V are derivatives of its V at [x] (C01/C02: true of every
    class of potentials.py in its domain) *)
Definition smooth_pot (U : potfun) (x : R) : Prop :=
  is_derive (pV U) x (pdV U x) /\ is_derive (pdV U) x (pd2V U x) /\ is_derive (pd2V U) x (pd3V U x).

(** ** cosmic time: components and Hubble rate along y *)
Definition T_phi te (y : R -> list R) : R -> R := fun s => var (T_idx te) "phi" (y s).
Definition T_dphi te (y : R -> list R) : R -> R := fun s => var (T_idx te) "dphidt" (y s).
Definition T_N te (y : R -> list R) : R -> R := fun s => var (T_idx te) "_N" (y s).
Definition T_eta te (y : R -> list R) : R -> R := fun s => var (T_idx te) "eta" (y s).
Definition T_Hub K U te (y : R -> list R) : R -> R := fun s => sqrt (T_H2 K U te s (y s)).
(** an expanding cosmic-time background: solves the coded ODE, H^2 > 0, V differentiable along it *)
Definition T_background K U te (y : R -> list R) (a b : R) : Prop :=
  is_solution (T_call K U te) (List.length (T_idx te)) y a b /\
  forall t, a < t < b -> 0 < T_H2 K U te t (y t) /\ smooth_pot U (T_phi te y t).

(** the closed-form getters evaluated along y *)
Definition T_dH K U te y : R -> R := fun s => T_get_dH (T_N te y s) (T_Hub K U te y s) (T_dphi te y s) K.
Definition T_d2phi K U te y : R -> R := fun s => T_get_d2phi (T_H2 K U te s (y s)) (T_dphi te y s) (pdV U (T_phi te y s)).
Definition T_d2H K U te y : R -> R := fun s =>
  T_get_d2H (T_N te y s) (T_Hub K U te y s) (T_dH K U te y s) (T_dphi te y s) (T_d2phi K U te y s) K.
Definition T_d3phi K U te y : R -> R := fun s =>
  T_get_d3phi (T_Hub K U te y s) (T_dH K U te y s) (T_d2H K U te y s) (T_dphi te y s) (T_d2phi K U te y s)
              (pdV U (T_phi te y s)) (pd2V U (T_phi te y s)).

(** ** e-folds *)
Definition N_phi tt te (y : R -> list R) : R -> R := fun s => var (N_idx tt te) "phi" (y s).
Definition N_dphi tt te (y : R -> list R) : R -> R := fun s => var (N_idx tt te) "dphidN" (y s).
Definition N_t tt te (y : R -> list R) : R -> R := fun s => var (N_idx tt te) "t" (y s).
Definition N_eta tt te (y : R -> list R) : R -> R := fun s => var (N_idx tt te) "eta" (y s).
Definition N_Hub K U tt te (y : R -> list R) : R -> R := fun s => sqrt (N_H2 K U tt te s (y s)).
Definition N_background K U tt te (y : R -> list R) (a b : R) : Prop :=
  is_solution (N_call K U tt te) (List.length (N_idx tt te)) y a b /\
  forall n, a < n < b -> 0 < N_H2 K U tt te n (y n) /\ (N_dphi tt te y n)^2 <> 6 /\ smooth_pot U (N_phi tt te y n).
Definition N_dH K U tt te y : R -> R := fun s => N_get_dH s (N_Hub K U tt te y s) (N_dphi tt te y s) K.
Definition N_d2phi K U tt te y : R -> R := fun s =>
  let H2 := N_H2 K U tt te s (y s) in
  N_get_d2phi H2 (N_get_dH_H s H2 (N_dphi tt te y s) K) (N_dphi tt te y s) (pdV U (N_phi tt te y s)).
Definition N_d2H K U tt te y : R -> R := fun s =>
  N_get_d2H s (N_Hub K U tt te y s) (N_dH K U tt te y s) (N_dphi tt te y s) (N_d2phi K U tt te y s) K.
Definition N_d3phi K U tt te y : R -> R := fun s =>
  N_get_d3phi (N_Hub K U tt te y s) (N_dH K U tt te y s) (N_d2H K U tt te y s) (N_dphi tt te y s) (N_d2phi K U tt te y s)
              (pdV U (N_phi tt te y s)) (pd2V U (N_phi tt te y s)).
Definition N_d3H K U tt te y : R -> R := fun s =>
  N_get_d3H s (N_Hub K U tt te y s) (N_dH K U tt te y s) (N_d2H K U tt te y s) (N_dphi tt te y s) (N_d2phi K U tt te y s)
            (N_d3phi K U tt te y s) K.
Definition N_d4phi K U tt te y : R -> R := fun s =>
  N_get_d4phi (N_Hub K U tt te y s) (N_dH K U tt te y s) (N_d2H K U tt te y s) (N_d3H K U tt te y s)
              (N_dphi tt te y s) (N_d2phi K U tt te y s) (N_d3phi K U tt te y s)
              (pdV U (N_phi tt te y s)) (pd2V U (N_phi tt te y s)) (pd3V U (N_phi tt te y s)).

(** the same physical state in the other time variable *)
Definition state_T2N (K : R) (U : potfun) (tt te : bool) (t : R) (y : list R) : list R :=
  (var (T_idx te) "phi" y :: var (T_idx te) "dphidt" y / sqrt (T_H2 K U te t y) :: nil)
  ++ (if tt then t :: nil else nil) ++ (if te then var (T_idx te) "eta" y :: nil else nil).
Definition state_N2T (K : R) (U : potfun) (tt te : bool) (n : R) (y : list R) : list R :=
  (var (N_idx tt te) "phi" y :: var (N_idx tt te) "dphidN" y * sqrt (N_H2 K U tt te n y) :: n :: nil)
  ++ (if te then var (N_idx tt te) "eta" y :: nil else nil).
