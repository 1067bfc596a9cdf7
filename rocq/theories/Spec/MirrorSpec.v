(** Vocabulary for C106: a change of the field coordinate, phi -> g phi + c with g = 1 or g = -1
    (a reflection, a shift of the origin of field space, or both). *)
From Coq Require Import Reals List String.
From Verif Require Import Base Model.Potentials Model.Equations Model.Background Model.Float Model.Solution Model.Perturbations Model.Oscode.
Import ListNotations.
Open Scope R_scope.

Definition is_sign (g : R) : Prop := g = 1 \/ g = -1.
(** the same potential as a function of the new coordinate x = g phi + c *)
Definition pot_moved (g c : R) (U : potfun) : potfun :=
  mkpotfun (fun x => pV U (g * (x - c))) (fun x => g * pdV U (g * (x - c))) (fun x => pd2V U (g * (x - c))) (fun x => g * pd3V U (g * (x - c))).
(** the same state: the field and its velocity are the first two components in both formulations *)
Definition state_moved (g c : R) (y : list R) : list R :=
  match y with phi :: p :: rest => g * phi + c :: g * p :: rest | _ => y end.
(** velocities of states *)
Definition rate_moved (g : R) (dy : list R) : list R :=
  match dy with v :: a :: rest => g * v :: g * a :: rest | _ => dy end.
(** a row of the background table, and the whole table *)
Definition sample_moved (g c : R) (x : sample) : sample :=
  mksample (s_N x) (s_H x) (g * s_phi x + c) (g * s_dphidt x) (g * s_dphidN x) (s_OmK x).
Definition bg_moved (g c : R) (b : obg) : obg :=
  mkobg (ob_K b) (pot_moved g c (ob_U b)) (ob_x b) (map (sample_moved g c) (ob_s b)) (ob_logaH b) (ob_logaH_star b) (ob_indep b) (ob_ic b).
