(** Model of /repo/primpy/reheating.py. *)
From Coq Require Import Reals Bool.
From Verif Require Import Base.
Open Scope R_scope.

Definition is_none {A} (o : option A) : bool := match o with None => true | Some _ => false end.
(** [o is not None and o == v] *)
Definition given_eq (o : option R) (v : R) : bool :=
  match o with Some x => if Req_EM_T x v then true else false | None => false end.
(** [o is not None and o != v] *)
Definition given_ne (o : option R) (v : R) : bool :=
  match o with Some x => if Req_EM_T x v then false else true | None => false end.

(** is_instant_reheating, reheating.py:4-58 *)
Definition is_instant_reheating (N_star rho_reh_GeV w_reh DeltaN_reh DeltaN_minus1 : option R) : res bool :=
  if negb (is_none N_star) then Ok false
  else if ((is_none rho_reh_GeV && is_none w_reh && is_none DeltaN_reh && is_none DeltaN_minus1)
           || given_eq w_reh (1/3) || given_eq DeltaN_reh 0 || given_eq DeltaN_minus1 0)%bool
  then
    if (given_ne w_reh (1/3) || given_ne DeltaN_reh 0 || given_ne DeltaN_minus1 0
        || negb (is_none rho_reh_GeV))%bool
    then Raise ValueError
    else Ok true
  else Ok false.
