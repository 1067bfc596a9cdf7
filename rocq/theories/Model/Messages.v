(** Model of the message texts of /repo/primpy/exceptionhandling.py:92-171 as the background
    post-processing (inflation.py:413, 425, 446) builds them.

    Simplifications: '%g' of a float and '%s' of a dictionary of events are arbitrary functions into
    strings; the messages handed over are '' as in inflation.py. *)
From Coq Require Import Reals List String Bool.
From Verif Require Import Base Model.Float Model.Potentials Model.Equations Model.Background Model.Solution.
Import ListNotations.
Open Scope R_scope.
Open Scope string_scope.

Section Messages.
Variables (fmt_g : fl -> string) (fmt_s : dict (list R) -> string).

(** CollapseWarning.__init__, exceptionhandling.py:100-103 *)
Definition collapse_message (message : string) : string := "Universe has collapsed." ++ " " ++ message.

(** InflationStartWarning.__init__, exceptionhandling.py:119-132 *)
Definition start_message (events : option (dict (list R))) (message : string) : string :=
  let header := "Inflation start not determined." in
  match events with
  | None => header ++ ". " ++ message
  | Some d =>
      if start_warning_untracked d then
        header ++ ": " ++ ("Not tracking `InflationEvent`. Events tracked are " ++ fmt_s d ++ ". In order to determine the start of inflation `_N_beg`, make sure to track the event `InflationEvent(equations, direction=+1)` defined in `primpy.events`")
        ++ ". " ++ message
      else header ++ ". " ++ message
  end.

(** a[-1] *)
Definition last_of {A} (l : list A) : res A := match rev l with a :: _ => Ok a | [] => Raise IndexError end.
(** InflationEndWarning.__init__, exceptionhandling.py:150-171 *)
Definition end_message (events : option (dict (list R))) (sol : option attrs) (message : string) : res string :=
  let header := "Inflation end not determined" in
  match events with
  | None => Ok (header ++ ". " ++ message)
  | Some d =>
      if end_warning_untracked d then
        Ok (header ++ ": " ++ ("Not tracking `InflationEvent`. Events tracked are " ++ fmt_s d ++ ". In order to determine the end of inflation `_N_end`, make sure to track the event `InflationEvent(equations, direction=-1)` defined in `primpy.events`")
            ++ ". " ++ message)
      else match sol with
      | None => Ok (header ++ ". " ++ message)
      | Some s =>
          do ws <- get_A s "w"; do w <- last_of ws;
          if flt w (Fin (-1/3)) then
            do Ns <- get_A s "_N"; do n <- last_of Ns;
            do ps <- get_A s "phi"; do p <- last_of ps;
            Ok (header ++ ": " ++ ("Still inflating: N[-1]=" ++ fmt_g n ++ ", phi[-1]=" ++ fmt_g p ++ ", w[-1]=" ++ fmt_g w) ++ ". " ++ message)
          else Ok (header ++ ". " ++ message)
      end
  end.

(** str(warning) for a warning issued while post-processing the solution [s]; the attributes it
    reads (_N_events, w, _N, phi) are set before and not changed afterwards *)
Definition warning_message (s : attrs) (w : warning) : res string :=
  match w with
  | CollapseWarning => Ok (collapse_message "")
  | InflationStartWarning _ => do d <- get_DT s "_N_events"; Ok (start_message (Some d) "")
  | InflationEndWarning _ => do d <- get_DT s "_N_events"; end_message (Some d) (Some s) ""
  end.
End Messages.
