(** Vocabulary for the properties of the solution object. *)
From Coq Require Import Reals List String.
From Verif Require Import Base Model.Equations Model.Background Model.Float Model.Solution.
Import ListNotations.
Open Scope R_scope.
Open Scope string_scope.

(** Variable names that do not clash with the attributes solve() itself uses or with each other. *)
Definition clash_free (xname : string) (names : list string) : Prop :=
  NoDup (xname :: names) /\
  (forall a, In a (xname :: names) ->
     ~ In a ["x"; "y"; "x_events"; "y_events"; "t_events"; "event_keys"; "independent_variable"]) /\
  (forall a b, In a (xname :: names) -> In b (xname :: names) -> a ++ "_events" <> b).

(** What scipy returns for [n] equations and [k] events: as many states as times, every state
    of length n, one record per event with as many states as times. *)
Definition ivp_ok (n k : nat) (r : raw_sol) : Prop :=
  r_t r <> [] /\ List.length (r_t r) = List.length (r_y r) /\
  List.length (r_t_events r) = k /\ List.length (r_y_events r) = k /\
  (forall j te ye, nth_error (r_t_events r) j = Some te -> nth_error (r_y_events r) j = Some ye ->
     List.length te = List.length ye).

(** the two equation classes of the package *)
Definition inflation_eqs (q : eqs) : Prop :=
  (exists K U te, q = T_eqs K U te) \/ (exists K U tt te, q = N_eqs K U tt te).

(** event kinds, by class and constructor arguments *)
Definition is_collapse (e : event) : bool := match e with Collapse _ => true | _ => false end.
(** an InflationEvent of direction d with flag terminal = term *)
Definition is_inflation (d : Z) (term : bool) (e : event) : bool :=
  match e with Inflation d' term' _ _ => (Z.eqb d d' && Bool.eqb term term')%bool | _ => false end.

(** what was recorded for the (first) tracked event of a kind: abscissae and states *)
Fixpoint record_of (p : event -> bool) (events : list event) (te : list (list R)) (ye : list (list (list R)))
  : list (R * list R) :=
  match events, te, ye with
  | e :: es, t :: ts, y :: ys => if p e then combine t y else record_of p es ts ys
  | _, _, _ => []
  end.
Definition recorded (p : event -> bool) (events : list event) (r : raw_sol) : list (R * list R) :=
  record_of p events (r_t_events r) (r_y_events r).
