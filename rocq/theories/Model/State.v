(** State-and-exception monad for the methods that mutate the solution object [sol]
    (inflation.py:463-1590). A Python exception leaves the assignments made before it in place:
    the final object is returned also when an exception is raised. *)
From Coq Require Import Reals List String Bool.
From Verif Require Import Base Model.Equations Model.Float Model.Solution Model.Interp.
Import ListNotations.
Open Scope R_scope.
Open Scope string_scope.

Definition M (A : Type) := attrs -> attrs * res A.
Definition retM {A} (a : A) : M A := fun s => (s, Ok a).
Definition raiseM {A} (e : exn) : M A := fun s => (s, Raise e).
Definition bindM {A B} (m : M A) (f : A -> M B) : M B :=
  fun s => match m s with (s', Ok a) => f a s' | (s', Raise e) => (s', Raise e) end.
Definition liftM {A} (r : res A) : M A := fun s => (s, r).
Notation "x <<- m ; k" := (bindM m (fun x => k)) (at level 100, m at next level, right associativity).
Notation "m ;; k" := (bindM m (fun _ => k)) (at level 100, right associativity).

(** [sol.k = v] *)
Definition setM (k : string) (v : val) : M unit := fun s => (setattr k v s, Ok tt).
Definition setF (k : string) (a : fl) : M unit := setM k (VF a).
(** [sol.k] for a scalar, an array, a mask *)
Definition getF (k : string) : M fl := fun s => (s, get_F s k).
Definition getA (k : string) : M (list fl) := fun s => (s, get_A s k).
Definition getB (k : string) : M (list bool) := fun s => (s, get_B s k).
Definition get_S (s : attrs) (k : string) : res (nat * string * list (R * R)) :=
  do v <- getattr s k; match v with VSpl n e l => Ok (n, e, l) | _ => Raise TypeError end.
Definition getS (k : string) : M (nat * string * list (R * R)) := fun s => (s, get_S s k).
(** [hasattr(sol, k)] *)
Definition hasattr (k : string) : M bool := fun s => (s, Ok (has_key k s)).

(** [x[mask]] for equally long arrays *)
Fixpoint select {A} (m : list bool) (l : list A) : list A :=
  match m, l with
  | b :: m', a :: l' => if b then a :: select m' l' else select m' l'
  | _, _ => []
  end.
(** the entries as reals. Simplification: an array with a NaN or infinity is rejected with
    ValueError where scipy would go on with NaN. *)
Fixpoint reals (l : list fl) : res (list R) :=
  match l with
  | [] => Ok []
  | Fin r :: t => do u <- reals t; Ok (r :: u)
  | _ => Raise ValueError
  end.
(** [interp1d(xs, ys)(x)]; a NaN argument gives NaN, an infinite one is out of bounds *)
Definition interp_fl (xs ys : list fl) (x : fl) : res fl :=
  do xr <- reals xs; do yr <- reals ys;
  match xr with
  | [] => Raise ValueError
  | _ => match x with
         | Fin r => do v <- interp1d (combine xr yr) r; Ok (Fin v)
         | NaN => Ok NaN
         | _ => Raise ValueError
         end
  end.
(** NaN counts as equal to NaN in np.unique *)
Definition same_fl (a b : fl) : bool := (feq a b || (isnan a && isnan b))%bool.
(** [np.isin(np.arange(n), indices)] with [_, indices = np.unique(l, return_index=True)]:
    the positions of first occurrences *)
Fixpoint first_occ (seen l : list fl) : list bool :=
  match l with
  | [] => []
  | a :: t => negb (existsb (same_fl a) seen) :: first_occ (a :: seen) t
  end.
