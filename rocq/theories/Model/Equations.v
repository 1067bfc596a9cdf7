(** Model of /repo/primpy/equations.py: the registry of dependent variables. *)
From Coq Require Import Reals List String Arith.
From Verif Require Import Base.
Import ListNotations.

(** A Python dict with string keys: association list in insertion order. *)
Definition dict (A : Type) := list (string * A).
Fixpoint dict_get {A} (k : string) (d : dict A) : option A :=
  match d with
  | [] => None
  | (k', v) :: t => if String.eqb k k' then Some v else dict_get k t
  end.
(** [d[k] = v]: an existing key keeps its position *)
Fixpoint dict_set {A} (k : string) (v : A) (d : dict A) : dict A :=
  match d with
  | [] => [(k, v)]
  | (k', v') :: t => if String.eqb k k' then (k, v) :: t else (k', v') :: dict_set k v t
  end.
(** [dict(zip(keys, values))]: later duplicates overwrite *)
Definition dict_zip {A} (ks : list string) (vs : list A) : dict A :=
  fold_left (fun d q => dict_set (fst q) (snd q) d) (combine ks vs) [].

(** Equations.idx, equations.py:22-23 *)
Definition idx_map := dict nat.

(** Equations._add_variable, equations.py:97-120: [self.idx[name] = len(self.idx)] *)
Definition add_variable1 (name : string) (idx : idx_map) : idx_map :=
  dict_set name (List.length idx) idx.
(** Equations.add_variable, equations.py:80-95 *)
Definition add_variable (args : list string) (idx : idx_map) : idx_map :=
  fold_left (fun d n => add_variable1 n d) args idx.

(** The accessor method created by _add_variable, equations.py:97-120:
    [np.array(y)[self.idx[name], ...]]; calling a method that was never created is an
    AttributeError, an index beyond the first axis of [y] an IndexError. *)
Definition component {A} (idx : idx_map) (name : string) (y : list A) : res A :=
  match dict_get name idx with
  | None => Raise AttributeError
  | Some i => match nth_error y i with Some v => Ok v | None => Raise IndexError end
  end.

(** position of a variable known to be registered ([self.idx[name]]; for an unknown name Python raises KeyError,
    here the answer is a position outside the state vector) *)
Definition pos_of (idx : idx_map) (name : string) : nat :=
  match dict_get name idx with Some i => i | None => List.length idx end.
(** value of a registered variable in a state vector of sufficient length *)
Definition var (idx : idx_map) (name : string) (y : list R) : R :=
  nth (pos_of idx name) y 0%R.

(** [dy[i] = v] on a list *)
Fixpoint set_nth {A} (i : nat) (v : A) (l : list A) : list A :=
  match l, i with
  | [], _ => []
  | _ :: t, O => v :: t
  | h :: t, S j => h :: set_nth j v t
  end.
