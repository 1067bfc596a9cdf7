(** Vocabulary for C18/C19: chains of successive derivatives of a smooth history and
    the relation between cosmic-time and e-fold derivatives (dN = H dt). *)
From Coq Require Import Reals List.
From Coquelicot Require Import Coquelicot.
Open Scope R_scope.

(** [f1], [f2], [f3] are the successive derivatives of [f] on (a,b) *)
Definition chain3 (f f1 f2 f3 : R -> R) (a b : R) : Prop :=
  forall x, a < x < b -> is_derive f x (f1 x) /\ is_derive f1 x (f2 x) /\ is_derive f2 x (f3 x).
Definition chain4 (f f1 f2 f3 f4 : R -> R) (a b : R) : Prop :=
  chain3 f f1 f2 f3 a b /\ forall x, a < x < b -> is_derive f3 x (f4 x).

(** the same expansion history: N(t) with dN/dt = H, and H as a function of t and of N *)
Definition same_history (HT : R -> R) (a b : R) (HN : R -> R) (n0 n1 : R) (Nf : R -> R) : Prop :=
  forall t, a < t < b -> 0 < HT t /\ n0 < Nf t < n1 /\ is_derive Nf t (HT t) /\ HT t = HN (Nf t).
