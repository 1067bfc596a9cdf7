(** Vocabulary for the properties of solve_oscode: windows of sample indices. *)
From Coq Require Import Reals List String.
From Coquelicot Require Import Coquelicot.
From Verif Require Import Base.
Open Scope R_scope.

(** j is the first / last of the indices 0..n-1 with property P *)
Definition first_index (P : nat -> Prop) (n j : nat) : Prop :=
  (j < n)%nat /\ P j /\ forall i, (i < j)%nat -> ~ P i.
Definition last_index (P : nat -> Prop) (n j : nat) : Prop :=
  (j < n)%nat /\ P j /\ forall i, (j < i < n)%nat -> ~ P i.

(** at sample i the scale 1/k is smaller than the comoving horizon 1/(aH) by more than [fac] *)
Definition inside_by (logaH : list R) (k fac : R) (i : nat) : Prop := k > exp (nth i logaH 0) * fac.
(** at sample i the scale 1/k exceeds the comoving horizon by more than [fac] *)
Definition outside_by (logaH : list R) (k fac : R) (i : nat) : Prop := exp (nth i logaH 0) > k * fac.
(** sample i lies more than ten e-folds after sample b *)
Definition ten_after (Ns : list R) (b i : nat) : Prop := nth i Ns 0 - nth b Ns 0 > 10.

(** the first sample of the window *)
Definition window_begin (logaH : list R) (k fac_beg : R) (i : nat) : Prop :=
  (fac_beg = 0 -> i = 0%nat) /\
  (fac_beg <> 0 ->
     last_index (inside_by logaH k fac_beg) (List.length logaH) i \/
     ((forall j, (j < List.length logaH)%nat -> ~ inside_by logaH k fac_beg j) /\ i = 0%nat)).
(** the last sample of the window *)
Definition window_end (logaH Ns : list R) (k fac_end : R) (i j : nat) : Prop :=
  exists c, first_index (outside_by logaH k fac_end) (List.length logaH) c /\
    (nth c Ns 0 - nth i Ns 0 >= 10 -> j = c) /\
    (nth c Ns 0 - nth i Ns 0 < 10 -> first_index (ten_after Ns i) (List.length Ns) j).

Definition increasing (l : list R) : Prop :=
  forall i j, (i < j < List.length l)%nat -> nth i l 0 < nth j l 0.

(** xs are the samples number i, i+1, ..., j of l *)
Definition is_range {A} (xs l : list A) (i j : nat) : Prop :=
  List.length xs = S (j - i) /\ forall m, (m <= j - i)%nat -> nth_error xs m = nth_error l (i + m).
