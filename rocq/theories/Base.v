(** Common real-number infrastructure: Python's [**] operator on reals, numpy's [sign].

    Simplification used everywhere: a Python float is a real number of Coq's
    standard library (no rounding, no overflow). *)
From Coq Require Import Reals ZArith Lra Lia.
From Coquelicot Require Import Coquelicot.
Open Scope R_scope.

(** [np.sign] (used in /repo/primpy/potentials.py:301,308). *)
Definition np_sign (x : R) : R :=
  if Rlt_dec 0 x then 1 else if Rlt_dec x 0 then -1 else 0.

(** Python/numpy [x ** y] for real [x], [y].
    - positive base: the usual real power;
    - zero base: 1 for exponent 0, otherwise 0 (Python raises or numpy returns
      inf for negative exponents: those inputs are excluded by [pow_ok]);
    - negative base: the integer power if the exponent is an integer (otherwise
      numpy returns NaN, Python a complex number: excluded by [pow_ok]). *)
Definition pypow (x y : R) : R :=
  if Rlt_dec 0 x then Rpower x y
  else if Req_EM_T x 0 then (if Req_EM_T y 0 then 1 else 0)
  else if Req_EM_T y (IZR (Int_part y)) then powerRZ x (Int_part y)
  else 0.

(** Inputs on which [x ** y] is an ordinary non-singular real power. *)
Definition pow_ok (x y : R) : Prop :=
  0 < x \/ (x < 0 /\ exists z : Z, y = IZR z).

(** Python exceptions raised by the modelled code (class only, no message). *)
Inductive exn : Type :=
| ValueError | TypeError | KeyError | AttributeError | IndexError | AssertionError
| NotImplementedError | ZeroDivisionError | UnboundLocalError
| PrimpyError | InflationStartError | StepSizeError | InsufficientInflationError | BigBangError
| GenericException | LoggedError.

(** Subclasses of primpy's PrimpyError, exceptionhandling.py:4-70. *)
Definition is_primpy_error (e : exn) : bool :=
  match e with
  | PrimpyError | InflationStartError | StepSizeError | InsufficientInflationError
  | BigBangError => true
  | _ => false
  end.

(** Result of a call: a value or a raised exception. *)
Inductive res (A : Type) : Type :=
| Ok (a : A)
| Raise (e : exn).
Arguments Ok {A} a.
Arguments Raise {A} e.

Definition bind {A B} (m : res A) (f : A -> res B) : res B :=
  match m with Ok a => f a | Raise e => Raise e end.
Notation "'do' x <- m ; k" := (bind m (fun x => k)) (at level 200, x name, m at level 100, k at level 200).
