(** Model of the version tools /repo/bin/bump_version.py and /repo/bin/utils.py.

    Simplifications: a version of packaging.version has exactly three release components (no
    epoch, post, dev or local part) and possibly a pre-release tag; base_version is then the
    string major.minor.micro. Python's string order is the lexicographic order of code points. *)
From Coq Require Import String Ascii Arith List Bool DecimalString Decimal.
Open Scope string_scope.

Record version := mkver { v_major : nat; v_minor : nat; v_micro : nat; v_pre : option (string * nat) }.
Definition show (n : nat) : string := NilZero.string_of_uint (Nat.to_uint n).
(** Version.base_version *)
Definition base_version (v : version) : string :=
  show (v_major v) ++ "." ++ show (v_minor v) ++ "." ++ show (v_micro v).

(** bump_version.py:29-44; an unknown update type leaves the numbers unchanged; a pre-release tag is dropped *)
Definition bump (kind : string) (v : version) : version :=
  if String.eqb kind "micro" then mkver (v_major v) (v_minor v) (v_micro v + 1) None
  else if String.eqb kind "minor" then mkver (v_major v) (v_minor v + 1) 0 None
  else if String.eqb kind "major" then mkver (v_major v + 1) 0 0 None
  else mkver (v_major v) (v_minor v) (v_micro v) None.

(** unit_incremented(a, b), utils.py:12-35 *)
Definition unit_incremented (a b : version) : bool :=
  match v_pre a, v_pre b with
  | Some (ta, na), Some (tb, nb) =>
      if String.eqb ta tb then Nat.eqb na (nb + 1) && String.eqb (base_version a) (base_version b)
      else Nat.eqb na 0 && String.ltb tb ta && String.eqb (base_version a) (base_version b)
  | Some (_, na), None => String.ltb (base_version b) (base_version a) && Nat.eqb na 0
  | None, Some _ => String.eqb (base_version a) (base_version b)
  | None, None =>
      (Nat.eqb (v_micro a) (v_micro b + 1) && Nat.eqb (v_minor a) (v_minor b) && Nat.eqb (v_major a) (v_major b))
      || (Nat.eqb (v_micro a) 0 && Nat.eqb (v_minor a) (v_minor b + 1) && Nat.eqb (v_major a) (v_major b))
      || (Nat.eqb (v_micro a) 0 && Nat.eqb (v_minor a) 0 && Nat.eqb (v_major a) (v_major b + 1))
  end%bool.
