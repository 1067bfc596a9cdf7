(** Model of what /repo/bin/bump_version.py does to the two files that declare the version, and of
    the check /repo/tests/test_version.py makes on them.

    Simplifications: files are lists of lines without their newline characters; a version has three
    release numbers and possibly a pre-release tag (see Model/Version.v) and the files declare it in
    its normalised spelling, which is what [parse_ver] reads;
    executing the version file is modelled by its last line of the form __version__ = '...' (the
    other lines are docstring or blank); GNU sed's basic regular expressions are modelled for the
    constructs that occur here (ordinary characters, an unescaped dot, a backslash escape). *)
From Coq Require Import String Ascii Arith List Bool DecimalString.
From Verif Require Import Model.Version.
Import ListNotations.
Open Scope list_scope.

Definition text := list ascii.
Definition lit (s : string) : text := list_ascii_of_string s.
Definition nl : ascii := ascii_of_nat 10.
(** str(version): packaging's normalised spelling, e.g. 2.18.3 or 2.19.0rc1 *)
Definition str_ver (v : version) : text :=
  lit (base_version v ++ match v_pre v with None => "" | Some (tag, n) => tag ++ show n end)%string.

(** ** Python's str.split(ch), str.strip() and str.strip(ch) *)
Fixpoint split (ch : ascii) (s : text) : list text :=
  match s with
  | [] => [[]]
  | c :: r => if Ascii.eqb c ch then [] :: split ch r
              else match split ch r with f :: fs => (c :: f) :: fs | [] => [[c]] end
  end.
Definition is_space (c : ascii) : bool :=
  let n := nat_of_ascii c in (Nat.leb 9 n && Nat.leb n 13) || (Nat.leb 28 n && Nat.leb n 32).
Fixpoint lstrip (p : ascii -> bool) (s : text) : text :=
  match s with c :: r => if p c then lstrip p r else s | [] => [] end.
Definition strip (p : ascii -> bool) (s : text) : text := rev (lstrip p (rev (lstrip p s))).

(** packaging.version.parse on normalised spellings: three numbers separated by dots, the last one
    followed by nothing or by a tag of letters and a number *)
Definition is_digit (c : ascii) : bool := let n := nat_of_ascii c in Nat.leb 48 n && Nat.leb n 57.
Definition is_letter (c : ascii) : bool := let n := nat_of_ascii c in Nat.leb 97 n && Nat.leb n 122.
Fixpoint span (p : ascii -> bool) (s : text) : text * text :=
  match s with [] => ([], []) | c :: r => if p c then let (a, b) := span p r in (c :: a, b) else ([], s) end.
Definition number (s : text) : nat :=
  match NilZero.uint_of_string (string_of_list_ascii s) with Some u => Nat.of_uint u | None => 0 end.
Definition parse_ver (s : text) : version :=
  match split "." s with
  | [a; b; c] => let (u, r) := span is_digit c in let (tag, k) := span is_letter r in
      mkver (number a) (number b) (number u) (match r with [] => None | _ => Some (string_of_list_ascii tag, number k) end)
  | _ => mkver 0 0 0 None
  end.

(** ** sed -i s/OLD/NEW/g, bump_version.py:43-47 *)
(** escaped_version = current_version.replace(".", r"\."), bump_version.py:19 *)
Definition escape (s : text) : text := flat_map (fun c => if Ascii.eqb c "." then ["\"%char; "."%char] else [c]) s.
(** a basic regular expression as a list of one-character matchers; None matches any character *)
Fixpoint compile (re : text) : list (option ascii) :=
  match re with
  | [] => []
  | c :: r => if Ascii.eqb c "\" then match r with d :: r' => Some d :: compile r' | [] => [] end
              else if Ascii.eqb c "." then None :: compile r else Some c :: compile r
  end.
Fixpoint matches (re : list (option ascii)) (s : text) : bool :=
  match re, s with
  | [], _ => true
  | None :: re', _ :: r => matches re' r
  | Some d :: re', c :: r => Ascii.eqb c d && matches re' r
  | _ :: _, [] => false
  end.
(** all leftmost, non-overlapping matches in one line; [skip] counts the characters of a match
    that was just replaced *)
Fixpoint sed_line (re : list (option ascii)) (new : text) (skip : nat) (s : text) : text :=
  match s with
  | [] => []
  | c :: r => match skip with
              | S k => sed_line re new k r
              | O => if matches re s then new ++ sed_line re new (length re - 1) r else c :: sed_line re new 0 r
              end
  end.
Definition sed (re : text) (new : text) (file : list text) : list text := map (sed_line (compile re) new 0) file.

(** ** the script *)
Fixpoint cat (file : list text) : text := match file with [] => [] | l :: r => l ++ nl :: cat r end.
(** current_version.split("=")[-1].strip().strip("'"), bump_version.py:17-18 *)
Definition read_current (vfile : list text) : text :=
  strip (fun c => Ascii.eqb c "'") (strip is_space (last (split "=" (cat vfile)) [])).
(** the whole of bump_version.py:17-47 on (primpy/__version__.py, README.rst) *)
Definition bump_files (kind : string) (files : list text * list text) : list text * list text :=
  let current := read_current (fst files) in
  let new := str_ver (bump kind (parse_ver current)) in
  (sed (escape current) new (fst files), sed (escape current) new (snd files)).

(** ** the check, tests/test_version.py *)
Fixpoint is_prefix (p s : text) : bool :=
  match p, s with [], _ => true | d :: p', c :: r => Ascii.eqb c d && is_prefix p' r | _, [] => false end.
Fixpoint contains (p s : text) : bool := is_prefix p s || match s with [] => false | _ :: r => contains p r end.
(** exec of the version file, test_version.py:7-10: the value of the last assignment *)
Definition assigned (l : text) : option text :=
  if is_prefix (lit "__version__ = '") l
  then match split "'" l with [_; v; []] => Some v | _ => None end else None.
Definition last_some {A} (l : list (option A)) : option A := fold_left (fun acc o => match o with Some x => Some x | None => acc end) l None.
Definition file_version (vfile : list text) : option text := last_some (map assigned vfile).
(** the loop over the lines of README.rst, test_version.py:12-15 *)
Definition readme_line (l : text) : option text :=
  if contains (lit ":Version:") l then Some (strip is_space (nth 2 (split ":" l) [])) else None.
Definition readme_version (readme : list text) : option text := last_some (map readme_line readme).
(** test_version passes, test_version.py:17-19 *)
Definition test_version (files : list text * list text) : Prop :=
  exists a b, file_version (fst files) = Some a /\ readme_version (snd files) = Some b /\ parse_ver a = parse_ver b.
