(** C111: bumping the version keeps the two files that declare it consistent. *)
From Coq Require Import String Ascii Arith List Bool Lia DecimalString DecimalNat.
From Verif Require Import Model.Version Model.Release Properties.VersionProps.
Import ListNotations.
Open Scope list_scope.

(** ** Characters of a version string *)
Definition ver_char (c : ascii) : bool := is_digit c || is_letter c || Ascii.eqb c ".".
(** packaging's pre-release tags *)
Definition valid (v : version) : Prop := match v_pre v with None => True | Some (tag, _) => In tag ["a"; "b"; "rc"]%string end.

Lemma lit_app a b : lit (a ++ b)%string = lit a ++ lit b.
Proof. induction a as [|c a IH]; [reflexivity|]. cbn. f_equal. exact IH. Qed.
Lemma uint_digits d : Forall (fun c => is_digit c = true) (lit (NilEmpty.string_of_uint d)).
Proof. induction d; cbn; constructor; try exact IHd; reflexivity. Qed.
Lemma show_digits n : Forall (fun c => is_digit c = true) (lit (show n)) /\ lit (show n) <> [].
Proof.
  unfold show, NilZero.string_of_uint. destruct (Nat.to_uint n) eqn:E.
  - split; [repeat constructor|discriminate].
  - split; [exact (uint_digits (Decimal.D0 u))|discriminate].
  - split; [exact (uint_digits (Decimal.D1 u))|discriminate].
  - split; [exact (uint_digits (Decimal.D2 u))|discriminate].
  - split; [exact (uint_digits (Decimal.D3 u))|discriminate].
  - split; [exact (uint_digits (Decimal.D4 u))|discriminate].
  - split; [exact (uint_digits (Decimal.D5 u))|discriminate].
  - split; [exact (uint_digits (Decimal.D6 u))|discriminate].
  - split; [exact (uint_digits (Decimal.D7 u))|discriminate].
  - split; [exact (uint_digits (Decimal.D8 u))|discriminate].
  - split; [exact (uint_digits (Decimal.D9 u))|discriminate].
Qed.
Lemma digits_ver s : Forall (fun c => is_digit c = true) s -> Forall (fun c => ver_char c = true) s.
Proof. intros H. eapply Forall_impl; [|exact H]. intros c E. unfold ver_char. rewrite E. reflexivity. Qed.
Lemma str_chars v : valid v -> Forall (fun c => ver_char c = true) (str_ver v).
Proof.
  intros V. unfold str_ver, base_version. rewrite !lit_app.
  assert (D : forall n, Forall (fun c => ver_char c = true) (lit (show n))) by (intros n; apply digits_ver, show_digits).
  apply Forall_app. split; [repeat (apply Forall_app; split); try apply D; repeat constructor|].
  unfold valid in V. destruct (v_pre v) as [[tag n]|]; [|constructor]. rewrite lit_app. apply Forall_app. split; [|apply D].
  destruct V as [<-|[<-|[<-|[]]]]; repeat constructor.
Qed.
Lemma str_head v : exists c r, str_ver v = c :: r /\ is_digit c = true.
Proof.
  unfold str_ver, base_version. rewrite !lit_app. destruct (show_digits (v_major v)) as [F N]. destruct (lit (show (v_major v))) as [|c r]; [contradiction|].
  inversion F; subst. eexists _, _. split; [reflexivity|assumption].
Qed.
Lemma ver_char_not v c x : valid v -> In c (str_ver v) -> ver_char x = false -> c <> x.
Proof. intros V I F E. subst. pose proof (proj1 (Forall_forall _ _) (str_chars v V) x I). congruence. Qed.

(** ** Splitting *)
Lemma split_none ch s : (forall c, In c s -> c <> ch) -> split ch s = [s].
Proof.
  induction s as [|c r IH]; intros H; [reflexivity|]. cbn. destruct (Ascii.eqb_spec c ch) as [E|_]; [exfalso; exact (H c (or_introl eq_refl) E)|].
  rewrite IH by (intros; apply H; right; assumption). reflexivity.
Qed.
Lemma split_app ch a b : split ch (a ++ ch :: b) = split ch a ++ split ch b.
Proof.
  induction a as [|c r IH]; cbn; [rewrite Ascii.eqb_refl; reflexivity|].
  destruct (Ascii.eqb c ch); [rewrite IH; reflexivity|]. rewrite IH.
  assert (N : split ch r <> []) by (destruct r; cbn; [discriminate|destruct (Ascii.eqb a ch); [discriminate|destruct (split ch r); discriminate]]).
  destruct (split ch r) as [|f fs]; [contradiction|]. reflexivity.
Qed.
Lemma split_nonnil ch s : split ch s <> [].
Proof. destruct s; cbn; [discriminate|]. destruct (Ascii.eqb a ch); [discriminate|destruct (split ch s); discriminate]. Qed.
Fixpoint join (ch : ascii) (fs : list text) : text := match fs with [] => [] | [f] => f | f :: r => f ++ ch :: join ch r end.
Lemma join_split ch s : join ch (split ch s) = s.
Proof.
  induction s as [|c r IH]; [reflexivity|]. cbn. pose proof (split_nonnil ch r) as N. destruct (Ascii.eqb_spec c ch) as [->|_].
  - cbn. destruct (split ch r) as [|f fs]; [contradiction|]. cbn [List.app]. f_equal. exact IH.
  - destruct (split ch r) as [|f fs]; [contradiction|]. cbn. destruct fs; cbn in *; rewrite <- IH; reflexivity.
Qed.
Lemma split_fields ch s f c : In f (split ch s) -> In c f -> c <> ch.
Proof.
  revert f. induction s as [|d r IH]; intros f; cbn; [intros [<-|[]] []|].
  destruct (Ascii.eqb_spec d ch) as [->|N].
  - intros [<-|H]; [intros []|exact (IH f H)].
  - pose proof (split_nonnil ch r). destruct (split ch r) as [|g gs]; [contradiction|]. intros [<-|H'] I.
    + destruct I as [<-|I]; [exact N|]. exact (IH g (or_introl eq_refl) I).
    + exact (IH f (or_intror H') I).
Qed.
Lemma split_cons_app ch a b : (forall c, In c a -> c <> ch) -> split ch (a ++ ch :: b) = a :: split ch b.
Proof. intros H. rewrite split_app, split_none by exact H. reflexivity. Qed.
Lemma join_app ch fs gs : fs <> [] -> gs <> [] -> join ch (fs ++ gs) = join ch fs ++ ch :: join ch gs.
Proof.
  intros F G. induction fs as [|f fs IH]; [contradiction|]. destruct fs as [|f' fs].
  - cbn. destruct gs; [contradiction|reflexivity].
  - change (f ++ ch :: join ch ((f' :: fs) ++ gs) = (f ++ ch :: join ch (f' :: fs)) ++ ch :: join ch gs).
    rewrite IH by discriminate. rewrite <- app_assoc. reflexivity.
Qed.

(** ** Occurrences *)
Lemma is_prefix_spec p s : is_prefix p s = true <-> exists r, s = p ++ r.
Proof.
  revert s. induction p as [|d p IH]; intros s; cbn; [split; [exists s; reflexivity|reflexivity]|].
  destruct s as [|c r]; [split; [discriminate|intros [x E]; discriminate]|]. rewrite andb_true_iff, IH. split.
  - intros [E [x ->]]. apply Ascii.eqb_eq in E. subst. exists x. reflexivity.
  - intros [x E]. injection E as -> ->. split; [apply Ascii.eqb_refl|exists x; reflexivity].
Qed.
Lemma contains_spec p s : contains p s = true <-> exists a b, s = a ++ p ++ b.
Proof.
  induction s as [|c r IH]; cbn.
  - rewrite orb_false_r, is_prefix_spec. split.
    + intros [x E]. exists [], x. exact E.
    + intros (a & b & E). destruct a; [|discriminate]. exists b. exact E.
  - rewrite orb_true_iff, is_prefix_spec, IH. split.
    + intros [[x E]|(a & b & ->)]; [exists [], x; exact E|exists (c :: a), b; reflexivity].
    + intros (a & b & E). destruct a as [|a0 a]; [left; exists b; exact E|]. right. injection E as -> ->. exists a, b. reflexivity.
Qed.
Definition Ver : text := lit "Version".
(** a line contains ":Version:" iff an inner colon-separated field is the word Version *)
Lemma contains_fields s : contains (lit ":Version:") s = true <-> exists f g, f <> [] /\ g <> [] /\ split ":" s = f ++ Ver :: g.
Proof.
  rewrite contains_spec. split.
  - intros (a & b & E). exists (split ":" a), (split ":" b). split; [apply split_nonnil|]. split; [apply split_nonnil|].
    change (s = a ++ ":"%char :: (Ver ++ ":"%char :: b)) in E. rewrite E, split_app, split_cons_app; [reflexivity|].
    intros c I. cbn in I. repeat (destruct I as [<-|I]; [discriminate|]). destruct I.
  - intros (f & g & F & G & E). exists (join ":" f), (join ":" g). rewrite <- (join_split ":" s), E.
    rewrite join_app by (try exact F; discriminate). change (Ver :: g) with ([Ver] ++ g). rewrite join_app by (try exact G; discriminate). reflexivity.
Qed.

(** ** What sed does with an escaped version *)
Lemma compile_escape o : (forall c, In c o -> c <> "\"%char) -> compile (escape o) = map Some o.
Proof.
  induction o as [|c o IH]; intros H; [reflexivity|]. cbn. assert (I := IH (fun d D => H d (or_intror D))). unfold escape in I.
  destruct (Ascii.eqb_spec c ".") as [->|N]; cbn; [rewrite I; reflexivity|].
  destruct (Ascii.eqb_spec c "\") as [E|_]; [exfalso; exact (H c (or_introl eq_refl) E)|].
  destruct (Ascii.eqb_spec c ".") as [E|_]; [contradiction|]. rewrite I. reflexivity.
Qed.
Lemma matches_lit o s : matches (map Some o) s = is_prefix o s.
Proof. revert s. induction o as [|d o IH]; intros [|c r]; cbn; try reflexivity. rewrite IH. reflexivity. Qed.
Section Sed.
Variables (o n : text).
Hypothesis Oh : exists c r, o = c :: r /\ is_digit c = true.
Hypothesis Nh : exists c r, n = c :: r /\ is_digit c = true.
Notation repl := (sed_line (map Some o) n).
Lemma repl_eq k s : repl k s = match s with [] => [] | c :: r => match k with S k' => repl k' r
  | O => if is_prefix o s then n ++ repl (length o - 1) r else c :: repl 0 r end end.
Proof. destruct s; [reflexivity|]. cbn. destruct k; [|reflexivity]. rewrite matches_lit, map_length. reflexivity. Qed.
Lemma repl_skip k s : k <= length s -> repl k s = repl 0 (skipn k s).
Proof.
  revert s. induction k as [|k IH]; intros s L; [reflexivity|]. destruct s as [|c r]; [reflexivity|]. rewrite (repl_eq (S k) (c :: r)). cbn [skipn]. apply IH. cbn in L. lia.
Qed.
Lemma prefix_length p s : is_prefix p s = true -> length p <= length s.
Proof. rewrite is_prefix_spec. intros [r ->]. rewrite app_length. lia. Qed.
Lemma prefix_sep p ch f r : (forall c, In c p -> c <> ch) -> is_prefix p (f ++ ch :: r) = is_prefix p f.
Proof.
  revert f. induction p as [|d p IH]; intros f H; [reflexivity|]. destruct f as [|c f]; cbn.
  - destruct (Ascii.eqb_spec ch d) as [E|_]; [exfalso; exact (H d (or_introl eq_refl) (eq_sym E))|reflexivity].
  - rewrite IH by (intros; apply H; right; assumption). reflexivity.
Qed.
(** the replacement acts on each separated field by itself *)
Lemma repl_sep ch r : (forall c, In c o -> c <> ch) -> forall f k, k <= length f -> repl k (f ++ ch :: r) = repl k f ++ ch :: repl 0 r.
Proof.
  intros H f. induction f as [|c f IH]; intros k L.
  - destruct k; [|cbn in L; lia]. change ([] ++ ch :: r) with (ch :: r). rewrite (repl_eq 0 (ch :: r)). rewrite (prefix_sep o ch [] r H : is_prefix o (ch :: r) = is_prefix o []).
    destruct Oh as (d & q & -> & _). reflexivity.
  - change ((c :: f) ++ ch :: r) with (c :: (f ++ ch :: r)). rewrite (repl_eq k (c :: f ++ ch :: r)), (repl_eq k (c :: f)). destruct k as [|k].
    + rewrite (prefix_sep o ch (c :: f) r H : is_prefix o (c :: f ++ ch :: r) = is_prefix o (c :: f)).
      destruct (is_prefix o (c :: f)) eqn:E.
      * apply prefix_length in E. cbn in E. rewrite IH by lia. rewrite app_assoc. reflexivity.
      * rewrite IH by lia. reflexivity.
    + apply IH. cbn in L. lia.
Qed.
Lemma repl_split ch s : (forall c, In c o -> c <> ch) -> (forall c, In c n -> c <> ch) -> split ch (repl 0 s) = map (repl 0) (split ch s).
Proof.
  intros H G. rewrite <- (join_split ch s) at 1. assert (F : forall f, In f (split ch s) -> forall c, In c f -> c <> ch) by (intros f I c J; exact (split_fields ch s f c I J)).
  pose proof (split_nonnil ch s) as N. induction (split ch s) as [|f fs IH]; [contradiction|].
  assert (P : forall c, In c (repl 0 f) -> c <> ch).
  { assert (Q : forall g k c, In c (repl k g) -> In c g \/ In c n).
    { induction g as [|d g IHg]; intros k c; rewrite repl_eq; [intros []|]. destruct k as [|k].
      - destruct (is_prefix o (d :: g)); [rewrite in_app_iff; intros [I|I]; [right; exact I|]|intros [<-|I]; [left; left; reflexivity|]]; destruct (IHg _ _ I) as [J|J]; [left; right; exact J|right; exact J|left; right; exact J|right; exact J].
      - intros I. destruct (IHg _ _ I) as [J|J]; [left; right; exact J|right; exact J]. }
    intros c I. destruct (Q f 0 c I) as [J|J]; [exact (F f (or_introl eq_refl) c J)|exact (G c J)]. }
  destruct fs as [|f' fs].
  - cbn [join map]. apply split_none, P.
  - change (join ch (f :: f' :: fs)) with (f ++ ch :: join ch (f' :: fs)). rewrite repl_sep by (try exact H; lia).
    rewrite split_cons_app by exact P. cbn [map]. f_equal. apply IH; [|discriminate]. intros g I. apply F. right. exact I.
Qed.
(** text without digits is left alone *)
Definition no_digit (s : text) : Prop := forall c, In c s -> is_digit c = false.
Lemma prefix_no_digit s r : no_digit s -> s <> [] -> is_prefix o (s ++ r) = false.
Proof.
  intros H N. destruct s as [|c s]; [contradiction|]. destruct Oh as (d & q & -> & D). cbn.
  destruct (Ascii.eqb_spec c d) as [->|_]; [|reflexivity]. rewrite (H d (or_introl eq_refl)) in D. discriminate.
Qed.
Lemma repl_no_digit s r : no_digit s -> repl 0 (s ++ r) = s ++ repl 0 r.
Proof.
  induction s as [|c s IH]; intros H; [reflexivity|]. rewrite (repl_eq 0 ((c :: s) ++ r)). rewrite prefix_no_digit by (try exact H; discriminate).
  cbn [List.app]. f_equal. apply IH. intros d D. apply H. right. exact D.
Qed.
Lemma repl_same s : no_digit s -> repl 0 s = s.
Proof. intros H. rewrite <- (app_nil_r s) at 1. rewrite repl_no_digit by exact H. apply app_nil_r. Qed.
(** an occurrence surrounded by text without digits *)
Lemma repl_here a b : no_digit a -> no_digit b -> repl 0 (a ++ o ++ b) = a ++ n ++ b.
Proof.
  intros A B. rewrite repl_no_digit by exact A. f_equal. destruct (o ++ b) as [|c r] eqn:E; [destruct Oh as (d & q & Eo & _); rewrite Eo in E; discriminate|].
  rewrite repl_eq, <- E. assert (P : is_prefix o (o ++ b) = true) by (apply is_prefix_spec; exists b; reflexivity). rewrite P. f_equal.
  assert (L : length r = length o + length b - 1) by (pose proof (f_equal (@length ascii) E) as Q; rewrite app_length in Q; cbn in Q; lia).
  assert (O1 : 1 <= length o) by (destruct Oh as (d & q & -> & _); cbn; lia).
  rewrite repl_skip by lia. replace (skipn (length o - 1) r) with b; [apply repl_same, B|].
  destruct Oh as (d & q & Eo & _). rewrite Eo in E. injection E as _ <-. rewrite Eo. cbn [length]. replace (S (length q) - 1) with (length q) by lia.
  rewrite skipn_app, skipn_all, Nat.sub_diag. reflexivity.
Qed.
(** either nothing happens or a digit appears *)
Lemma repl_alternative s : repl 0 s = s \/ exists c, In c (repl 0 s) /\ is_digit c = true.
Proof.
  induction s as [|c s IH]; [left; reflexivity|]. rewrite repl_eq. destruct (is_prefix o (c :: s)).
  - right. destruct Nh as (d & q & -> & D). exists d. split; [left; reflexivity|exact D].
  - destruct IH as [->|(d & I & D)]; [left; reflexivity|right; exists d; split; [right; exact I|exact D]].
Qed.
Lemma repl_word w s : no_digit w -> (repl 0 s = w <-> s = w).
Proof.
  intros H. split; [|intros ->; apply repl_same, H]. destruct (repl_alternative s) as [->|(c & I & D)]; [auto|]. intros <-. rewrite (H c I) in D. discriminate.
Qed.
(** lines that do not mention the old version *)
Lemma repl_absent s : contains o s = false -> repl 0 s = s.
Proof.
  induction s as [|c s IH]; intros H; [reflexivity|]. cbn in H. apply orb_false_iff in H. destruct H as [P Q]. rewrite repl_eq. cbn [is_prefix] in *. rewrite P. f_equal. apply IH, Q.
Qed.
End Sed.

(** ** Stripping *)
Lemma lstrip_spec p s : exists w, (forall c, In c w -> p c = true) /\ s = w ++ lstrip p s.
Proof.
  induction s as [|c s (w & W & E)]; [exists []; split; [intros c []|reflexivity]|]. cbn. destruct (p c) eqn:P.
  - exists (c :: w). split; [intros d [<-|I]; [exact P|exact (W d I)]|cbn; f_equal; exact E].
  - exists []. split; [intros d []|reflexivity].
Qed.
Lemma strip_spec p s : exists a b, (forall c, In c a -> p c = true) /\ (forall c, In c b -> p c = true) /\ s = a ++ strip p s ++ b.
Proof.
  destruct (lstrip_spec p s) as (a & A & E). destruct (lstrip_spec p (rev (lstrip p s))) as (b & B & F).
  exists a, (rev b). split; [exact A|]. split; [intros c I; apply B; apply in_rev; exact I|].
  rewrite E at 1. f_equal. rewrite <- (rev_involutive (lstrip p s)), F at 1. rewrite rev_app_distr. reflexivity.
Qed.
Lemma lstrip_app p a s : (forall c, In c a -> p c = true) -> (forall c r, s = c :: r -> p c = false) -> lstrip p (a ++ s) = s.
Proof.
  intros A S. induction a as [|c a IH]; cbn.
  - destruct s as [|c r]; [reflexivity|]. cbn. rewrite (S c r eq_refl). reflexivity.
  - rewrite (A c (or_introl eq_refl)). apply IH. intros d I. apply A. right. exact I.
Qed.
Lemma strip_app p a s b : (forall c, In c a -> p c = true) -> (forall c, In c b -> p c = true) -> s <> [] -> (forall c, In c s -> p c = false) -> strip p (a ++ s ++ b) = s.
Proof.
  intros A B N S. unfold strip. rewrite lstrip_app; [|exact A|].
  - rewrite rev_app_distr, lstrip_app; [apply rev_involutive| |].
    + intros c I. apply B. apply in_rev. exact I.
    + intros c r E. apply S. apply in_rev. rewrite E. left. reflexivity.
  - intros c r E. destruct s as [|d s]; [contradiction|]. injection E as -> _. apply S. left. reflexivity.
Qed.

(** ** Reading a version back *)
Lemma number_show n : number (lit (show n)) = n.
Proof.
  unfold number, lit, show. rewrite string_of_list_ascii_of_string.
  assert (N : Nat.to_uint n <> Decimal.Nil) by (intros E; pose proof (Unsigned.of_to n) as O; rewrite E in O; cbn in O; subst n; discriminate E).
  rewrite NilZero.usu by exact N. apply Unsigned.of_to.
Qed.
Lemma span_all p s r : Forall (fun c => p c = true) s -> (forall c q, r = c :: q -> p c = false) -> span p (s ++ r) = (s, r).
Proof.
  intros H Q. induction H as [|c s Hc _ IH]; cbn.
  - destruct r as [|c q]; [reflexivity|]. cbn. rewrite (Q c q eq_refl). reflexivity.
  - rewrite Hc, IH. reflexivity.
Qed.
Lemma parse_str v : valid v -> parse_ver (str_ver v) = v.
Proof.
  intros V. destruct v as [M m u p]. unfold valid in V. cbn [v_pre] in V. unfold str_ver, base_version. cbn [v_major v_minor v_micro v_pre].
  assert (ND : forall n c, In c (lit (show n)) -> c <> "."%char).
  { intros n c I E. subst c. pose proof (proj1 (Forall_forall _ _) (proj1 (show_digits n)) _ I). discriminate. }
  set (pre := match p with Some (tag, n) => (tag ++ show n)%string | None => ""%string end).
  assert (NP : forall c, In c (lit pre) -> c <> "."%char).
  { unfold pre. destruct p as [[tag n]|]; [|intros c []]. intros c I. rewrite lit_app in I. apply in_app_or in I. destruct I as [I|I]; [|exact (ND n c I)].
    destruct V as [<-|[<-|[<-|[]]]]; cbn in I; repeat (destruct I as [<-|I]; [discriminate|]); destruct I. }
  rewrite !lit_app. change (lit ".") with ["."%char]. rewrite <- !app_assoc. cbn [List.app].
  unfold parse_ver. rewrite !split_cons_app by apply ND. rewrite split_none by (intros c I; apply in_app_or in I; destruct I as [I|I]; [exact (ND u c I)|exact (NP c I)]).
  assert (HP : forall c q, lit pre = c :: q -> is_digit c = false).
  { unfold pre. destruct p as [[tag n]|]; [|discriminate]. intros c q E. rewrite lit_app in E. destruct V as [<-|[<-|[<-|[]]]]; injection E as <- _; reflexivity. }
  rewrite span_all by (try apply show_digits; exact HP). unfold pre. destruct p as [[tag n]|].
  - rewrite lit_app. assert (L : Forall (fun c => is_letter c = true) (lit tag)) by (destruct V as [<-|[<-|[<-|[]]]]; repeat constructor).
    assert (DL : forall c q, lit (show n) = c :: q -> is_letter c = false).
    { intros c q E. destruct (show_digits n) as [F _]. rewrite E in F. inversion F; subst. unfold is_letter, is_digit in *.
      destruct (Nat.leb_spec 97 (nat_of_ascii c)); [|reflexivity]. apply andb_prop in H1. destruct H1 as [_ H1]. apply Nat.leb_le in H1. lia. }
    rewrite span_all by (try exact L; exact DL). rewrite !number_show.
    assert (NE : lit tag ++ lit (show n) <> []) by (destruct V as [<-|[<-|[<-|[]]]]; discriminate).
    destruct (lit tag ++ lit (show n)) eqn:E; [contradiction|]. unfold lit. rewrite string_of_list_ascii_of_string. reflexivity.
  - cbn. rewrite !number_show. reflexivity.
Qed.

(** ** C111 *)
(** the version file ends with the assignment of the version, and the README declares it *)
Definition assignment (v : version) : text := lit "__version__ = '" ++ str_ver v ++ lit "'".
Definition declares (v : version) (files : list text * list text) : Prop :=
  (exists head, fst files = head ++ [assignment v]) /\ readme_version (snd files) = Some (str_ver v).

Lemma cat_app a b : cat (a ++ b) = cat a ++ cat b.
Proof. induction a as [|l a IH]; cbn; [reflexivity|]. rewrite IH, <- app_assoc. reflexivity. Qed.
Lemma last_app {A} (l m : list A) d : m <> [] -> last (l ++ m) d = last m d.
Proof. intros N. induction l as [|x l IH]; [reflexivity|]. cbn. rewrite IH. destruct (l ++ m) eqn:E; [apply app_eq_nil in E; destruct E; contradiction|reflexivity]. Qed.
Lemma ver_no c v : valid v -> In c (str_ver v) -> is_space c = false /\ c <> "="%char /\ c <> ":"%char /\ c <> "'"%char /\ c <> "\"%char.
Proof.
  intros V I. pose proof (proj1 (Forall_forall _ _) (str_chars v V) c I) as H. repeat split; try (intros ->; discriminate H).
  unfold ver_char, is_digit, is_letter in H. unfold is_space. destruct (Ascii.eqb_spec c ".") as [->|N]; [reflexivity|]. rewrite orb_false_r in H.
  destruct (Nat.leb_spec 9 (nat_of_ascii c)), (Nat.leb_spec (nat_of_ascii c) 13), (Nat.leb_spec 28 (nat_of_ascii c)), (Nat.leb_spec (nat_of_ascii c) 32),
    (Nat.leb_spec 48 (nat_of_ascii c)), (Nat.leb_spec 97 (nat_of_ascii c)); cbn in *; try reflexivity; try discriminate; try lia; rewrite ?andb_false_r in H; try discriminate.
Qed.
Lemma str_nonnil v : str_ver v <> [].
Proof. destruct (str_head v) as (c & r & -> & _). discriminate. Qed.
Lemma read_assignment v head : valid v -> read_current (head ++ [assignment v]) = str_ver v.
Proof.
  intros V. unfold read_current. rewrite cat_app.
  assert (E : cat head ++ cat [assignment v] = (cat head ++ lit "__version__ ") ++ "="%char :: ([" "; "'"]%char ++ str_ver v ++ ["'"%char; nl])).
  { cbn [cat]. unfold assignment. rewrite <- !app_assoc. reflexivity. }
  rewrite E, split_app. rewrite last_app by apply split_nonnil. rewrite split_none.
  - cbn [last]. assert (S1 : strip is_space ([" "; "'"]%char ++ str_ver v ++ ["'"%char; nl]) = ["'"%char] ++ str_ver v ++ ["'"%char]).
    { replace ([" "; "'"]%char ++ str_ver v ++ ["'"%char; nl]) with ([" "%char] ++ (["'"%char] ++ str_ver v ++ ["'"%char]) ++ [nl]) by (rewrite <- !app_assoc; reflexivity).
      apply strip_app; [intros c [<-|[]]; reflexivity|intros c [<-|[]]; reflexivity|discriminate|].
      intros c I. apply in_app_or in I. destruct I as [[<-|[]]|I]; [reflexivity|]. apply in_app_or in I. destruct I as [I|[<-|[]]]; [apply (ver_no c v V I)|reflexivity]. }
    rewrite S1. apply strip_app; [intros c [<-|[]]; reflexivity|intros c [<-|[]]; reflexivity|apply str_nonnil|].
    intros c I. apply Ascii.eqb_neq. apply (ver_no c v V I).
  - intros c I E'. subst c. apply in_app_or in I. destruct I as [[I|[I|[]]]|I]; try discriminate. apply in_app_or in I. destruct I as [I|[I|[I|[]]]]; try discriminate.
    destruct (ver_no _ v V I) as (_ & N & _). apply N. reflexivity.
Qed.
Lemma last_some_app {A} (l : list (option A)) x : last_some (l ++ [Some x]) = Some x.
Proof. unfold last_some. rewrite fold_left_app. reflexivity. Qed.
Lemma assigned_assignment v : valid v -> assigned (assignment v) = Some (str_ver v).
Proof.
  intros V. unfold assigned. assert (P : is_prefix (lit "__version__ = '") (assignment v) = true) by (apply is_prefix_spec; eexists; reflexivity). rewrite P.
  replace (assignment v) with (lit "__version__ = " ++ "'"%char :: (str_ver v ++ "'"%char :: [])) by (unfold assignment; change (lit "__version__ = '") with (lit "__version__ = " ++ ["'"%char]); rewrite <- app_assoc; reflexivity).
  rewrite split_cons_app by (intros c I; cbn in I; repeat (destruct I as [<-|I]; [discriminate|]); destruct I).
  rewrite split_cons_app by (intros c I; apply (ver_no c v V I)). reflexivity.
Qed.
Lemma file_declared v files : valid v -> declares v files -> file_version (fst files) = Some (str_ver v).
Proof.
  intros V [[head ->] _]. unfold file_version. rewrite map_app. cbn [map]. rewrite assigned_assignment by exact V. apply last_some_app.
Qed.
(** before and after sed the same lines count as version lines, and the declared version is replaced *)
Lemma readme_line_sed v w l : valid v -> valid w ->
  readme_line (sed_line (map Some (str_ver v)) (str_ver w) 0 l) =
  match readme_line l with None => None | Some _ => Some (strip is_space (sed_line (map Some (str_ver v)) (str_ver w) 0 (nth 2 (split ":" l) []))) end.
Proof.
  intros V W. unfold readme_line. set (repl := sed_line (map Some (str_ver v)) (str_ver w) 0).
  assert (SP : split ":" (repl l) = map repl (split ":" l)) by (apply repl_split; [apply str_head|intros c I; apply (ver_no c v V I)|intros c I; apply (ver_no c w W I)]).
  assert (VD : no_digit Ver) by (intros c I; cbn in I; repeat (destruct I as [<-|I]; [reflexivity|]); destruct I).
  assert (CE : contains (lit ":Version:") (repl l) = contains (lit ":Version:") l).
  { apply Bool.eq_iff_eq_true. rewrite !contains_fields, SP. split.
    - intros (f & g & F & G & E). apply map_eq_app in E. destruct E as (f1 & g1 & E1 & <- & E2). apply map_eq_cons in E2. destruct E2 as (x & g2 & -> & EV & <-).
      assert (X : x = Ver) by (apply (repl_word (str_ver v) (str_ver w) (str_head v) (str_head w) Ver x VD); exact EV). subst x.
      exists f1, g2. split; [destruct f1; [exact F|discriminate]|]. split; [destruct g2; [exact G|discriminate]|exact E1].
    - intros (f & g & F & G & ->). exists (map repl f), (map repl g). split; [destruct f; [contradiction|discriminate]|]. split; [destruct g; [contradiction|discriminate]|].
      rewrite map_app. cbn [map]. f_equal. f_equal. apply (repl_word (str_ver v) (str_ver w) (str_head v) (str_head w) Ver Ver VD). reflexivity. }
  rewrite CE. destruct (contains (lit ":Version:") l); [|reflexivity]. rewrite SP. f_equal. f_equal. change [] with (repl []) at 1. apply map_nth.
Qed.
Lemma readme_sed v w readme : valid v -> valid w -> readme_version readme = Some (str_ver v) ->
  readme_version (map (sed_line (map Some (str_ver v)) (str_ver w) 0) readme) = Some (str_ver w).
Proof.
  intros V W. unfold readme_version. induction readme as [|l ls IH] using rev_ind; [discriminate|].
  rewrite !map_app. unfold last_some. rewrite !fold_left_app. cbn [map fold_left]. rewrite readme_line_sed by assumption.
  unfold readme_line. destruct (contains (lit ":Version:") l); [|exact IH]. intros E. injection E as E. f_equal.
  destruct (strip_spec is_space (nth 2 (split ":" l) [])) as (a & b & A & B & F). rewrite E in F. rewrite F.
  assert (ND : forall s, (forall c, In c s -> is_space c = true) -> no_digit s).
  { intros s H c I. specialize (H c I). unfold is_space in H. unfold is_digit. destruct (Nat.leb_spec 48 (nat_of_ascii c)); [|reflexivity].
    destruct (Nat.leb_spec (nat_of_ascii c) 13), (Nat.leb_spec (nat_of_ascii c) 32); cbn in *; try lia; rewrite ?andb_false_r in H; discriminate. }
  rewrite repl_here by (try apply str_head; apply ND; assumption).
  apply strip_app; [exact A|exact B|apply str_nonnil|]. intros c I. apply (ver_no c w W I).
Qed.
Lemma bump_valid kind v : valid (bump kind v).
Proof. unfold bump. repeat destruct (String.eqb _ _); exact I. Qed.

(** the script reads the current version, both files declare the bumped version afterwards, and
    the version check passes *)
Theorem C111_bump : forall kind v files, valid v -> declares v files ->
  declares (bump kind v) (bump_files kind files) /\ test_version (bump_files kind files).
Proof.
  intros kind v files V D. pose proof D as [[head E] R]. set (w := bump kind v). assert (W : valid w) by apply bump_valid.
  assert (B : bump_files kind files = (map (sed_line (map Some (str_ver v)) (str_ver w) 0) (fst files), map (sed_line (map Some (str_ver v)) (str_ver w) 0) (snd files))).
  { assert (RC : read_current (fst files) = str_ver v) by (rewrite E; apply read_assignment, V). unfold bump_files, sed. rewrite RC, parse_str by exact V. fold w.
    rewrite compile_escape by (intros c I; apply (ver_no c v V I)). reflexivity. }
  assert (D' : declares w (bump_files kind files)).
  { rewrite B. split; cbn [fst snd].
    - exists (map (sed_line (map Some (str_ver v)) (str_ver w) 0) head). rewrite E, map_app. cbn [map]. f_equal. f_equal. unfold assignment.
      apply repl_here; [apply str_head|..]; intros c I; cbn in I; repeat (destruct I as [<-|I]; [reflexivity|]); destruct I.
    - apply readme_sed; assumption. }
  split; [exact D'|]. exists (str_ver w), (str_ver w). split; [exact (file_declared w _ W D')|]. split; [apply D'|reflexivity].
Qed.
(** ... after any sequence of bumps *)
Theorem C111_history : forall kinds v files, valid v -> declares v files ->
  declares (fold_left (fun u k => bump k u) kinds v) (fold_left (fun f k => bump_files k f) kinds files) /\
  (kinds <> [] -> test_version (fold_left (fun f k => bump_files k f) kinds files)).
Proof.
  intros kinds. induction kinds as [|k ks IH] using rev_ind; intros v files V D; [split; [exact D|contradiction]|].
  rewrite !fold_left_app. cbn [fold_left]. destruct (IH v files V D) as [D' _].
  assert (V' : valid (fold_left (fun u k => bump k u) ks v)) by (destruct ks as [|a ks _] using rev_ind; [exact V|rewrite fold_left_app; apply bump_valid]).
  destruct (C111_bump k _ _ V' D') as [D2 T]. split; [exact D2|intros _; exact T].
Qed.

(** the lines that do not mention the current version are untouched, and no line is added or lost *)
Theorem C111_other_lines : forall kind v files, valid v -> declares v files ->
  length (fst (bump_files kind files)) = length (fst files) /\ length (snd (bump_files kind files)) = length (snd files) /\
  forall i l, (nth_error (fst files) i = Some l -> contains (str_ver v) l = false -> nth_error (fst (bump_files kind files)) i = Some l) /\
    (nth_error (snd files) i = Some l -> contains (str_ver v) l = false -> nth_error (snd (bump_files kind files)) i = Some l).
Proof.
  intros kind v files V [[head E] _]. assert (RC : read_current (fst files) = str_ver v) by (rewrite E; apply read_assignment, V).
  unfold bump_files, sed. rewrite RC, parse_str by exact V. rewrite compile_escape by (intros c I; apply (ver_no c v V I)). cbn [fst snd].
  rewrite !map_length. split; [reflexivity|]. split; [reflexivity|]. intros i l.
  split; intros H C; erewrite map_nth_error by exact H; rewrite repl_absent by exact C; reflexivity.
Qed.
(** the files of the pinned commit: __version__.py as a whole and the first lines of README.rst *)
Definition repo_files : list text * list text :=
  ([lit """""""Version file for primpy."""""""; []; lit "__version__ = '2.18.3'"],
   [lit "================================================"; lit "primpy: calculations for the primordial Universe"; lit "================================================"; lit ":primpy: calculations for the primordial Universe"; lit ":Author: Lukas Hergt"; lit ":Version: 2.18.3"]).
Theorem C111_nonvacuous : valid (mkver 2 18 3 None) /\ declares (mkver 2 18 3 None) repo_files /\
  bump_files "minor" repo_files = ([lit """""""Version file for primpy."""""""; []; lit "__version__ = '2.19.0'"],
   [lit "================================================"; lit "primpy: calculations for the primordial Universe"; lit "================================================"; lit ":primpy: calculations for the primordial Universe"; lit ":Author: Lukas Hergt"; lit ":Version: 2.19.0"]).
Proof.
  split; [exact I|]. split; [|vm_compute; reflexivity]. split; [|vm_compute; reflexivity].
  exists [lit """""""Version file for primpy."""""""; []]. reflexivity.
Qed.
(** what is not true: that only the declaration changes. Any text that contains the characters of
    the current version is rewritten as well, e.g. a requirement on another package *)
Definition only_declaration_changes : Prop := forall kind v files i l, valid v -> declares v files ->
  nth_error (snd files) i = Some l -> contains (lit ":Version:") l = false -> nth_error (snd (bump_files kind files)) i = Some l.
Theorem C111_only_declaration_refuted : ~ only_declaration_changes.
Proof.
  intros H.
  set (files := ([lit "__version__ = '2.18.3'"], [lit ":Version: 2.18.3"; lit "requires astropy 12.18.31"])).
  assert (D : declares (mkver 2 18 3 None) files) by (split; [exists []; reflexivity|vm_compute; reflexivity]).
  specialize (H "micro"%string (mkver 2 18 3 None) files 1 (lit "requires astropy 12.18.31") I D eq_refl eq_refl).
  vm_compute in H. discriminate.
Qed.
