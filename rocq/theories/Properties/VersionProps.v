(** Version tools: C72, C73. *)
From Coq Require Import String Ascii Arith List Bool Lia DecimalString Decimal DecimalNat.
From Verif Require Import Model.Version.
Open Scope string_scope.

Definition release (v : version) : Prop := v_pre v = None.
(** C72: accepted increments between releases are exactly the three bumps *)
Theorem C72_bumps_accepted :
  forall v, release v -> forall kind, In kind ("micro" :: "minor" :: "major" :: nil) -> unit_incremented (bump kind v) v = true.
Proof.
  intros [M m u p] R kind H. unfold release in R; cbn in R; subst p.
  destruct H as [<-|[<-|[<-|[]]]]; cbn [bump String.eqb Ascii.eqb Bool.eqb v_major v_minor v_micro]; unfold unit_incremented; cbn [v_pre v_major v_minor v_micro].
  - rewrite !Nat.eqb_refl. reflexivity.
  - rewrite !Nat.eqb_refl. cbn [Nat.eqb]. rewrite orb_true_r. reflexivity.
  - rewrite !Nat.eqb_refl. cbn [Nat.eqb andb]. rewrite orb_true_r. reflexivity.
Qed.
Theorem C72_nothing_else :
  forall a b, release a -> release b -> unit_incremented a b = true ->
  exists kind, In kind ("micro" :: "minor" :: "major" :: nil) /\ a = bump kind b.
Proof.
  intros [M m u p] [M' m' u' p'] R R' E. unfold release in R, R'; cbn in R, R'; subst p p'. unfold unit_incremented in E; cbn [v_pre v_major v_minor v_micro] in E.
  apply orb_prop in E. destruct E as [E|E]; [apply orb_prop in E; destruct E as [E|E]|];
    apply andb_prop in E; destruct E as [E E3]; apply andb_prop in E; destruct E as [E1 E2]; apply Nat.eqb_eq in E1, E2, E3; subst.
  - exists "micro". split; [left; reflexivity|reflexivity].
  - exists "minor". split; [right; left; reflexivity|reflexivity].
  - exists "major". split; [right; right; left; reflexivity|reflexivity].
Qed.
(** the bumped version is strictly larger in the order of releases, and no bump is accepted twice *)
Definition later (a b : version) : Prop :=
  v_major b < v_major a \/ (v_major a = v_major b /\ (v_minor b < v_minor a \/ (v_minor a = v_minor b /\ v_micro b < v_micro a))).
Theorem C72_bump_is_later :
  forall v kind, In kind ("micro" :: "minor" :: "major" :: nil) -> later (bump kind v) v.
Proof.
  intros v kind H. unfold later. destruct H as [<-|[<-|[<-|[]]]]; cbn [bump String.eqb Ascii.eqb Bool.eqb v_major v_minor v_micro]; lia.
Qed.
Theorem C72_nonvacuous : unit_incremented (mkver 2 16 0 None) (mkver 2 15 9 None) = true /\ unit_incremented (mkver 2 16 1 None) (mkver 2 15 9 None) = false.
Proof. split; reflexivity. Qed.

(** ** C73: first pre-release of a later base version *)
Definition first_pre (v : version) : Prop := exists tag, v_pre v = Some (tag, 0).
(** one-digit components *)
Definition small (v : version) : Prop := v_major v < 10 /\ v_minor v < 10 /\ v_micro v < 10.
Definition digit (n : nat) : ascii := ascii_of_nat (48 + n).
Lemma show_digit n : n < 10 -> show n = String (digit n) "".
Proof. intros H. do 10 (destruct n as [|n]; [reflexivity|]). lia. Qed.
Lemma digit_compare a b : a < 10 -> b < 10 -> Ascii.compare (digit a) (digit b) = Nat.compare a b.
Proof. intros A B. do 10 (destruct a as [|a]; [do 10 (destruct b as [|b]; [reflexivity|]); lia|]). lia. Qed.
Lemma base_small v : small v -> base_version v = String (digit (v_major v)) (String "." (String (digit (v_minor v)) (String "." (String (digit (v_micro v)) "")))).
Proof. intros (A & B & C). unfold base_version. rewrite !show_digit by assumption. reflexivity. Qed.
Lemma base_lt a b : small a -> small b -> (String.ltb (base_version b) (base_version a) = true <-> later a b).
Proof.
  intros SA SB. rewrite !base_small by assumption. destruct SA as (A1 & A2 & A3), SB as (B1 & B2 & B3).
  unfold String.ltb. cbn [String.compare]. rewrite !digit_compare by assumption. unfold later.
  destruct (Nat.compare_spec (v_major b) (v_major a)) as [E|E|E]; [|split; [lia|reflexivity]|split; [discriminate|lia]].
  change (Ascii.compare "." ".") with Eq. cbv iota.
  destruct (Nat.compare_spec (v_minor b) (v_minor a)) as [E'|E'|E']; [|split; [lia|reflexivity]|split; [discriminate|lia]].
  destruct (Nat.compare_spec (v_micro b) (v_micro a)) as [E3|E3|E3]; [|split; [lia|reflexivity]|]; split; try discriminate; lia.
Qed.
Theorem C73_prerelease_partial :
  forall a b, small a -> small b -> first_pre a -> release b -> (unit_incremented a b = true <-> later a b).
Proof.
  intros a b SA SB [tag P] R. unfold unit_incremented. rewrite P, R. rewrite andb_comm. cbn [Nat.eqb andb]. apply base_lt; assumption.
Qed.
Theorem C73_prerelease_refuted :
  ~ (forall a b, first_pre a -> release b -> later a b -> unit_incremented a b = true) /\
  ~ (forall a b, first_pre a -> release b -> unit_incremented a b = true -> later a b).
Proof.
  split; intros C.
  - specialize (C (mkver 2 10 0 (Some ("a", 0))) (mkver 2 9 0 None) (ex_intro _ "a" eq_refl) eq_refl). enough (false = true) by discriminate. apply C. right. cbn. lia.
  - specialize (C (mkver 2 9 0 (Some ("a", 0))) (mkver 2 10 0 None) (ex_intro _ "a" eq_refl) eq_refl eq_refl). destruct C as [C|[_ [C|[C _]]]]; cbn in C; lia.
Qed.
(** the remaining cases: releases that finish a pre-release, and successive pre-releases *)
Lemma show_inj a b : show a = show b -> a = b.
Proof.
  unfold show. intros H. assert (X : Nat.to_uint a = Nat.to_uint b); [|apply (f_equal Nat.of_uint) in X; rewrite !Unsigned.of_to in X; exact X].
  assert (Q : forall n, NilZero.uint_of_string (NilZero.string_of_uint (Nat.to_uint n)) = Some (Nat.to_uint n)).
  { intros n. apply NilZero.usu. intros Z. destruct n; [discriminate Z|]. pose proof (Unsigned.of_to (S n)) as E. rewrite Z in E. discriminate E. }
  pose proof (Q a) as Qa. rewrite H, Q in Qa. injection Qa as ->. reflexivity.
Qed.
Fixpoint no_dot (s : string) : Prop := match s with "" => True | String c t => c <> "."%char /\ no_dot t end.
Lemma uint_no_dot u : no_dot (NilEmpty.string_of_uint u).
Proof. induction u; cbn; repeat split; try exact I; try assumption; discriminate. Qed.
Lemma show_no_dot n : no_dot (show n).
Proof.
  unfold show, NilZero.string_of_uint. destruct (Nat.to_uint n) as [|u|u|u|u|u|u|u|u|u|u]; [cbn; split; [discriminate|exact I]|..]; exact (uint_no_dot _).
Qed.
Lemma dot_split s t s' t' : no_dot s -> no_dot s' -> s ++ "." ++ t = s' ++ "." ++ t' -> s = s' /\ t = t'.
Proof.
  revert s'. induction s as [|c s IH]; intros [|c' s'] N N' E; cbn in E.
  - injection E as ->. split; reflexivity.
  - injection E as <- _. destruct N' as [N' _]. contradiction N'; reflexivity.
  - injection E as -> _. destruct N as [N _]. contradiction N; reflexivity.
  - injection E as -> E. destruct (IH s' (proj2 N) (proj2 N') E) as [-> ->]. split; reflexivity.
Qed.
Lemma base_inj a b : base_version a = base_version b -> v_major a = v_major b /\ v_minor a = v_minor b /\ v_micro a = v_micro b.
Proof.
  unfold base_version. intros E. apply dot_split in E; try apply show_no_dot. destruct E as [E1 E]. apply dot_split in E; try apply show_no_dot. destruct E as [E2 E3].
  repeat split; apply show_inj; assumption.
Qed.
Theorem C73_release_after_prerelease :
  forall a b, release a -> v_pre b <> None -> (unit_incremented a b = true <-> v_major a = v_major b /\ v_minor a = v_minor b /\ v_micro a = v_micro b).
Proof.
  intros a b R P. unfold unit_incremented. rewrite R. destruct (v_pre b) as [pb|]; [|contradiction]. split.
  - intros E. apply String.eqb_eq in E. apply base_inj, E.
  - intros (E1 & E2 & E3). unfold base_version. rewrite E1, E2, E3. apply String.eqb_refl.
Qed.
Theorem C73_next_prerelease :
  forall a b ta na tb nb, v_pre a = Some (ta, na) -> v_pre b = Some (tb, nb) ->
  (unit_incremented a b = true <->
   (v_major a = v_major b /\ v_minor a = v_minor b /\ v_micro a = v_micro b) /\
   ((ta = tb /\ na = nb + 1) \/ (ta <> tb /\ String.ltb tb ta = true /\ na = 0))).
Proof.
  intros a b ta na tb nb Pa Pb. unfold unit_incremented. rewrite Pa, Pb.
  assert (B : String.eqb (base_version a) (base_version b) = true <-> v_major a = v_major b /\ v_minor a = v_minor b /\ v_micro a = v_micro b).
  { split; [intros E; apply base_inj, String.eqb_eq, E|]. intros (E1 & E2 & E3). unfold base_version. rewrite E1, E2, E3. apply String.eqb_refl. }
  destruct (String.eqb_spec ta tb) as [->|NE]; rewrite !andb_true_iff, Nat.eqb_eq, B; tauto.
Qed.
Theorem C73_nonvacuous : unit_incremented (mkver 2 9 1 (Some ("a", 0))) (mkver 2 9 0 None) = true.
Proof. reflexivity. Qed.
