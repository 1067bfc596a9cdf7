(** C116: what the warning about the end of inflation tells the user. *)
From Coq Require Import Reals List String Bool Lra Lia ZArith.
From Coquelicot Require Import Coquelicot.
From Verif Require Import Base Model.Float Model.Potentials Model.Equations Model.Background Model.Solution Model.Messages Spec.SolutionSpec
  Proofs.SolLemmas Proofs.PostProc Properties.BackgroundProps Properties.SolutionProps.
Import ListNotations.
Open Scope R_scope.
Open Scope string_scope.

(** the run [r] ended at (x, y) *)
Definition ends_at (r : raw_sol) (x : R) (y : list R) : Prop := exists xs ys, r_t r = (xs ++ [x])%list /\ r_y r = (ys ++ [y])%list /\ List.length xs = List.length ys.
(** an InflationEvent of direction -1 was tracked *)
Definition tracks_end (events : list event) : Prop := exists e, In e events /\ (is_inflation (-1) true e = true \/ is_inflation (-1) false e = true).
(** some tracked InflationEvent of direction -1 fired *)
Definition end_found (events : list event) (r : raw_sol) : Prop := recorded (is_inflation (-1) true) events r <> [] \/ recorded (is_inflation (-1) false) events r <> [].

Lemma zipw_last {A B C} (f : A -> B -> C) xs ys x y : List.length xs = List.length ys -> zipw f (xs ++ [x])%list (ys ++ [y])%list = (zipw f xs ys ++ [f x y])%list.
Proof. revert ys. induction xs as [|a xs IH]; intros [|b ys] L; try discriminate; cbn; [reflexivity|]. rewrite IH by (injection L; auto). reflexivity. Qed.
Lemma last_of_app {A} (l : list A) a : last_of (l ++ [a])%list = Ok a.
Proof. unfold last_of. rewrite rev_app_distr. reflexivity. Qed.

Lemma sapp_assoc (a b c : string) : ((a ++ b) ++ c = a ++ (b ++ c))%string.
Proof. induction a as [|h a IH]; cbn; [reflexivity|rewrite IH; reflexivity]. Qed.

(** In a run that did not find the end of inflation (and was asked for warnings) exactly one end
    warning is issued, and its text says
    - that the event is not tracked, if and only if it is not tracked;
    - otherwise that the universe is still inflating, with N, phi and w of the last sample, if and only
      if w < -1/3 there;
    - otherwise just that the end was not determined. *)
Theorem C116_end_message : forall fmt_g fmt_s fmt_e q events r x y,
  inflation_eqs q -> NoDup (map (event_name fmt_e) events) -> ivp_ok (List.length (e_idx q)) (List.length events) r -> ends_at r x y ->
  exists s ws, solve fmt_e q true events r = Ok (s, ws) /\
  ((exists b, In (InflationEndWarning b) ws) <-> ~ end_found events r) /\
  forall b, In (InflationEndWarning b) ws ->
    (~ tracks_end events -> exists d, get_DT s "_N_events" = Ok d /\
       warning_message fmt_g fmt_s s (InflationEndWarning b) = Ok ("Inflation end not determined: Not tracking `InflationEvent`. Events tracked are " ++ fmt_s d ++
         ". In order to determine the end of inflation `_N_end`, make sure to track the event `InflationEvent(equations, direction=-1)` defined in `primpy.events`. ")) /\
    (tracks_end events -> e_w q x y < -1/3 -> warning_message fmt_g fmt_s s (InflationEndWarning b) =
       Ok ("Inflation end not determined: Still inflating: N[-1]=" ++ fmt_g (Fin (e_N q x y)) ++ ", phi[-1]=" ++ fmt_g (Fin (e_phi q x y)) ++ ", w[-1]=" ++ fmt_g (Fin (e_w q x y)) ++ ". ")) /\
    (tracks_end events -> ~ e_w q x y < -1/3 -> warning_message fmt_g fmt_s s (InflationEndWarning b) = Ok "Inflation end not determined. ").
Proof.
  intros fmt_g fmt_s fmt_e q events r x y Hq ND IV (xs & ys & Ex & Ey & L).
  destruct (solve_ok_more fmt_e q true events r Hq ND IV) as (s & E & SO & dN & GN & _ & _ & EU & EW & EP).
  eexists s, _. split; [exact E|]. unfold vwarn. cbv iota.
  assert (NS : forall b, ~ In (InflationEndWarning b) (match recorded is_collapse events r with
      | _ :: _ => [CollapseWarning]
      | [] => match r_t r, r_y r with
              | x0 :: _, y0 :: _ =>
                 if (fle (Fin 0) (Fin (e_inflating q x0 y0)) || fle (Fin (e_w q x0 y0)) (Fin (-1/3)))%bool then []
                 else match recorded (is_inflation 1 false) events r with _ :: _ => [] | [] => [InflationStartWarning true] end
              | _, _ => [] end
      end)).
  { intros b. destruct (recorded is_collapse events r); [|simpl; intuition discriminate]. destruct (r_t r), (r_y r); try (intros []).
    destruct (_ || _)%bool; [intros []|]. destruct (recorded _ events r); simpl; intuition discriminate. }
  assert (EF : end_record events r = [] <-> ~ end_found events r).
  { unfold end_record, end_found. destruct (recorded (is_inflation (-1) true) events r).
    - split; [intros ->; intros [X|X]; congruence|]. intros X. destruct (recorded (is_inflation (-1) false) events r); [reflexivity|]. exfalso. apply X. right. discriminate.
    - split; [discriminate|]. intros X. exfalso. apply X. left. discriminate. }
  split.
  { rewrite <- EF. split.
    - intros [b Hb]. apply in_app_or in Hb. destruct Hb as [Hb|Hb]; [exfalso; exact (NS b Hb)|]. destruct (end_record events r); [reflexivity|destruct Hb].
    - intros ->. eexists. apply in_or_app. right. left. reflexivity. }
  intros b _.
  assert (TR : tracks_end events <-> end_warning_untracked dN = false).
  { rewrite EU. rewrite andb_false_iff, !negb_false_iff, !existsb_exists. split.
    - intros (e & I & [A|A]); [left|right]; exists e; auto.
    - intros [(e & I & A)|(e & I & A)]; exists e; auto. }
  unfold solved in SO. destruct SO as (_ & _ & _ & _ & _ & _ & _ & _ & _ & _ & SN & _).
  unfold warning_message, get_DT, getattr. rewrite GN. cbn [bind as_DT]. unfold end_message.
  split; [|split].
  - intros NT. destruct (end_warning_untracked dN) eqn:U; [|exfalso; apply NT, TR; reflexivity].
    rewrite !sapp_assoc. exists dN. split; [reflexivity|]. cbn [append]. reflexivity.
  - intros T W. rewrite (proj1 TR T). unfold get_A, getattr. rewrite EW, SN, EP. cbn [bind as_A]. rewrite Ex, Ey, !zipw_last by exact L.
    rewrite !map_app. cbn [map]. rewrite !last_of_app. cbn [bind]. unfold flt. destruct (Rlt_dec (e_w q x y) (-1/3)) as [_|N]; [|contradiction].
    cbn [bind]. rewrite !sapp_assoc. cbn [append]. reflexivity.
  - intros T W. rewrite (proj1 TR T). unfold get_A, getattr. rewrite EW. cbn [bind as_A]. rewrite Ex, Ey, !zipw_last by exact L.
    rewrite !map_app. cbn [map]. rewrite !last_of_app. cbn [bind]. unfold flt. destruct (Rlt_dec (e_w q x y) (-1/3)) as [Y|_]; [contradiction|]. reflexivity.
Qed.

(** "still inflating" is meant literally: in a state of positive energy density (as every solution of
    the Friedmann equations in flat and closed universes has), w < -1/3 holds exactly if the expansion
    accelerates (C20_inflating_time, C20_inflating_efolds) *)
Theorem C116_still_inflating_time : forall K U te x y, 0 < (var (T_idx te) "dphidt" y)^2 / 2 + pV U (var (T_idx te) "phi" y) ->
  (e_w (T_eqs K U te) x y < -1/3 <-> 0 < e_inflating (T_eqs K U te) x y).
Proof. intros K U te x y P. symmetry. exact (proj1 (C20_sign_time U te x y P)). Qed.
Theorem C116_still_inflating_efolds : forall K U tt te x y, 0 < N_H2 K U tt te x y * (var (N_idx tt te) "dphidN" y)^2 / 2 + pV U (var (N_idx tt te) "phi" y) ->
  (e_w (N_eqs K U tt te) x y < -1/3 <-> 0 < e_inflating (N_eqs K U tt te) x y).
Proof. intros K U tt te x y P. symmetry. exact (proj1 (C20_sign_efolds K U tt te x y P)). Qed.

(** the other two warnings: the universe has collapsed, and (finding 2, C26) the start warning that
    always claims that the event is not tracked *)
Theorem C116_other_messages : forall fmt_g fmt_s fmt_e q verbose events r s ws,
  inflation_eqs q -> NoDup (map (event_name fmt_e) events) -> ivp_ok (List.length (e_idx q)) (List.length events) r ->
  solve fmt_e q verbose events r = Ok (s, ws) ->
  warning_message fmt_g fmt_s s CollapseWarning = Ok "Universe has collapsed. " /\
  forall b, In (InflationStartWarning b) ws -> exists d, get_DT s "_N_events" = Ok d /\
    warning_message fmt_g fmt_s s (InflationStartWarning b) = Ok ("Inflation start not determined.: Not tracking `InflationEvent`. Events tracked are " ++ fmt_s d ++
      ". In order to determine the start of inflation `_N_beg`, make sure to track the event `InflationEvent(equations, direction=+1)` defined in `primpy.events`. ").
Proof.
  intros fmt_g fmt_s fmt_e q verbose events r s ws Hq ND IV E. split; [reflexivity|]. intros b _.
  destruct (solve_ok_more fmt_e q verbose events r Hq ND IV) as (s' & E' & _ & dN & GN & _ & SU & _). rewrite E in E'. injection E' as -> _.
  unfold warning_message, get_DT, getattr. rewrite GN. cbn [bind as_DT]. unfold start_message. rewrite SU, !sapp_assoc.
  exists dN. split; [reflexivity|]. cbn [append]. reflexivity.
Qed.

(** all three texts occur *)
Definition still_r (n : nat) : raw_sol := mkraw [1; 2] [[0; 0; 0]; [0; 0; 1]] (repeat [] n) (repeat [] n).
Definition over_r : raw_sol := mkraw [1; 2] [[0; 0; 0]; [0; 10; 1]] [[]] [[]].
Theorem C116_nonvacuous : let q := T_eqs 0 U0 false in let E := Inflation (-1) true 0 None in
  inflation_eqs q /\ ivp_ok 3 0 (still_r 0) /\ ivp_ok 3 1 (still_r 1) /\ ivp_ok 3 1 over_r /\
  ends_at (still_r 0) 2 [0; 0; 1] /\ ends_at (still_r 1) 2 [0; 0; 1] /\ ends_at over_r 2 [0; 10; 1] /\
  ~ tracks_end [] /\ tracks_end [E] /\ ~ end_found [] (still_r 0) /\ ~ end_found [E] (still_r 1) /\ ~ end_found [E] over_r /\
  e_w q 2 [0; 0; 1] < -1/3 /\ ~ e_w q 2 [0; 10; 1] < -1/3.
Proof.
  cbv zeta. split; [left; exists 0, U0, false; reflexivity|].
  split. { repeat split; try discriminate. intros [|[|j]] te ye; simpl; intros A; discriminate. }
  split. { repeat split; try discriminate. intros [|[|j]] te ye; simpl; intros A B; try discriminate. injection A as <-; injection B as <-; reflexivity. }
  split. { repeat split; try discriminate. intros [|[|j]] te ye; simpl; intros A B; try discriminate. injection A as <-; injection B as <-; reflexivity. }
  split; [exists [1], [[0; 0; 0]]; repeat split|]. split; [exists [1], [[0; 0; 0]]; repeat split|]. split; [exists [1], [[0; 0; 0]]; repeat split|].
  split; [intros (e & [] & _)|]. split; [exists (Inflation (-1) true 0 None); split; [left; reflexivity|left; reflexivity]|].
  split; [intros [X|X]; apply X; reflexivity|]. split; [intros [X|X]; apply X; reflexivity|]. split; [intros [X|X]; apply X; reflexivity|].
  cbn [e_w T_eqs]. split.
  - assert (W : T_w U0 false 2 [0; 0; 1] = -1) by (unfold T_w; cbn; field). rewrite W. lra.
  - assert (W : T_w U0 false 2 [0; 10; 1] = 49/51) by (unfold T_w; cbn; field). rewrite W. lra.
Qed.
