(** Properties C22-C29: variable registry, solution relabelling, events, start/end of inflation. *)
From Coq Require Import Reals List String Arith Lia Lra Bool ZArith.
From Verif Require Import Base Model.Equations Model.Background Model.Float Model.Solution Spec.SolutionSpec
  Proofs.DictLemmas Proofs.SolLemmas Proofs.PostProc.
Import ListNotations.
Open Scope string_scope.
Open Scope R_scope.

(** C22: after any calls add_variable(names...), with all names distinct, the i-th name has index i
    and its accessor returns component i. *)
Theorem C22_registry_is_bijection : forall (calls : list (list string)) (A : Type) (y : list A),
  NoDup (List.concat calls) ->
  let idx := fold_left (fun d a => add_variable a d) calls [] in
  List.length idx = List.length (List.concat calls) /\
  (forall name, dict_get name idx <> None <-> In name (List.concat calls)) /\
  (forall i name, nth_error (List.concat calls) i = Some name ->
     dict_get name idx = Some i /\
     component idx name y = match nth_error y i with Some v => Ok v | None => Raise IndexError end).
Proof.
  intros calls A y ND idx. unfold idx. rewrite add_variable_fold, add_variable_app by (simpl; exact ND). simpl.
  set (names := List.concat calls) in *. assert (L : List.length names = List.length (seq 0 (List.length names))) by (rewrite seq_length; reflexivity).
  assert (G : forall i name, nth_error names i = Some name -> dict_get name (combine names (seq 0 (List.length names))) = Some i).
  { intros i name Hi. rewrite (get_combine names _ i name ND L Hi).
    assert (i < List.length names)%nat by (apply nth_error_Some; congruence).
    rewrite (nth_error_nth' _ 0%nat) by (rewrite seq_length; assumption). rewrite seq_nth by assumption. reflexivity. }
  split; [rewrite combine_length, seq_length; apply Nat.min_id|]. split.
  - intros name. rewrite get_none_notin, map_fst_combine by exact L. destruct (in_dec string_dec name names); tauto.
  - intros i name Hi. split; [apply G, Hi|]. unfold component. rewrite (G i name Hi). reflexivity.
Qed.
(** registering a name again moves it out of the range of the state vector *)
Theorem C22_repeated_name : forall names name (A : Type) (y : list A),
  NoDup names -> In name names ->
  let idx := add_variable [name] (add_variable names []) in
  List.length idx = List.length names /\ (List.length y = List.length idx -> component idx name y = Raise IndexError).
Proof.
  intros names name A y ND Hin idx. unfold idx. rewrite (add_variable_app names []) by (simpl; exact ND). simpl. unfold add_variable, add_variable1; simpl.
  set (d := combine names (seq 0 (List.length names))).
  assert (Ld : List.length d = List.length names) by (unfold d; rewrite combine_length, seq_length; apply Nat.min_id).
  assert (LS : forall (d : idx_map) v, dict_get name d <> None -> List.length (dict_set name v d) = List.length d).
  { induction d0 as [|[k w] d0 IH]; intros v H; [simpl in H; congruence|]. simpl in *. destruct (String.eqb name k); [reflexivity|]. simpl. rewrite IH by exact H. reflexivity. }
  assert (HI : dict_get name d <> None). { rewrite get_none_notin. unfold d. rewrite map_fst_combine by (rewrite seq_length; reflexivity). tauto. }
  rewrite LS by exact HI. split; [exact Ld|]. intros Hy. unfold component. rewrite get_set_eq.
  replace (nth_error y (List.length d)) with (@None A); [reflexivity|]. symmetry. apply nth_error_None. lia.
Qed.
(** a name that was never added has no accessor *)
Theorem C22_unknown_name : forall (calls : list (list string)) name (A : Type) (y : list A),
  NoDup (List.concat calls) -> ~ In name (List.concat calls) ->
  component (fold_left (fun d a => add_variable a d) calls []) name y = Raise AttributeError.
Proof.
  intros calls name A y ND Hn. destruct (C22_registry_is_bijection calls A y ND) as [_ [H _]].
  unfold component. destruct (dict_get name _) eqn:E; [|reflexivity]. exfalso. apply Hn. apply H. cbn zeta in *. congruence.
Qed.
Theorem C22_nonvacuous : NoDup (List.concat [["phi"; "dphidt"; "_N"]; ["eta"]]) /\ In "phi" ["phi"; "dphidt"; "_N"].
Proof. split; [cbn; nodup|simpl; tauto]. Qed.

(** C23: solve() relabels without loss. *)
Theorem C23_relabelling : forall fmt_e names xname events r,
  clash_free xname names -> NoDup (map (event_name fmt_e) events) -> ivp_ok (List.length names) (List.length events) r ->
  exists s, base_sol (add_variable names []) xname (bunch_of (List.length names) r (map (event_name fmt_e) events)) = Ok s /\
  get_A s "x" = Ok (map Fin (r_t r)) /\ get_A s xname = Ok (map Fin (r_t r)) /\
  (forall i name, nth_error names i = Some name -> get_A s name = Ok (map (fun st => Fin (nth i st 0)) (r_y r))) /\
  (forall j e te ye, nth_error events j = Some e -> nth_error (r_t_events r) j = Some te -> nth_error (r_y_events r) j = Some ye ->
     (exists d, get_DT s "x_events" = Ok d /\ dict_get (event_name fmt_e e) d = Some te) /\
     (exists d, get_DT s (xname ++ "_events") = Ok d /\ dict_get (event_name fmt_e e) d = Some te) /\
     (exists d, get_DY s "y_events" = Ok d /\ dict_get (event_name fmt_e e) d = Some ye) /\
     (forall i name, nth_error names i = Some name ->
        exists d, get_DT s (name ++ "_events") = Ok d /\ dict_get (event_name fmt_e e) d = Some (map (fun st => nth i st 0) ye))).
Proof.
  intros fmt_e names xname events r CF ND IV. rewrite <- (map_length (event_name fmt_e)) in IV.
  destruct (base_sol_ok names xname _ r _ CF eq_refl IV) as [s [E [_ [Hx [Hxn [_ [Hv [Hxe [Hxne [Hye [Hve _]]]]]]]]]]].
  exists s. split; [exact E|]. unfold get_A, get_DT, get_DY, getattr.
  split; [rewrite Hx; reflexivity|]. split; [rewrite Hxn; reflexivity|].
  split. { intros i name Hi. rewrite (Hv i name Hi). simpl. unfold col. rewrite map_map. reflexivity. }
  intros j e te ye He Ht Hy'. assert (Hk : nth_error (map (event_name fmt_e) events) j = Some (event_name fmt_e e)) by (apply map_nth_error; exact He).
  destruct IV as [_ [_ [L1 [L2 _]]]].
  assert (D1 : dict_get (event_name fmt_e e) (dict_zip (map (event_name fmt_e) events) (r_t_events r)) = Some te) by (rewrite (get_dict_zip _ _ j); auto).
  assert (D2 : dict_get (event_name fmt_e e) (dict_zip (map (event_name fmt_e) events) (r_y_events r)) = Some ye) by (rewrite (get_dict_zip _ _ j); auto).
  split; [eexists; rewrite Hxe; split; [reflexivity|exact D1]|]. split; [eexists; rewrite Hxne; split; [reflexivity|exact D1]|].
  split; [eexists; rewrite Hye; split; [reflexivity|exact D2]|].
  intros i name Hi. destruct (Hve i name Hi) as [d [Ed Gd]]. exists d. rewrite Ed. split; [reflexivity|]. rewrite Gd, D2. reflexivity.
Qed.
(** both classes of the package satisfy the naming hypothesis *)
Theorem C23_package_classes : (forall te, exists names, T_idx te = add_variable names [] /\ clash_free "t" names) /\
  (forall tt te, exists names, N_idx tt te = add_variable names [] /\ clash_free "_N" names).
Proof.
  split; intros; [exists (T_names te)|exists (N_names tt te)]; split;
  [apply T_idx_names|apply T_clash|apply N_idx_names|apply N_clash].
Qed.
Definition ex_raw : raw_sol := mkraw [0; 1] [[5; -1; 0]; [4; -1; 2]] [[1/2]; []] [[[9/2; -1; 1]]; []].
Definition ex_events : list event := [Inflation (-1) true 0 None; Collapse 0].
Theorem C23_nonvacuous : forall fmt_e, NoDup (map (event_name fmt_e) ex_events) /\ ivp_ok 3 (List.length ex_events) ex_raw.
Proof.
  intros. split; [cbn; nodup|]. repeat split; try discriminate. intros [|[|j]] te ye; simpl; intros A B; try (destruct j; discriminate);
  injection A as <-; injection B as <-; reflexivity.
Qed.

(** C24: two tracked events share a record only if they are of one kind with the same direction and
    terminal flag (and the same printed value, for ModeExit); UntilT, UntilN and Collapse events
    always share one. *)
Definition same_key (fmt_e : R -> string) (e1 e2 : event) : Prop :=
  match e1, e2 with
  | UntilT _, UntilT _ | UntilN _, UntilN _ | Collapse _, Collapse _ => True
  | Inflation d1 t1 _ _, Inflation d2 t2 _ _ => d1 = d2 /\ t1 = t2
  | AfterInflationEnd d1 t1 _, AfterInflationEnd d2 t2 _ => d1 = d2 /\ t1 = t2
  | Phi0 d1 t1 _, Phi0 d2 t2 _ => d1 = d2 /\ t1 = t2
  | ModeExit d1 t1 v1, ModeExit d2 t2 v2 => d1 = d2 /\ t1 = t2 /\ fmt_e v1 = fmt_e v2
  | _, _ => False
  end.
Theorem C24_names : forall fmt_e e1 e2, event_name fmt_e e1 = event_name fmt_e e2 <-> same_key fmt_e e1 e2.
Proof.
  assert (U : forall a b s t, (fmt_d a ++ "_term" ++ s)%string = (fmt_d b ++ "_term" ++ t)%string -> a = b /\ s = t).
  { intros a b s t H. assert (G : forall x y, nounder x = true -> nounder y = true -> (x ++ "_term" ++ s)%string = (y ++ "_term" ++ t)%string -> x = y /\ s = t).
    { induction x as [|c x IH]; intros [|d y] Hx Hy E; simpl in E.
      - injection E as E. auto.
      - injection E as E1 E2. subst d. discriminate Hy.
      - injection E as E1 E2. subst c. discriminate Hx.
      - injection E as E1 E2. subst d. simpl in Hx, Hy. apply andb_true_iff in Hx, Hy. destruct (IH y (proj2 Hx) (proj2 Hy) E2) as [-> ->]. auto. }
    destruct (G _ _ (nounder_fmt_d a) (nounder_fmt_d b) H) as [H1 H2]. split; [apply fmt_d_inj; exact H1|exact H2]. }
  assert (B : forall a b, fmt_b a = fmt_b b -> a = b) by (intros [] []; simpl; congruence).
  intros fmt_e e1 e2. destruct e1, e2; cbn [event_name same_key]; try (split; [reflexivity|tauto]); try (split; [discriminate|tauto]).
  1-3: split; [intros H; apply append_inj_l in H; apply U in H; destruct H as [H1 H2]; apply B in H2; auto|intros [-> ->]; reflexivity].
  split.
  - intros H. apply append_inj_l in H. apply U in H. destruct H as [H1 H2]. split; [exact H1|].
    destruct term, term0; simpl in H2; injection H2 as H2; auto; discriminate.
  - intros [-> [-> H]]. rewrite H. reflexivity.
Qed.
Theorem C24_names_nonvacuous : forall fmt_e, NoDup (map (event_name fmt_e)
  [UntilN 5; Collapse 0; Inflation 1 false 0 None; Inflation (-1) true 0 None; Phi0 0 true 0; AfterInflationEnd 1 true 0; ModeExit 1 false 3]).
Proof. intros. cbn. nodup. Qed.

(** C24 as stated is false: two tracked events of the same class and flags share a name and only the last record survives. *)
Theorem C24_refuted : forall fmt_e, exists e1 e2 r s d,
  e1 <> e2 /\ ivp_ok 3 2 r /\ nth_error (r_t_events r) 0 = Some [1] /\
  base_sol (T_idx false) "t" (bunch_of 3 r (map (event_name fmt_e) [e1; e2])) = Ok s /\
  get_DT s "x_events" = Ok d /\ dict_get (event_name fmt_e e1) d = Some [2] /\ forall k, dict_get k d <> Some [1].
Proof.
  intros fmt_e. exists (UntilN 1), (UntilN 2), (mkraw [0] [[5; -1; 0]] [[1]; [2]] [[[5; -1; 1]]; [[5; -1; 2]]]).
  assert (IV : ivp_ok 3 2 (mkraw [0] [[5; -1; 0]] [[1]; [2]] [[[5; -1; 1]]; [[5; -1; 2]]])).
  { repeat split; try discriminate. intros [|[|j]] te ye; simpl; intros A B; try (destruct j; discriminate); injection A as <-; injection B as <-; reflexivity. }
  destruct (base_sol_ok (T_names false) "t" (map (event_name fmt_e) [UntilN 1; UntilN 2]) _ 3 (T_clash false) eq_refl IV) as [s [E [_ [_ [_ [_ [_ [Hxe _]]]]]]]].
  exists s. eexists. split; [intros C; injection C; lra|]. split; [exact IV|]. split; [reflexivity|]. split; [exact E|].
  unfold get_DT, getattr. rewrite Hxe. split; [reflexivity|]. split; [reflexivity|].
  intros k. cbn. destruct (String.eqb k "UntilN"); [|discriminate]. intros C. injection C. lra.
Qed.
(** what holds: the dictionaries hold the record of the last event with that name (hence every record
    when the names are distinct, C23), and names coincide only for equal class and flags *)
Theorem C24_last_wins_partial : forall (A : Type) keys (vs : list A) j k, List.length keys = List.length vs ->
  nth_error keys j = Some k -> (forall i, (j < i)%nat -> nth_error keys i <> Some k) ->
  dict_get k (dict_zip keys vs) = nth_error vs j.
Proof.
  intros A keys vs j k L Hj Hlast. unfold dict_zip. 
  assert (G : forall (q : list (string * A)) d, (forall p, In p q -> fst p <> k) ->
     dict_get k (fold_left (fun d q => dict_set (fst q) (snd q) d) q d) = dict_get k d).
  { induction q as [|p q IH]; intros d H; [reflexivity|]. simpl. rewrite IH by (intros p' Hp'; apply H; right; exact Hp').
    apply get_set_neq. intros C. apply (H p (or_introl eq_refl)). auto. }
  assert (M : forall keys (vs : list A) j d, List.length keys = List.length vs -> nth_error keys j = Some k ->
     (forall i, (j < i)%nat -> nth_error keys i <> Some k) ->
     dict_get k (fold_left (fun d q => dict_set (fst q) (snd q) d) (combine keys vs) d) = nth_error vs j); [|apply M; assumption].
  clear keys vs j L Hj Hlast. induction keys as [|a keys IH]; intros vs j d L Hj Hlast; [destruct j; discriminate|].
  destruct vs as [|v vs]; [discriminate|]. destruct j as [|j]; simpl in Hj.
  - injection Hj as ->. simpl. rewrite G; [apply get_set_eq|]. intros p Hp C. destruct p as [p1 p2]. simpl in C. subst p1.
    apply in_combine_l in Hp. apply In_nth_error in Hp. destruct Hp as [i Hi]. apply (Hlast (S i)); [lia|exact Hi].
  - simpl. apply IH; [simpl in L; lia|exact Hj|]. intros i Hi. apply (Hlast (S i)). lia.
Qed.

(** C25: event functions vanish exactly at the tracked condition. *)
Theorem C25_event_zeros : forall q x y v d term,
  (event_call q (UntilT v) x y = 0 <-> e_t q x y = v) /\
  (event_call q (UntilN v) x y = 0 <-> e_N q x y = v) /\
  (event_call q (Collapse v) x y = 0 <-> e_H2 q x y = v) /\
  (event_call q (Phi0 d term v) x y = 0 <-> e_phi q x y = v) /\
  (event_call q (AfterInflationEnd d term v) x y = 0 <-> e_w q x y = v) /\
  (forall ti, ti <> Some x -> (event_call q (Inflation d term v ti) x y = 0 <-> e_inflating q x y = v)) /\
  event_call q (Inflation d term v (Some x)) x y = IZR d /\
  (0 < v -> e_H2 q x y <> 0 ->
     (event_call q (ModeExit d term v) x y = 0 <-> exp (e_N q x y) * sqrt (Rabs (e_H2 q x y)) = v)).
Proof.
  intros q x y v d term. unfold event_call.
  repeat match goal with |- _ /\ _ => split end; try (split; intros; lra).
  - intros ti Hti. destruct ti as [t|]; [|split; intros; lra]. destruct (Req_EM_T x t); [subst; congruence|split; intros; lra].
  - destruct (Req_EM_T x x); [reflexivity|congruence].
  - intros Hv HH. assert (P : 0 < Rabs (e_H2 q x y)) by (apply Rabs_pos_lt; exact HH).
    assert (S : 0 < sqrt (Rabs (e_H2 q x y))) by (apply sqrt_lt_R0; exact P).
    assert (EL : ln (Rabs (e_H2 q x y)) / 2 + e_N q x y = ln (exp (e_N q x y) * sqrt (Rabs (e_H2 q x y)))).
    { rewrite ln_mult by (assumption || apply exp_pos). rewrite ln_exp.
      replace (ln (Rabs (e_H2 q x y))) with (2 * ln (sqrt (Rabs (e_H2 q x y)))); [lra|].
      rewrite <- (sqrt_sqrt (Rabs (e_H2 q x y))) at 2 by lra. rewrite ln_mult by assumption. lra. }
    rewrite EL. split; intros H; [apply ln_inv; [apply Rmult_lt_0_compat; [apply exp_pos|exact S]|exact Hv|lra]|rewrite H; lra].
Qed.
(** ... and the quantities are those of the equations of both classes *)
Theorem C25_class_quantities : forall K U te tt x y,
  (e_t (T_eqs K U te) x y = x /\ e_N (T_eqs K U te) x y = var (T_idx te) "_N" y /\ e_phi (T_eqs K U te) x y = var (T_idx te) "phi" y /\
   e_inflating (T_eqs K U te) x y = pV U (var (T_idx te) "phi" y) - (var (T_idx te) "dphidt" y)^2) /\
  (e_t (N_eqs K U tt te) x y = var (N_idx tt te) "t" y /\ e_N (N_eqs K U tt te) x y = x /\ e_phi (N_eqs K U tt te) x y = var (N_idx tt te) "phi" y).
Proof. intros. repeat split. Qed.

(** a run that does not inflate at its only point *)
Definition no_infl : raw_sol := mkraw [1] [[0; 10; 0]] [[]] [[]].
Definition U0 : potfun := mkpotfun (fun _ => 1) (fun _ => 0) (fun _ => 0) (fun _ => 0).
Lemma no_infl_cond : (fle (Fin 0) (Fin (T_inflating U0 false 1 [0; 10; 0])) || fle (Fin (T_w U0 false 1 [0; 10; 0])) (Fin (-1/3)))%bool = false.
Proof.
  assert (E1 : T_inflating U0 false 1 [0; 10; 0] = -99) by (unfold T_inflating; cbn; ring).
  assert (E2 : T_w U0 false 1 [0; 10; 0] = 49/51) by (unfold T_w; cbn; field).
  rewrite E1, E2. unfold fle, flt, feq.
  destruct (Rlt_dec 0 (-99)); [lra|]. destruct (Req_EM_T 0 (-99)); [lra|]. destruct (Rlt_dec (49/51) (-1/3)); [lra|]. destruct (Req_EM_T (49/51) (-1/3)); [lra|]. reflexivity.
Qed.
Lemma no_infl_ok : ivp_ok 3 1 no_infl.
Proof. repeat split; try discriminate. intros [|[|j]] te ye; simpl; intros A B; try discriminate. injection A as <-; injection B as <-; reflexivity. Qed.

(** C26 is false of the code: the start warning reports InflationEvent as untracked although it is tracked. *)
Theorem C26_refuted : forall fmt_e, exists q events r s ws,
  inflation_eqs q /\ In (Inflation 1 false 0 None) events /\ ivp_ok (List.length (e_idx q)) (List.length events) r /\
  solve fmt_e q true events r = Ok (s, ws) /\ In (InflationStartWarning true) ws.
Proof.
  intros fmt_e. assert (Hq : inflation_eqs (T_eqs 0 U0 false)) by (left; exists 0, U0, false; reflexivity).
  destruct (solve_ok fmt_e (T_eqs 0 U0 false) true [Inflation 1 false 0 None] no_infl Hq) as [s [E _]]; [cbn; nodup|exact no_infl_ok|].
  exists (T_eqs 0 U0 false), [Inflation 1 false 0 None], no_infl, s. eexists. split; [exact Hq|]. split; [left; reflexivity|]. split; [exact no_infl_ok|]. split; [exact E|].
  apply in_or_app. left. cbn -[fle]. 
  match goal with |- In _ (if ?b then _ else _) => replace b with false by (symmetry; exact no_infl_cond) end. left. reflexivity.
Qed.
(** what holds: a start warning always says "not tracking" -- right exactly when it is not tracked;
    the end warning says so exactly if no InflationEvent of direction -1 is tracked *)
Theorem C26_partial : forall fmt_e q verbose events r s ws,
  inflation_eqs q -> NoDup (map (event_name fmt_e) events) -> ivp_ok (List.length (e_idx q)) (List.length events) r ->
  solve fmt_e q verbose events r = Ok (s, ws) ->
  (forall b, In (InflationStartWarning b) ws -> b = true) /\
  (forall b, In (InflationEndWarning b) ws ->
     (b = true <-> forall e, In e events -> is_inflation (-1) true e = false /\ is_inflation (-1) false e = false)).
Proof.
  intros fmt_e q verbose events r s ws Hq ND IV E. destruct (solve_ok fmt_e q verbose events r Hq ND IV) as [s' [E' _]].
  rewrite E in E'. injection E' as -> ->. unfold vwarn.
  assert (NI : forall p : event -> bool, existsb p events = false <-> forall e, In e events -> p e = false).
  { intros p. split; intros H.
    - intros e He. destruct (p e) eqn:Pe; [|reflexivity]. assert (existsb p events = true) by (apply existsb_exists; exists e; auto). congruence.
    - destruct (existsb p events) eqn:X; [|reflexivity]. apply existsb_exists in X. destruct X as [e [He Pe]]. rewrite (H e He) in Pe. discriminate. }
  split; intros b Hb; apply in_app_or in Hb; destruct Hb as [Hb|Hb].
  - revert Hb. destruct (recorded is_collapse events r); [|destruct verbose; simpl; intuition discriminate].
    destruct (r_t r), (r_y r); try (intros []). destruct (_ || _)%bool; [intros []|]. destruct (recorded _ events r); [|intros []].
    destruct verbose; [|intros []]. intros [H|[]]. injection H as <-. reflexivity.
  - destruct (end_record events r); [|destruct Hb]. destruct verbose; [|destruct Hb]. destruct Hb as [H|[]]. discriminate.
  - revert Hb. destruct (recorded is_collapse events r); [|destruct verbose; simpl; intuition discriminate].
    destruct (r_t r), (r_y r); try (intros []). destruct (_ || _)%bool; [intros []|]. destruct (recorded _ events r); [|intros []].
    destruct verbose; [|intros []]. intros [H|[]]. discriminate.
  - destruct (end_record events r); [|destruct Hb]. destruct verbose; [|destruct Hb]. destruct Hb as [H|[]]. injection H as <-.
    rewrite andb_true_iff, !negb_true_iff, !NI. split; [intros [A B] e He; auto|intros H; split; intros e He; apply H, He].
Qed.

(** inflation holds at a state: acceleration, or w at most -1/3 *)
Definition inflates_at (q : eqs) (x : R) (y : list R) : Prop := 0 <= e_inflating q x y \/ e_w q x y <= -1/3.
Lemma inflates_dec q x y : ((fle (Fin 0) (Fin (e_inflating q x y)) || fle (Fin (e_w q x y)) (Fin (-1/3)))%bool = true) <-> inflates_at q x y.
Proof.
  unfold fle, flt, feq, inflates_at. rewrite !orb_true_iff.
  destruct (Rlt_dec 0 (e_inflating q x y)), (Req_EM_T 0 (e_inflating q x y)), (Rlt_dec (e_w q x y) (-1/3)), (Req_EM_T (e_w q x y) (-1/3));
  split; intros; try lra; try (left; left; reflexivity); try (left; right; reflexivity); try (right; left; reflexivity); try (right; right; reflexivity).
  all: repeat match goal with H : _ \/ _ |- _ => destruct H end; try discriminate; try lra.
Qed.

(** C27: the start of inflation. (x0,y0) is the first point of the run. *)
Theorem C27_start : forall fmt_e q verbose events r x0 xs y0 ys,
  inflation_eqs q -> NoDup (map (event_name fmt_e) events) -> ivp_ok (List.length (e_idx q)) (List.length events) r ->
  r_t r = x0 :: xs -> r_y r = y0 :: ys ->
  exists s ws, solve fmt_e q verbose events r = Ok (s, ws) /\
  let collapse := recorded is_collapse events r in let start := recorded (is_inflation 1 false) events r in
  (collapse <> [] -> get_F s "_N_beg" = Ok NaN /\ (verbose = true -> In CollapseWarning ws)) /\
  (collapse = [] -> inflates_at q x0 y0 -> get_F s "_N_beg" = Ok (Fin (e_N q x0 y0)) /\ get_F s "H_beg" = Ok (fsqrt (Fin (e_H2 q x0 y0)))) /\
  (forall x y rest, collapse = [] -> ~ inflates_at q x0 y0 -> start = (x, y) :: rest ->
     get_F s "_N_beg" = Ok (Fin (e_N q x y)) /\ get_F s "H_beg" = Ok (fsqrt (Fin (e_H2 q x y)))) /\
  (collapse = [] -> ~ inflates_at q x0 y0 -> start = [] ->
     get_F s "_N_beg" = Ok NaN /\ (verbose = true <-> exists b, In (InflationStartWarning b) ws)).
Proof.
  intros fmt_e q verbose events r x0 xs y0 ys Hq ND IV Et Ey. destruct (solve_ok fmt_e q verbose events r Hq ND IV) as [s [E S]].
  eexists s, _. split; [exact E|]. intros collapse start. unfold solved in S. destruct S as [S1 [S2 _]].
  unfold get_F, getattr. rewrite S1, S2. cbn [bind as_F]. unfold N_beg_of. fold collapse start. rewrite Et, Ey.
  pose proof (inflates_dec q x0 y0) as ID. destruct (_ || _)%bool eqn:B.
  - assert (I : inflates_at q x0 y0) by (apply ID; reflexivity).
    split. { intros C. destruct collapse; [congruence|]. split; [reflexivity|]. intros ->. left. reflexivity. }
    split. { intros -> _. split; reflexivity. }
    split. { intros x y rest _ NI _. contradiction. } intros _ NI _. contradiction.
  - assert (I : ~ inflates_at q x0 y0) by (intros C; apply ID in C; discriminate).
    split. { intros C. destruct collapse; [congruence|]. split; [reflexivity|]. intros ->. left. reflexivity. }
    split. { intros _ C. contradiction. }
    split. { intros x y rest -> _ ->. split; reflexivity. }
    intros -> _ ->. split; [reflexivity|]. unfold vwarn. split; [intros ->; exists true; left; reflexivity|].
    intros [b Hb]. destruct verbose; [reflexivity|]. simpl in Hb. destruct (end_record events r); destruct Hb.
Qed.

(** C28 is false of the code: a terminal start event that fired is ignored. *)
Theorem C28_refuted : forall fmt_e, exists q events r s ws,
  inflation_eqs q /\ events = [Inflation 1 true 0 None] /\ ivp_ok (List.length (e_idx q)) (List.length events) r /\
  (exists x y, recorded (is_inflation 1 true) events r = [(x, y)] /\ e_N q x y = 3) /\
  solve fmt_e q true events r = Ok (s, ws) /\ get_F s "_N_beg" = Ok NaN.
Proof.
  intros fmt_e. assert (Hq : inflation_eqs (T_eqs 0 U0 false)) by (left; exists 0, U0, false; reflexivity).
  set (r := mkraw [1] [[0; 10; 0]] [[2]] [[[0; 1; 3]]]).
  assert (IV : ivp_ok 3 1 r). { repeat split; try discriminate. intros [|[|j]] te ye; simpl; intros A B; try discriminate. injection A as <-; injection B as <-; reflexivity. }
  destruct (solve_ok fmt_e (T_eqs 0 U0 false) true [Inflation 1 true 0 None] r Hq) as [s [E S]]; [cbn; nodup|exact IV|].
  eexists _, _, r, s, _. split; [exact Hq|]. split; [reflexivity|]. split; [exact IV|]. split; [exists 2, [0; 1; 3]; split; reflexivity|].
  split; [exact E|]. destruct S as [S1 _]. unfold get_F, getattr. rewrite S1. cbn -[fle]. 
  match goal with |- Ok (fst (if ?b then _ else _)) = _ => replace b with false by (symmetry; exact no_infl_cond) end. reflexivity.
Qed.
(** with terminal=False the first firing is used (if the run neither collapsed nor started inflating) *)
Theorem C28_partial : forall fmt_e q verbose events r x0 xs y0 ys x y rest,
  inflation_eqs q -> NoDup (map (event_name fmt_e) events) -> ivp_ok (List.length (e_idx q)) (List.length events) r ->
  r_t r = x0 :: xs -> r_y r = y0 :: ys ->
  recorded is_collapse events r = [] -> ~ inflates_at q x0 y0 ->
  recorded (is_inflation 1 false) events r = (x, y) :: rest ->
  exists s ws, solve fmt_e q verbose events r = Ok (s, ws) /\ get_F s "_N_beg" = Ok (Fin (e_N q x y)).
Proof.
  intros. destruct (C27_start fmt_e q verbose events r x0 xs y0 ys) as [s [ws [E [_ [_ [A _]]]]]]; try assumption.
  exists s, ws. split; [exact E|]. apply (A x y rest); assumption.
Qed.
Theorem C27_C28_nonvacuous : ~ inflates_at (T_eqs 0 U0 false) 1 [0; 10; 0] /\ inflates_at (T_eqs 0 U0 false) 1 [0; 0; 0].
Proof.
  split.
  - intros C. apply inflates_dec in C. pose proof no_infl_cond as D. cbn [e_inflating e_w T_eqs] in C. congruence.
  - left. cbn. unfold T_inflating. cbn. lra.
Qed.

(** C29: the end of inflation and N_tot. *)
Theorem C29_end : forall fmt_e q verbose events r,
  inflation_eqs q -> NoDup (map (event_name fmt_e) events) -> ivp_ok (List.length (e_idx q)) (List.length events) r ->
  exists s ws, solve fmt_e q verbose events r = Ok (s, ws) /\
  let term := recorded (is_inflation (-1) true) events r in let nonterm := recorded (is_inflation (-1) false) events r in
  (forall x y rest, term = (x, y) :: rest \/ (term = [] /\ nonterm = (x, y) :: rest) ->
     get_F s "_N_end" = Ok (Fin (e_N q x y)) /\ get_F s "phi_end" = Ok (Fin (e_phi q x y)) /\
     get_F s "H_end" = Ok (fsqrt (Fin (e_H2 q x y))) /\ get_F s "V_end" = Ok (Fin (e_V q (e_phi q x y)))) /\
  (term = [] -> nonterm = [] -> get_F s "_N_end" = Ok NaN /\ get_F s "phi_end" = Ok NaN /\ get_F s "H_end" = Ok NaN /\ get_F s "V_end" = Ok NaN /\
     (verbose = true -> exists b, In (InflationEndWarning b) ws)) /\
  exists nb ne nt, get_F s "_N_beg" = Ok nb /\ get_F s "_N_end" = Ok ne /\ get_F s "N_tot" = Ok nt /\
    nt = fsub ne nb /\ (isfinite nt = true <-> isfinite nb = true /\ isfinite ne = true) /\
    (** the mask of inflating points exists exactly in that case and is strictly between start and end *)
    ((isfinite nt = true -> exists Ns, get_A s "_N" = Ok Ns /\ get_B s "inflation_mask" = Ok (map (fun n => (flt nb n && flt n ne)%bool) Ns)) /\
     (isfinite nt = false -> get_B s "inflation_mask" = Raise AttributeError)).
Proof.
  intros fmt_e q verbose events r Hq ND IV. destruct (solve_ok fmt_e q verbose events r Hq ND IV) as [s [E S]].
  eexists s, _. split; [exact E|]. intros term nonterm.
  destruct S as [S1 [S2 [S3 [S4 [S5 [S6 [S7 [S8 [S9 [S10 [S11 [S12 [S13 [S14 S15]]]]]]]]]]]]]].
  unfold get_F, get_A, get_B, getattr. rewrite S1, S4, S5, S6, S7, S9, S11, S15. cbn [bind as_F as_A].
  unfold N_end_of, end_record. fold term nonterm.
  split. { intros x y rest [->|[-> ->]]; repeat split; reflexivity. }
  split. { intros -> ->. repeat split; try reflexivity. intros ->. eexists. apply in_or_app. right. left. reflexivity. }
  set (nb := fst (N_beg_of q events r)).
  match goal with |- context [Ok (fst (fst (fst ?e)))] => set (ne := fst (fst (fst e))) end.
  exists nb, ne, (fsub ne nb). split; [reflexivity|]. split; [reflexivity|]. split; [reflexivity|]. split; [reflexivity|].
  assert (HF : isfinite (fsub ne nb) = true <-> isfinite nb = true /\ isfinite ne = true).
  { destruct ne, nb; cbn; split; intros; try (destruct H); try discriminate; auto. }
  split; [exact HF|]. split.
  - intros H. apply HF in H. destruct H as [-> ->]. eexists. split; [reflexivity|]. reflexivity.
  - intros H. destruct (isfinite nb && isfinite ne)%bool eqn:X; [|reflexivity]. apply andb_true_iff in X. apply HF in X. congruence.
Qed.
