(** C105: only the names and records of the events a solution uses matter, not their order or what else is tracked. *)
From Coq Require Import Reals List String ZArith Bool Lra Lia Permutation.
From Verif Require Import Base Model.Potentials Model.Equations Model.Background Model.Float Model.Solution
  Spec.SolutionSpec Proofs.DictLemmas Properties.SolutionProps.
Import ListNotations.
Open Scope R_scope.
Open Scope string_scope.

(** event number j of the list has the name n, and solve_ivp recorded the times te and states ye for it *)
Definition tracked (fmt : R -> string) (events : list event) (r : raw_sol) (n : string) (te : list R) (ye : list (list R)) : Prop :=
  exists j e, nth_error events j = Some e /\ event_name fmt e = n /\ nth_error (r_t_events r) j = Some te /\ nth_error (r_y_events r) j = Some ye.
(** the names by which the code looks for the start and the end of inflation, and for a collapse *)
Definition looked_up : list string :=
  ["Collapse"; "Inflation_dir1_term0"; "Inflation_dir-1_term1"; "Inflation_dir-1_term0"; "Inflation_dir+1_term1"; "Inflation_dir+1_term0"].

Section Sim.
Variable U : list string.
Hypothesis HU : incl looked_up U.
Definition dsim {A} (d d' : dict A) : Prop := forall n, In n U -> dict_get n d = dict_get n d'.
Definition vsim (v v' : val) : Prop :=
  match v, v' with
  | VDT d, VDT d' => dsim d d'
  | VDY d, VDY d' => dsim d d'
  | VDT _, _ | _, VDT _ | VDY _, _ | _, VDY _ => False
  | _, _ => v = v'
  end.
Definition osim (v v' : option val) : Prop := match v, v' with Some a, Some b => vsim a b | None, None => True | _, _ => False end.
(** same attributes, with agreeing event dictionaries; event_keys and the raw event lists left out *)
Definition sim (s s' : attrs) : Prop := forall k, ~ In k ["event_keys"; "t_events"; "y_events"] -> osim (dict_get k s) (dict_get k s').
Definition fsim (s s' : attrs) : Prop := forall k, k <> "event_keys" -> osim (dict_get k s) (dict_get k s').

Lemma vsim_refl v : vsim v v. Proof. destruct v; cbn; try reflexivity; intros n _; reflexivity. Qed.
Lemma sim_set k v v' s s' : vsim v v' -> sim s s' -> sim (setattr k v s) (setattr k v' s').
Proof. intros V H j N. unfold setattr. rewrite !get_set. destruct (String.eqb j k); [exact V|exact (H j N)]. Qed.
Lemma fsim_set k v v' s s' : vsim v v' -> fsim s s' -> fsim (setattr k v s) (setattr k v' s').
Proof. intros V H j N. unfold setattr. rewrite !get_set. destruct (String.eqb j k); [exact V|exact (H j N)]. Qed.
Lemma sim_del k s s' : sim s s' -> sim (delattr k s) (delattr k s').
Proof. intros H j N. rewrite !get_del. destruct (String.eqb k j); [exact I|exact (H j N)]. Qed.
Definition rsim {A} (Q : A -> A -> Prop) (x y : res A) : Prop := match x, y with Ok a, Ok b => Q a b | Raise e, Raise f => e = f | _, _ => False end.
Lemma rsim_bind {A B} (Q : A -> A -> Prop) (T : B -> B -> Prop) x y f g : rsim Q x y -> (forall a b, Q a b -> rsim T (f a) (g b)) -> rsim T (bind x f) (bind y g).
Proof. destruct x, y; cbn; intros H K; try contradiction; [apply K, H|exact H]. Qed.
Lemma rsim_eq {A B} (T : B -> B -> Prop) (x y : res A) f g : x = y -> (forall a, rsim T (f a) (g a)) -> rsim T (bind x f) (bind y g).
Proof. intros -> K. destruct y; cbn; [apply K|reflexivity]. Qed.

Section Get.
Variables s s' : attrs.
Variable k : string.
Hypothesis H : osim (dict_get k s) (dict_get k s').
Lemma sim_A : get_A s k = get_A s' k.
Proof. unfold get_A, getattr. unfold osim in H. destruct (dict_get k s) as [v|], (dict_get k s') as [v'|]; try contradiction; [|reflexivity]. cbn. destruct v, v'; cbn in H; try contradiction; try discriminate H; try (injection H as E); subst; reflexivity. Qed.
Lemma sim_F : get_F s k = get_F s' k.
Proof. unfold get_F, getattr. unfold osim in H. destruct (dict_get k s) as [v|], (dict_get k s') as [v'|]; try contradiction; [|reflexivity]. cbn. destruct v, v'; cbn in H; try contradiction; try discriminate H; try (injection H as E); subst; reflexivity. Qed.
Lemma sim_M : (do v <- getattr s k; as_M v) = (do v <- getattr s' k; as_M v).
Proof. unfold getattr. unfold osim in H. destruct (dict_get k s) as [v|], (dict_get k s') as [v'|]; try contradiction; [|reflexivity]. cbn. destruct v, v'; cbn in H; try contradiction; try discriminate H; try (injection H as E); subst; reflexivity. Qed.
Lemma sim_attr : rsim vsim (getattr s k) (getattr s' k).
Proof. unfold getattr. unfold osim in H. destruct (dict_get k s), (dict_get k s'); try contradiction; cbn; auto. Qed.
Lemma sim_DT : rsim dsim (get_DT s k) (get_DT s' k).
Proof. unfold get_DT. apply (rsim_bind vsim dsim). { apply sim_attr. } intros v v' V. destruct v, v'; cbn in V; try contradiction; try discriminate V; cbn; auto. Qed.
Lemma sim_DY : rsim dsim (get_DY s k) (get_DY s' k).
Proof. unfold get_DY. apply (rsim_bind vsim dsim). { apply sim_attr. } intros v v' V. destruct v, v'; cbn in V; try contradiction; try discriminate V; cbn; auto. Qed.
End Get.
Lemma vsim_M v v' : vsim v v' -> as_M v = as_M v'.
Proof. destruct v, v'; cbn; intros H; try contradiction; try discriminate H; try (injection H as E); subst; reflexivity. Qed.
Lemma vsim_DY v v' : vsim v v' -> rsim dsim (as_DY v) (as_DY v').
Proof. destruct v, v'; cbn; intros H; try contradiction; try discriminate H; auto. Qed.
Lemma y_kept : ~ In "y" ["event_keys"; "t_events"; "y_events"]. Proof. cbn. intuition discriminate. Qed.

Lemma rows_sim items : forall s s', sim s s' -> rsim sim (set_rows items s) (set_rows items s').
Proof.
  induction items as [|[name i] items IH]; intros s s' H; [exact H|]. cbn [set_rows].
  apply (rsim_bind vsim); [apply sim_attr, H, y_kept|]. intros v v' V. apply rsim_eq; [apply vsim_M, V|]. intros m. apply rsim_eq; [reflexivity|]. intros row.
  apply IH, sim_set; [apply vsim_refl|exact H].
Qed.
Lemma rows_frame items k : ~ In k (map fst items) -> forall s t, set_rows items s = Ok t -> dict_get k t = dict_get k s.
Proof.
  induction items as [|[name i] items IH]; intros N s t E; cbn [set_rows map fst] in *; [injection E as <-; reflexivity|].
  destruct (getattr s "y") as [v|]; [|discriminate]. cbn [bind] in E. destruct (as_M v) as [m|]; [|discriminate]. cbn [bind] in E. destruct (row i m) as [w|]; [|discriminate]. cbn [bind] in E.
  rewrite (IH ltac:(intros X; apply N; right; exact X) _ _ E). unfold setattr. apply get_set_neq. intros ->. apply N. left. reflexivity.
Qed.
Lemma map_dict_total {A B} (f : A -> res B) d : (forall a, exists b, f a = Ok b) -> exists d', map_dict f d = Ok d'.
Proof. intros H. induction d as [|[k v] d [d' IH] ]; [eexists; reflexivity|]. cbn [map_dict]. destruct (H v) as [b ->]. cbn [bind]. rewrite IH. eexists. reflexivity. Qed.
Lemma map_dict_get {A B} (f : A -> res B) k d : forall d', map_dict f d = Ok d' ->
  match dict_get k d with Some a => exists b, f a = Ok b /\ dict_get k d' = Some b | None => dict_get k d' = None end.
Proof.
  induction d as [|[j v] d IH]; intros d' E; cbn [map_dict] in E; [injection E as <-; reflexivity|].
  destruct (f v) as [w|] eqn:EF; [|discriminate]. cbn [bind] in E. destruct (map_dict f d) as [r|]; [|discriminate]. injection E as <-.
  cbn [dict_get]. destruct (String.eqb k j); [eauto|]. apply IH. reflexivity.
Qed.
Lemma map_dict_sim {A B} (f : A -> res B) d d' : (forall a, exists b, f a = Ok b) -> dsim d d' -> rsim dsim (map_dict f d) (map_dict f d').
Proof.
  intros T H. destruct (map_dict_total f d T) as [e E], (map_dict_total f d' T) as [e' E']. rewrite E, E'. intros n I. specialize (H n I).
  pose proof (map_dict_get f n d e E) as X. pose proof (map_dict_get f n d' e' E') as X'. rewrite H in X.
  destruct (dict_get n d') as [a|]; [|congruence]. destruct X as (b & X1 & ->), X' as (b' & X2 & ->). congruence.
Qed.
Lemma cols_sim nc items : (forall n i, In (n, i) items -> (i < nc)%nat) -> forall s s', fsim s s' -> rsim fsim (set_event_cols nc items s) (set_event_cols nc items s').
Proof.
  induction items as [|[name i] items IH]; intros L s s' H; [exact H|]. cbn [set_event_cols].
  apply (rsim_bind vsim); [apply sim_attr, H; discriminate|]. intros v v' V. apply (rsim_bind dsim); [apply vsim_DY, V|]. intros d d' D.
  apply (rsim_bind dsim).
  - apply map_dict_sim; [|exact D]. intros a. unfold event_col. assert (X : (i < nc)%nat) by (apply (L name); left; reflexivity). apply Nat.ltb_lt in X. rewrite X. destruct a; eexists; reflexivity.
  - intros e e' E. apply IH; [intros n j J; apply (L n); right; exact J|]. apply fsim_set; [exact E|exact H].
Qed.
(** Equations.sol *)
Lemma base_sim idx xname nc r r' keys keys' :
  (forall n i, In (n, i) idx -> (i < nc)%nat) ->
  (forall k, In k ["event_keys"; "t_events"; "y_events"; "y"] -> ~ In k (map fst idx) /\ k <> xname) ->
  "y_events" <> xname ++ "_events" -> "y" <> xname ++ "_events" ->
  r_t r = r_t r' -> r_y r = r_y r' ->
  dsim (dict_zip keys (r_t_events r)) (dict_zip keys' (r_t_events r')) ->
  dsim (dict_zip keys (r_y_events r)) (dict_zip keys' (r_y_events r')) ->
  rsim fsim (base_sol idx xname (bunch_of nc r keys)) (base_sol idx xname (bunch_of nc r' keys')).
Proof.
  intros L N NE1 NE2 ET EY DT DY. unfold base_sol.
  assert (T : getattr (setattr "independent_variable" (VStr xname) (bunch_of nc r keys)) "t" = Ok (VA (map Fin (r_t r))) /\ getattr (setattr "independent_variable" (VStr xname) (bunch_of nc r' keys')) "t" = Ok (VA (map Fin (r_t r)))).
  { unfold getattr, setattr, bunch_of. rewrite ET. split; reflexivity. }
  destruct T as [-> ->]. cbn [bind].
  set (a := delattr "t" (setattr "x" _ (setattr "independent_variable" (VStr xname) (bunch_of nc r keys)))).
  set (a' := delattr "t" (setattr "x" _ (setattr "independent_variable" (VStr xname) (bunch_of nc r' keys')))).
  assert (A : sim a a').
  { unfold a, a'. apply sim_del, sim_set; [apply vsim_refl|]. apply sim_set; [apply vsim_refl|]. intros k K. unfold bunch_of. rewrite <- ET, <- EY.
    cbn [dict_get]. destruct (String.eqb k "t"); [reflexivity|]. destruct (String.eqb k "y"); [reflexivity|].
    destruct (String.eqb_spec k "t_events"); [exfalso; apply K; cbn; auto|]. destruct (String.eqb_spec k "y_events"); [exfalso; apply K; cbn; auto|].
    destruct (String.eqb_spec k "event_keys"); [exfalso; apply K; cbn; auto|]. exact I. }
  pose proof (rows_sim idx a a' A) as RS. destruct (set_rows idx a) as [b|] eqn:Eb, (set_rows idx a') as [b'|] eqn:Eb'; cbn [rsim] in RS; try contradiction; [|cbn; exact RS].
  cbn [bind]. assert (KX : rsim vsim (getattr b "x") (getattr b' "x")) by (apply sim_attr, RS; cbn; intuition discriminate).
  destruct (getattr b "x") as [x|], (getattr b' "x") as [x'|]; cbn [rsim] in KX; try contradiction; [|cbn; exact KX]. cbn [bind].
  assert (G : forall k, In k ["event_keys"; "t_events"; "y_events"; "y"] -> dict_get k (setattr xname x b) = dict_get k (bunch_of nc r keys) /\ dict_get k (setattr xname x' b') = dict_get k (bunch_of nc r' keys')).
  { intros k K. destruct (N k K) as (N1 & N2). unfold setattr. rewrite !get_set_neq by exact N2. rewrite (rows_frame idx k N1 _ _ Eb), (rows_frame idx k N1 _ _ Eb').
    unfold a, a'. rewrite !get_del. unfold setattr. rewrite !get_set. cbn [In] in K. destruct K as [<-|[<-|[<-|[<-|[]] ] ] ]; split; reflexivity. }
  assert (SX : sim (setattr xname x b) (setattr xname x' b')) by (apply sim_set; [exact KX|exact RS]).
  rewrite (proj1 (G "event_keys" ltac:(cbn; tauto))), (proj2 (G "event_keys" ltac:(cbn; tauto))). cbn [bunch_of dict_get String.eqb Ascii.eqb Bool.eqb].
  rewrite (proj1 (G "t_events" ltac:(cbn; tauto))), (proj2 (G "t_events" ltac:(cbn; tauto))). cbn [bunch_of dict_get String.eqb Ascii.eqb Bool.eqb].
  set (c := setattr xname x b) in *. set (c' := setattr xname x' b') in *. clearbody c c'.
  set (d := setattr (xname ++ "_events") _ (delattr "t_events" (setattr "x_events" (VDT (dict_zip keys (r_t_events r))) c))).
  set (d' := setattr (xname ++ "_events") _ (delattr "t_events" (setattr "x_events" (VDT (dict_zip keys' (r_t_events r'))) c'))).
  assert (D : sim d d') by (unfold d, d'; apply sim_set; [exact DT|]; apply sim_del, sim_set; [exact DT|exact SX]).
  assert (GD : forall k, In k ["y_events"; "y"] -> dict_get k d = dict_get k (bunch_of nc r keys) /\ dict_get k d' = dict_get k (bunch_of nc r' keys')).
  { intros k K. assert (K' : In k ["event_keys"; "t_events"; "y_events"; "y"]) by (cbn in *; tauto). destruct (G k K') as [G1 G2]. assert (N3 : k <> xname ++ "_events") by (cbn [In] in K; destruct K as [<-|[<-|[]] ]; assumption).
    unfold d, d', setattr. rewrite !get_set_neq by exact N3. rewrite !get_del, !get_set, G1, G2. cbn [In] in K. destruct K as [<-|[<-|[]] ]; split; reflexivity. }
  rewrite (proj1 (GD "y_events" ltac:(cbn; tauto))), (proj2 (GD "y_events" ltac:(cbn; tauto))). cbn [bunch_of dict_get String.eqb Ascii.eqb Bool.eqb].
  set (e := setattr "y_events" _ (delattr "y_events" d)). set (e' := setattr "y_events" _ (delattr "y_events" d')).
  assert (E : fsim e e').
  { intros k K. unfold e, e', setattr. rewrite !get_set, !get_del. destruct (String.eqb_spec k "y_events") as [->|NY]; [exact DY|].
    destruct (String.eqb_spec "y_events" k); [congruence|]. destruct (String.eqb_spec k "t_events") as [->|NT].
    - unfold d, d', setattr. rewrite !get_set, !get_del. destruct (String.eqb "t_events" (xname ++ "_events")); [exact DT|exact I].
    - apply D. cbn. intuition congruence. }
  assert (YY : getattr e "y" = Ok (VM nc (r_y r)) /\ getattr e' "y" = Ok (VM nc (r_y r))).
  { unfold getattr, e, e', setattr. rewrite !get_set, !get_del. cbn [String.eqb Ascii.eqb Bool.eqb]. destruct (GD "y" ltac:(cbn; tauto)) as [-> ->].
    cbn [bunch_of dict_get String.eqb Ascii.eqb Bool.eqb]. rewrite EY. split; reflexivity. }
  destruct YY as [-> ->]. cbn [bind as_M fst]. apply cols_sim; [exact L|exact E].
Qed.

Lemma fired_sim {A} k (d d' : dict (list A)) : In k U -> dsim d d' -> fired k d = fired k d'.
Proof. intros I H. unfold fired. rewrite (H k I). reflexivity. Qed.
Lemma item_sim {A} k (d d' : dict A) : In k U -> dsim d d' -> item k d = item k d'.
Proof. intros I H. unfold item. rewrite (H k I). reflexivity. Qed.
Lemma has_sim {A} k (d d' : dict A) : In k U -> dsim d d' -> has_key k d = has_key k d'.
Proof. intros I H. unfold has_key. rewrite (H k I). reflexivity. Qed.
Definition psim (x y : attrs * list warning) : Prop := fsim (fst x) (fst y) /\ snd x = snd y.
Ltac inU := apply HU; cbn; tauto.
Ltac fs := first [assumption | apply fsim_set; [apply vsim_refl|]; fs].
Ltac at_ := let H := fresh in match goal with |- osim (dict_get ?k ?s) (dict_get ?k ?s') => assert (H : fsim s s') by fs; apply H; discriminate end.
Ltac eq_ := apply rsim_eq; [first [apply sim_A; at_ | apply sim_F; at_ | reflexivity]|].
Ltac ev_ := first [apply (rsim_bind dsim); [apply sim_DT; at_|] | apply (rsim_bind dsim); [apply sim_DY; at_|] ].

Lemma start_sim q vb s s' : fsim s s' -> rsim psim (postprocessing_inflation_start q vb s) (postprocessing_inflation_start q vb s').
Proof.
  intros H. unfold postprocessing_inflation_start.
  assert (H1 : fsim (setattr "H_beg" (VF NaN) (setattr "_N_beg" (VF NaN) s)) (setattr "H_beg" (VF NaN) (setattr "_N_beg" (VF NaN) s'))) by fs.
  set (t := setattr "H_beg" _ _) in *. set (t' := setattr "H_beg" _ (setattr "_N_beg" (VF NaN) s')) in *. clearbody t t'.
  ev_. intros d d' D.
  apply (rsim_bind psim).
  - rewrite (fired_sim "Collapse" d d') by (inU || exact D). destruct (fired "Collapse" d'); [split; [exact H1|reflexivity]|].
    eq_. intros xs. eq_. intros x0. eq_. intros x.
    apply (rsim_bind vsim); [apply sim_attr; at_|]. intros v v' V. apply rsim_eq; [apply vsim_M, V|]. intros m. eq_. intros y0. eq_. intros ws. eq_. intros w0.
    destruct (_ || _)%bool.
    + eq_. intros Ns. eq_. intros N0. split; [cbn [fst]; fs|reflexivity].
    + rewrite (fired_sim "Inflation_dir1_term0" d d') by (inU || exact D). destruct (fired "Inflation_dir1_term0" d').
      * apply rsim_eq; [apply item_sim; [inU|exact D]|]. intros l. eq_. intros n. ev_. intros e e' E. apply rsim_eq; [apply item_sim; [inU|exact E]|]. intros xl. eq_. intros x1.
        ev_. intros f f' F. apply rsim_eq; [apply item_sim; [inU|exact F]|]. intros yl. eq_. intros y1. split; [cbn [fst]; fs|reflexivity].
      * split; [exact H1|]. cbn [snd]. unfold start_warning_untracked. rewrite !(has_sim _ d d') by (inU || exact D). reflexivity.
  - intros [a w] [a' w'] [A W]. cbn [fst snd] in *. subst w'. eq_. intros nb. eq_. intros hb. split; [cbn [fst]; fs|reflexivity].
Qed.
Lemma end_from_sim q k s s' : In k U -> fsim s s' -> rsim fsim (end_from q k s) (end_from q k s').
Proof.
  intros I H. unfold end_from. ev_. intros d d' D. apply rsim_eq; [apply item_sim; [exact I|exact D]|]. intros l. eq_. intros n.
  ev_. intros e e' E. apply rsim_eq; [apply item_sim; [exact I|exact E]|]. intros pl. eq_. intros p.
  ev_. intros f f' F. apply rsim_eq; [apply item_sim; [exact I|exact F]|]. intros xl. eq_. intros x.
  ev_. intros g g' G. apply rsim_eq; [apply item_sim; [exact I|exact G]|]. intros yl. eq_. intros y.
  cbv zeta. cbn [rsim]. fs.
Qed.
Lemma end_sim q vb s s' : fsim s s' -> rsim psim (postprocessing_inflation_end q vb s) (postprocessing_inflation_end q vb s').
Proof.
  intros H. unfold postprocessing_inflation_end.
  set (t := setattr "V_end" _ _). set (t' := setattr "V_end" _ (setattr "H_end" _ (setattr "phi_end" _ (setattr "_logaH_end" _ (setattr "_N_end" (VF NaN) s'))))).
  assert (H1 : fsim t t') by (unfold t, t'; fs). clearbody t t'.
  ev_. intros d d' D. rewrite !(fired_sim _ d d') by (inU || exact D).
  apply (rsim_bind fsim).
  - destruct (fired "Inflation_dir-1_term1" d'); [apply end_from_sim; [inU|exact H1]|]. destruct (fired "Inflation_dir-1_term0" d'); [apply end_from_sim; [inU|exact H1]|exact H1].
  - intros a a' A. eq_. intros p. assert (W : end_warning_untracked d = end_warning_untracked d') by (unfold end_warning_untracked; rewrite !(has_sim _ d d') by (inU || exact D); reflexivity).
    destruct p; cbn [rsim]; (split; cbn [fst snd]; [fs|rewrite ?W; reflexivity]).
Qed.
Lemma inflation_sim q vb s s' : (rsim fsim (base_sol (e_idx q) (e_xname q) s) (base_sol (e_idx q) (e_xname q) s')) -> rsim psim (inflation_sol q vb s) (inflation_sol q vb s').
Proof.
  intros B. unfold inflation_sol. apply (rsim_bind fsim); [exact B|]. clear B s s'. intros s s' H. eq_. intros xs.
  apply (rsim_bind vsim); [apply sim_attr; at_|]. intros v v' V. apply rsim_eq; [apply vsim_M, V|]. intros m. eq_. intros w.
  apply (rsim_bind psim); [apply start_sim; fs|]. intros [a wa] [a' wa'] [A WA]. cbn [fst snd] in *. subst wa'.
  apply (rsim_bind psim); [apply end_sim; fs|]. intros [b wb] [b' wb'] [B WB]. cbn [fst snd] in *. subst wb'. cbv zeta.
  eq_. intros H2. eq_. intros Ns. eq_. intros ne. eq_. intros nb. cbn [rsim]. split; [|reflexivity]. cbn [fst].
  destruct (_ && _)%bool; fs.
Qed.
End Sim.

Lemma zip_iff {A} keys (vs : list A) n v : NoDup keys -> List.length keys = List.length vs ->
  (dict_get n (dict_zip keys vs) = Some v <-> exists j, nth_error keys j = Some n /\ nth_error vs j = Some v).
Proof.
  intros ND L. split.
  - intros G. rewrite dict_zip_nodup in G by assumption. revert vs L G. induction keys as [|k keys IH]; intros [|w vs] L G; try discriminate.
    cbn [combine dict_get] in G. destruct (String.eqb_spec n k) as [->|NK].
    + injection G as ->. exists 0%nat. split; reflexivity.
    + destruct (IH ltac:(inversion ND; assumption) vs ltac:(cbn in L; lia) G) as (j & J1 & J2). exists (S j). split; assumption.
  - intros (j & J1 & J2). rewrite (get_dict_zip keys vs j n ND L J1). exact J2.
Qed.
(** both runs recorded the same for the events of this name (possibly: have no such event) *)
Definition same_record (fmt : R -> string) events r events' r' (n : string) : Prop :=
  forall te ye, tracked fmt events r n te ye <-> tracked fmt events' r' n te ye.
Lemma zips_agree fmt m events r events' r' n :
  NoDup (map (event_name fmt) events) -> NoDup (map (event_name fmt) events') ->
  ivp_ok m (List.length events) r -> ivp_ok m (List.length events') r' -> same_record fmt events r events' r' n ->
  dict_get n (dict_zip (map (event_name fmt) events) (r_t_events r)) = dict_get n (dict_zip (map (event_name fmt) events') (r_t_events r')) /\
  dict_get n (dict_zip (map (event_name fmt) events) (r_y_events r)) = dict_get n (dict_zip (map (event_name fmt) events') (r_y_events r')).
Proof.
  intros ND ND' (_ & _ & L1 & L2 & _) (_ & _ & L1' & L2' & _) H.
  assert (F : forall events r, NoDup (map (event_name fmt) events) -> List.length (r_t_events r) = List.length events -> List.length (r_y_events r) = List.length events ->
    match dict_get n (dict_zip (map (event_name fmt) events) (r_t_events r)), dict_get n (dict_zip (map (event_name fmt) events) (r_y_events r)) with
    | Some te, Some ye => tracked fmt events r n te ye | None, None => forall te ye, ~ tracked fmt events r n te ye | _, _ => False end).
  { clear. intros events r ND L1 L2.
    assert (G : forall j, nth_error (map (event_name fmt) events) j = Some n -> exists te ye e, nth_error events j = Some e /\ event_name fmt e = n /\
              nth_error (r_t_events r) j = Some te /\ nth_error (r_y_events r) j = Some ye).
    { intros j J. rewrite nth_error_map in J. destruct (nth_error events j) as [e|] eqn:E; [|discriminate]. injection J as J.
      assert (B : (j < List.length events)%nat) by (apply nth_error_Some; congruence).
      destruct (nth_error (r_t_events r) j) as [te|] eqn:T; [|apply nth_error_None in T; lia].
      destruct (nth_error (r_y_events r) j) as [ye|] eqn:Y; [|apply nth_error_None in Y; lia]. exists te, ye, e. auto. }
    pose proof (zip_iff (map (event_name fmt) events) (r_t_events r) n) as Z1. pose proof (zip_iff (map (event_name fmt) events) (r_y_events r) n) as Z2.
    destruct (dict_get n (dict_zip (map (event_name fmt) events) (r_t_events r))) as [te|] eqn:E1.
    - destruct (proj1 (Z1 te ND ltac:(rewrite map_length; lia)) eq_refl) as (j & J1 & J2). destruct (G j J1) as (te' & ye & e & G1 & G2 & G3 & G4).
      assert (EY : dict_get n (dict_zip (map (event_name fmt) events) (r_y_events r)) = Some ye) by (apply Z2; [exact ND|rewrite map_length; lia|exists j; auto]).
      rewrite EY. exists j, e. rewrite J2. auto.
    - destruct (dict_get n (dict_zip (map (event_name fmt) events) (r_y_events r))) as [ye|] eqn:E2.
      + destruct (proj1 (Z2 ye ND ltac:(rewrite map_length; lia)) eq_refl) as (j & J1 & J2). destruct (G j J1) as (te' & ye' & e & G1 & G2 & G3 & G4).
        assert (X : (None : option (list R)) = Some te') by (apply Z1; [exact ND|rewrite map_length; lia|exists j; auto]). discriminate X.
      + intros te ye (j & e & H1 & H2 & H3 & H4).
        assert (X : (None : option (list R)) = Some te) by (apply Z1; [exact ND|rewrite map_length; lia|exists j; split; [rewrite (map_nth_error _ _ _ H1), H2; reflexivity|exact H3] ]). discriminate X. }
  assert (U : forall events r, NoDup (map (event_name fmt) events) -> forall a b a' b', tracked fmt events r n a b -> tracked fmt events r n a' b' -> a = a' /\ b = b').
  { clear. intros events r ND a b a' b' (j & e & H1 & H2 & H3 & H4) (j' & e' & H1' & H2' & H3' & H4').
    assert (J : j = j'). { apply (proj1 (NoDup_nth_error _) ND); [rewrite map_length; apply nth_error_Some; congruence|]. rewrite (map_nth_error _ _ _ H1), (map_nth_error _ _ _ H1'). congruence. }
    subst j'. split; congruence. }
  pose proof (F events r ND L1 L2) as X. pose proof (F events' r' ND' L1' L2') as X'.
  destruct (dict_get n (dict_zip (map (event_name fmt) events) (r_t_events r))) as [te|], (dict_get n (dict_zip (map (event_name fmt) events) (r_y_events r))) as [ye|]; try contradiction;
  destruct (dict_get n (dict_zip (map (event_name fmt) events') (r_t_events r'))) as [te'|], (dict_get n (dict_zip (map (event_name fmt) events') (r_y_events r'))) as [ye'|]; try contradiction.
  - apply H in X. destruct (U _ _ ND' _ _ _ _ X X') as [-> ->]. split; reflexivity.
  - exfalso. apply H in X. exact (X' _ _ X).
  - exfalso. apply H in X'. exact (X _ _ X').
  - split; reflexivity.
Qed.

Lemma solve_sim U fmt q vb events r events' r' : incl looked_up U -> inflation_eqs q ->
  NoDup (map (event_name fmt) events) -> NoDup (map (event_name fmt) events') ->
  ivp_ok (List.length (e_idx q)) (List.length events) r -> ivp_ok (List.length (e_idx q)) (List.length events') r' ->
  r_t r = r_t r' -> r_y r = r_y r' -> (forall n, In n U -> same_record fmt events r events' r' n) ->
  rsim (psim U) (solve fmt q vb events r) (solve fmt q vb events' r').
Proof.
  intros HU HQ ND ND' IV IV' ET EY H. unfold solve. apply (inflation_sim U HU). apply base_sim.
  - destruct HQ as [(K & P & te & ->)|(K & P & tm & te & ->)]; [destruct te|destruct tm, te]; cbn; intros n i I;
      repeat (destruct I as [I|I]; [injection I as <- <-; lia|]); contradiction.
  - destruct HQ as [(K & P & te & ->)|(K & P & tm & te & ->)]; [destruct te|destruct tm, te]; intros k I; cbn in I;
      (destruct I as [<-|[<-|[<-|[<-|[]] ] ] ]; (split; [cbn; intros X; repeat (destruct X as [X|X]; [discriminate X|]); exact X|discriminate])).
  - destruct HQ as [(K & P & te & ->)|(K & P & tm & te & ->)]; discriminate.
  - destruct HQ as [(K & P & te & ->)|(K & P & tm & te & ->)]; discriminate.
  - exact ET.
  - exact EY.
  - intros n I. exact (proj1 (zips_agree fmt _ _ _ _ _ n ND ND' IV IV' (H n I))).
  - intros n I. exact (proj2 (zips_agree fmt _ _ _ _ _ n ND ND' IV IV' (H n I))).
Qed.
(** an attribute that is no dictionary of events *)
Definition plain (v : val) : Prop := match v with VDT _ | VDY _ => False | _ => True end.
(** Two runs with the same samples whose events of the six names the code looks up recorded the same (whatever else is
    tracked, in whatever order): the same warnings, the same values of all attributes but event_keys, and the same
    entries of all event dictionaries under every name for which the same was recorded. *)
Theorem C105_events : forall fmt q verbose events r events' r', inflation_eqs q ->
  NoDup (map (event_name fmt) events) -> NoDup (map (event_name fmt) events') ->
  ivp_ok (List.length (e_idx q)) (List.length events) r -> ivp_ok (List.length (e_idx q)) (List.length events') r' ->
  r_t r = r_t r' -> r_y r = r_y r' -> (forall n, In n looked_up -> same_record fmt events r events' r' n) ->
  exists s s' ws, solve fmt q verbose events r = Ok (s, ws) /\ solve fmt q verbose events' r' = Ok (s', ws) /\
    (forall k v, k <> "event_keys" -> plain v -> (dict_get k s = Some v <-> dict_get k s' = Some v)) /\
    (forall n, same_record fmt events r events' r' n -> forall k, k <> "event_keys" ->
       (forall x, (exists d, get_DT s k = Ok d /\ dict_get n d = Some x) <-> (exists d, get_DT s' k = Ok d /\ dict_get n d = Some x)) /\
       (forall x, (exists d, get_DY s k = Ok d /\ dict_get n d = Some x) <-> (exists d, get_DY s' k = Ok d /\ dict_get n d = Some x))).
Proof.
  intros fmt q vb events r events' r' HQ ND ND' IV IV' ET EY H.
  destruct (C29_end fmt q vb events r HQ ND IV) as (s & ws & ES & _). destruct (C29_end fmt q vb events' r' HQ ND' IV') as (s' & ws' & ES' & _).
  pose proof (solve_sim looked_up fmt q vb events r events' r' (incl_refl _) HQ ND ND' IV IV' ET EY H) as X. rewrite ES, ES' in X. destruct X as [F W]. cbn [fst snd] in F, W. subst ws'.
  exists s, s', ws. split; [exact ES|]. split; [exact ES'|]. split.
  - intros k v NK P. specialize (F k NK). unfold osim in F. destruct (dict_get k s) as [u|], (dict_get k s') as [u'|]; try contradiction; [|split; discriminate].
    destruct u, u'; cbn in F; try contradiction; try discriminate F; try (rewrite F; tauto); split; intros E; injection E as <-; contradiction.
  - intros n HN k NK.
    assert (X : rsim (psim (n :: looked_up)) (solve fmt q vb events r) (solve fmt q vb events' r')).
    { apply solve_sim; try assumption; [intros m M; right; exact M|]. intros m [<-|M]; [exact HN|exact (H m M)]. }
    rewrite ES, ES' in X. destruct X as [G _]. cbn [fst] in G. specialize (G k NK). split; intros x.
    + pose proof (sim_DT (n :: looked_up) s s' k G) as Y. destruct (get_DT s k) as [d|], (get_DT s' k) as [d'|]; cbn [rsim] in Y; try contradiction.
      * pose proof (Y n (or_introl eq_refl)) as Z. split; intros (e & E & V); injection E as <-; eexists; (split; [reflexivity|congruence]).
      * split; intros (d1 & E & V); discriminate E.
    + pose proof (sim_DY (n :: looked_up) s s' k G) as Y. destruct (get_DY s k) as [d|], (get_DY s' k) as [d'|]; cbn [rsim] in Y; try contradiction.
      * pose proof (Y n (or_introl eq_refl)) as Z. split; intros (e & E & V); injection E as <-; eexists; (split; [reflexivity|congruence]).
      * split; intros (d1 & E & V); discriminate E.
Qed.
(** the events with what was recorded for them *)
Definition records (events : list event) (r : raw_sol) : list (event * (list R * list (list R))) := combine events (combine (r_t_events r) (r_y_events r)).
Lemma tracked_in fmt events r n te ye : tracked fmt events r n te ye <-> exists e, In (e, (te, ye)) (records events r) /\ event_name fmt e = n.
Proof.
  unfold tracked, records. generalize (r_t_events r) (r_y_events r). intros lt ly. split.
  - intros (j & e & H1 & H2 & H3 & H4). exists e. split; [|exact H2]. revert events lt ly H1 H3 H4. induction j as [|j IH]; intros [|a events] [|b lt] [|c ly]; cbn; try discriminate.
    + intros [= ->] [= ->] [= ->]. left. reflexivity.
    + intros X Y Z. right. exact (IH _ _ _ X Y Z).
  - intros (e & I & E). enough (exists j, nth_error events j = Some e /\ nth_error lt j = Some te /\ nth_error ly j = Some ye) as (j & J1 & J2 & J3) by (exists j, e; auto).
    revert lt ly I. induction events as [|a events IH]; intros [|b lt] [|c ly] I; try contradiction. destruct I as [I|I].
    + injection I as -> -> ->. exists 0%nat. auto.
    + destruct (IH _ _ I) as (j & J). exists (S j). exact J.
Qed.
(** the order of the events is irrelevant *)
Theorem C105_order : forall fmt q verbose events r events' r', inflation_eqs q ->
  NoDup (map (event_name fmt) events) -> NoDup (map (event_name fmt) events') ->
  ivp_ok (List.length (e_idx q)) (List.length events) r -> ivp_ok (List.length (e_idx q)) (List.length events') r' ->
  r_t r = r_t r' -> r_y r = r_y r' -> Permutation (records events r) (records events' r') ->
  exists s s' ws, solve fmt q verbose events r = Ok (s, ws) /\ solve fmt q verbose events' r' = Ok (s', ws) /\
    (forall k v, k <> "event_keys" -> plain v -> (dict_get k s = Some v <-> dict_get k s' = Some v)) /\
    (forall n k, k <> "event_keys" ->
       (forall x, (exists d, get_DT s k = Ok d /\ dict_get n d = Some x) <-> (exists d, get_DT s' k = Ok d /\ dict_get n d = Some x)) /\
       (forall x, (exists d, get_DY s k = Ok d /\ dict_get n d = Some x) <-> (exists d, get_DY s' k = Ok d /\ dict_get n d = Some x))).
Proof.
  intros fmt q vb events r events' r' HQ ND ND' IV IV' ET EY P.
  assert (H : forall n, same_record fmt events r events' r' n).
  { intros n te ye. rewrite !tracked_in. split; intros (e & I & E); exists e; (split; [|exact E]); [exact (Permutation_in _ P I)|exact (Permutation_in _ (Permutation_sym P) I)]. }
  destruct (C105_events fmt q vb events r events' r' HQ ND ND' IV IV' ET EY (fun n _ => H n)) as (s & s' & ws & X1 & X2 & X3 & X4).
  exists s, s', ws. split; [exact X1|]. split; [exact X2|]. split; [exact X3|]. intros n k K. exact (X4 n (H n) k K).
Qed.
(** tracking one more event, of a name the code does not look up, changes nothing but the event dictionaries *)
Theorem C105_extra : forall fmt q verbose events r e te ye, inflation_eqs q -> let r' := mkraw (r_t r) (r_y r) (te :: r_t_events r) (ye :: r_y_events r) in
  NoDup (map (event_name fmt) (e :: events)) -> ~ In (event_name fmt e) looked_up -> List.length te = List.length ye ->
  ivp_ok (List.length (e_idx q)) (List.length events) r ->
  exists s s' ws, solve fmt q verbose events r = Ok (s, ws) /\ solve fmt q verbose (e :: events) r' = Ok (s', ws) /\
    (forall k v, k <> "event_keys" -> plain v -> (dict_get k s = Some v <-> dict_get k s' = Some v)) /\
    (forall n, n <> event_name fmt e -> forall k, k <> "event_keys" ->
       (forall x, (exists d, get_DT s k = Ok d /\ dict_get n d = Some x) <-> (exists d, get_DT s' k = Ok d /\ dict_get n d = Some x)) /\
       (forall x, (exists d, get_DY s k = Ok d /\ dict_get n d = Some x) <-> (exists d, get_DY s' k = Ok d /\ dict_get n d = Some x))).
Proof.
  intros fmt q vb events r e te ye HQ r' ND NL LE IV.
  assert (IV' : ivp_ok (List.length (e_idx q)) (List.length (e :: events)) r').
  { destruct IV as (I1 & I2 & I3 & I4 & I5). unfold ivp_ok, r'. cbn [r_t r_y r_t_events r_y_events List.length]. repeat (split; [auto; lia|]).
    intros [|j] a b; cbn [nth_error]; [intros [= <-] [= <-]; exact LE|apply I5]. }
  assert (ND0 : NoDup (map (event_name fmt) events)) by (cbn [map] in ND; inversion ND; assumption).
  assert (H : forall n, n <> event_name fmt e -> same_record fmt events r (e :: events) r' n).
  { intros n NE a b. rewrite !tracked_in. unfold records, r'. cbn [r_t_events r_y_events combine In]. split.
    - intros (f & I & E). exists f. auto.
    - intros (f & [I|I] & E); [injection I as <- <- <-; congruence|]. exists f. auto. }
  destruct (C105_events fmt q vb events r (e :: events) r' HQ ND0 ND IV IV' eq_refl eq_refl) as (s & s' & ws & X1 & X2 & X3 & X4).
  { intros n I. apply H. intros ->. exact (NL I). }
  exists s, s', ws. split; [exact X1|]. split; [exact X2|]. split; [exact X3|]. intros n NE. exact (X4 n (H n NE)).
Qed.
(** the two standard events, in both orders, with an extra UntilN *)
Definition U1 : potfun := mkpotfun (fun _ => 1) (fun _ => 0) (fun _ => 0) (fun _ => 0).
Definition ex_ev : list event := [Inflation 1 false 0 None; Inflation (-1) true 0 None].
Definition ex_r : raw_sol := mkraw [0; 3] [[0; 2; 0]; [1; 2; 5]] [[1]; [3]] [[[1; 1; 2]]; [[1; 2; 5]]].
Definition ex_ev' : list event := [Inflation (-1) true 0 None; Inflation 1 false 0 None].
Definition ex_r' : raw_sol := mkraw [0; 3] [[0; 2; 0]; [1; 2; 5]] [[3]; [1]] [[[1; 2; 5]]; [[1; 1; 2]]].
Theorem C105_nonvacuous fmt : let q := T_eqs 0 U1 false in inflation_eqs q /\
  NoDup (map (event_name fmt) ex_ev) /\ NoDup (map (event_name fmt) ex_ev') /\ NoDup (map (event_name fmt) (UntilN 70 :: ex_ev)) /\
  ~ In (event_name fmt (UntilN 70)) looked_up /\
  ivp_ok (List.length (e_idx q)) (List.length ex_ev) ex_r /\ ivp_ok (List.length (e_idx q)) (List.length ex_ev') ex_r' /\
  r_t ex_r = r_t ex_r' /\ r_y ex_r = r_y ex_r' /\ Permutation (records ex_ev ex_r) (records ex_ev' ex_r') /\ records ex_ev ex_r <> records ex_ev' ex_r'.
Proof.
  assert (IV : forall x y u v, ivp_ok 3 2 (mkraw [0; 3] [[0; 2; 0]; [1; 2; 5]] [[x]; [y]] [[u]; [v]])).
  { intros x y u v. split; [discriminate|]. repeat (split; [reflexivity|]). intros [|[|j] ] a b; cbn; [intros [= <-] [= <-]|intros [= <-] [= <-]|destruct j; discriminate]; reflexivity. }
  cbv zeta. split; [left; repeat eexists|].
  split; [repeat constructor; cbn; intuition discriminate|]. split; [repeat constructor; cbn; intuition discriminate|]. split; [repeat constructor; cbn; intuition discriminate|].
  split; [cbn; intuition discriminate|]. split; [apply IV|]. split; [apply IV|]. split; [reflexivity|]. split; [reflexivity|]. split.
  - apply perm_swap.
  - unfold records, ex_ev, ex_ev'. cbn. intros E. injection E. intros. lra.
Qed.
