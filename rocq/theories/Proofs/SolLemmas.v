From Coq Require Import Reals List String Arith Lia Lra Bool Ascii ZArith DecimalString DecimalZ.
From Verif Require Import Base Model.Equations Model.Background Model.Float Model.Solution Spec.SolutionSpec Proofs.DictLemmas.
Import ListNotations.
Open Scope string_scope.
Open Scope R_scope.

Definition col (i : nat) (ys : list (list R)) : list R := map (fun s => nth i s 0) ys.

Lemma set_rows_ok items n ys : (forall k i, In (k, i) items -> (i < n)%nat /\ k <> "y") -> NoDup (map fst items) ->
  forall s, dict_get "y" s = Some (VM n ys) ->
  exists s', set_rows items s = Ok s' /\
    forall k, dict_get k s' = match dict_get k items with Some i => Some (VA (map Fin (col i ys))) | None => dict_get k s end.
Proof.
  induction items as [|[name i] items IH]; intros HI ND s Hy.
  - exists s. split; [reflexivity|]. reflexivity.
  - destruct (HI name i (or_introl eq_refl)) as [Hi Hn]. inversion ND; subst. simpl.
    unfold getattr. rewrite Hy. simpl. unfold row. simpl. replace (Nat.ltb i n) with true by (symmetry; apply Nat.ltb_lt; exact Hi). simpl.
    destruct (IH (fun k j H => HI k j (or_intror H)) H2 (setattr name (VA (map (fun st => Fin (nth i st 0)) ys)) s)) as [s' [E G]].
    { unfold setattr. rewrite get_set_neq; [exact Hy|]. intros C; apply Hn; auto. }
    exists s'. split; [exact E|]. intros k. rewrite G. unfold setattr. rewrite get_set.
    destruct (String.eqb k name) eqn:Ek; [|reflexivity]. apply String.eqb_eq in Ek; subst k.
    destruct (dict_get name items) eqn:Ed; [|unfold col; rewrite map_map; reflexivity].
    exfalso. apply get_none_notin in H1. congruence.
Qed.

Lemma map_dict_event_col n i (d : dict (list (list R))) : (i < n)%nat ->
  exists e, map_dict (event_col n i) d = Ok e /\ forall k, dict_get k e = match dict_get k d with Some v => Some (col i v) | None => None end.
Proof.
  intros Hi. induction d as [|[k v] d IH]; [exists []; split; reflexivity|].
  destruct IH as [e [E G]]. simpl.
  assert (Ev : event_col n i v = Ok (col i v)).
  { unfold event_col, col. destruct v; [reflexivity|]. replace (Nat.ltb i n) with true by (symmetry; apply Nat.ltb_lt; exact Hi). reflexivity. }
  rewrite Ev. simpl. rewrite E. simpl. exists ((k, col i v) :: e). split; [reflexivity|].
  intros k'. simpl. destruct (String.eqb k' k); [reflexivity|apply G].
Qed.
Lemma set_event_cols_ok items n d : (forall k i, In (k, i) items -> (i < n)%nat /\ (k ++ "_events")%string <> "y_events"%string) -> NoDup (map fst items) ->
  forall s, dict_get "y_events" s = Some (VDY d) ->
  exists s', set_event_cols n items s = Ok s' /\
    (forall name i, dict_get name items = Some i -> exists e, dict_get (name ++ "_events") s' = Some (VDT e) /\
        forall k, dict_get k e = match dict_get k d with Some v => Some (col i v) | None => None end) /\
    (forall k, (forall name, In name (map fst items) -> k <> (name ++ "_events")%string) -> dict_get k s' = dict_get k s).
Proof.
  induction items as [|[name i] items IH]; intros HI ND s Hy.
  - exists s. split; [reflexivity|]. split; [discriminate|reflexivity].
  - destruct (HI name i (or_introl eq_refl)) as [Hi Hn]. inversion ND; subst.
    destruct (map_dict_event_col n i d Hi) as [e [E G]]. simpl. unfold getattr. rewrite Hy. simpl. rewrite E. simpl.
    destruct (IH (fun k j H => HI k j (or_intror H)) H2 (setattr (name ++ "_events") (VDT e) s)) as [s' [E' [A B]]].
    { unfold setattr. rewrite get_set_neq; [exact Hy|]. intros C; apply Hn; auto. }
    exists s'. split; [exact E'|]. split.
    + intros nm j Hj. simpl in Hj. destruct (String.eqb nm name) eqn:En.
      * apply String.eqb_eq in En; subst nm. injection Hj as <-. exists e. split; [|exact G].
        rewrite B; [unfold setattr; apply get_set_eq|]. intros nm Hnm C. apply append_inj_r in C. subst nm. contradiction.
      * apply (A nm j Hj).
    + intros k Hk. rewrite B; [unfold setattr; apply get_set_neq; apply Hk; left; reflexivity|]. intros nm Hnm; apply Hk; right; exact Hnm.
Qed.

Lemma in_combine_seq (names : list string) s k i : In (k, i) (combine names (seq s (List.length names))) -> (s <= i < s + List.length names)%nat.
Proof. intros H. apply in_combine_r, in_seq in H. exact H. Qed.

Ltac strneq := try (intros ?CC; subst; discriminate).

(** full description of the attributes after Equations.sol *)
Lemma base_sol_ok names xname keys r n : clash_free xname names -> n = List.length names ->
  ivp_ok n (List.length keys) r ->
  exists s', base_sol (add_variable names []) xname (bunch_of n r keys) = Ok s' /\
    dict_get "independent_variable" s' = Some (VStr xname) /\
    dict_get "x" s' = Some (VA (map Fin (r_t r))) /\ dict_get xname s' = Some (VA (map Fin (r_t r))) /\
    dict_get "y" s' = Some (VM n (r_y r)) /\
    (forall i name, nth_error names i = Some name -> dict_get name s' = Some (VA (map Fin (col i (r_y r))))) /\
    dict_get "x_events" s' = Some (VDT (dict_zip keys (r_t_events r))) /\
    dict_get (xname ++ "_events") s' = Some (VDT (dict_zip keys (r_t_events r))) /\
    dict_get "y_events" s' = Some (VDY (dict_zip keys (r_y_events r))) /\
    (forall i name, nth_error names i = Some name -> exists e, dict_get (name ++ "_events") s' = Some (VDT e) /\
       forall k, dict_get k e = match dict_get k (dict_zip keys (r_y_events r)) with Some v => Some (col i v) | None => None end) /\
    (forall k, ~ In k (xname :: names) -> (forall c, k <> (c ++ "_events")%string) ->
       ~ In k ["x"; "y"; "event_keys"; "independent_variable"]%string -> dict_get k s' = None).
Proof.
  intros [ND [RES EV]] Hn IV.
  assert (NDn : NoDup names) by (inversion ND; assumption).
  assert (NIx : ~ In xname names) by (inversion ND; assumption).
  rewrite add_variable_app by (simpl; exact NDn). simpl.
  assert (FST : map fst (combine names (seq 0 (List.length names))) = names) by (apply map_fst_combine; rewrite seq_length; reflexivity).
  assert (R : forall a b, In a (xname :: names) -> In b ["x"; "y"; "x_events"; "y_events"; "t_events"; "event_keys"; "independent_variable"]%string -> a <> b).
  { intros a b Ha Hb C. subst b. apply (RES a Ha Hb). }
  set (items := combine names (seq 0 (List.length names))) in *.
  assert (GI : forall i name, nth_error names i = Some name -> dict_get name items = Some i).
  { intros i name Hi. unfold items. rewrite (get_combine names _ i name NDn); [|rewrite seq_length; reflexivity|exact Hi].
    assert (i < List.length names)%nat by (apply nth_error_Some; congruence).
    rewrite (nth_error_nth' _ 0%nat) by (rewrite seq_length; assumption). rewrite seq_nth by assumption. reflexivity. }
  assert (GN : forall k, ~ In k names -> dict_get k items = None) by (intros k Hk; apply get_none_notin; rewrite FST; exact Hk).
  assert (RN : forall b, In b ["x"; "y"; "x_events"; "y_events"; "t_events"; "event_keys"; "independent_variable"]%string -> dict_get b items = None).
  { intros b Hb. apply GN. intros C. apply (RES b (or_intror C) Hb). }
  unfold base_sol, bunch_of. cbn [setattr dict_set String.eqb Ascii.eqb Bool.eqb getattr dict_get bind delattr filter negb fst].
  match goal with |- context [set_rows items ?s] => set (s1 := s) end.
  destruct (set_rows_ok items n (r_y r)) with (s := s1) as [s2 [E2 G2]].
  { intros k i Hk. apply in_combine_seq in Hk as Hk'. split; [lia|]. apply R; [right; eapply in_combine_l; exact Hk|simpl; tauto]. }
  { rewrite FST; exact NDn. }
  { reflexivity. }
  rewrite E2. cbn [bind]. unfold getattr at 1. rewrite G2, (RN "x"%string) by (simpl; tauto).
  unfold s1 at 1. cbn [dict_get String.eqb Ascii.eqb Bool.eqb bind].
  assert (X : forall b, In b ["x"; "y"; "x_events"; "y_events"; "t_events"; "event_keys"; "independent_variable"]%string -> b <> xname) by (intros b Hb C; apply (R xname b); [left; reflexivity|exact Hb|auto]).
  assert (XE : forall b, (xname ++ "_events")%string = b -> In b (xname :: names) -> False) by (intros b <- Hb; apply (EV xname (xname ++ "_events")%string); [left; reflexivity|exact Hb|reflexivity]).
  assert (AE : forall a c, In a (xname :: names) -> In (c ++ "_events")%string ["x_events"; "y_events"]%string -> (a ++ "_events")%string <> (c ++ "_events")%string).
  { intros a c Ha Hc C. apply append_inj_r in C. subst c. destruct Hc as [Hc|[Hc|[]]].
    - apply (append_inj_r "x" a "_events") in Hc. apply (R a "x"%string Ha); simpl; auto.
    - apply (append_inj_r "y" a "_events") in Hc. apply (R a "y"%string Ha); simpl; auto. }
  unfold setattr at 1. rewrite (get_set_neq "event_keys"%string) by (apply X; simpl; tauto).
  rewrite G2, (RN "event_keys"%string) by (simpl; tauto). unfold s1 at 1. cbn [dict_get String.eqb Ascii.eqb Bool.eqb].
  unfold setattr at 1. rewrite (get_set_neq "t_events"%string) by (apply X; simpl; tauto).
  rewrite G2, (RN "t_events"%string) by (simpl; tauto). unfold s1 at 1. cbn [dict_get String.eqb Ascii.eqb Bool.eqb].
  match goal with |- context [setattr (xname ++ "_events") ?v ?s] => set (s3 := setattr (xname ++ "_events") v s) end.
  assert (NY : "y_events"%string <> (xname ++ "_events")%string) by (intros C; apply (append_inj_r "y" xname) in C; apply (X "y"%string); simpl; auto).
  assert (NX : "x_events"%string <> (xname ++ "_events")%string) by (intros C; apply (append_inj_r "x" xname) in C; apply (X "x"%string); simpl; auto).
  assert (NL : forall b, (forall c, b <> (c ++ "_events")%string) -> b <> (xname ++ "_events")%string) by auto.
  assert (G3 : forall k, dict_get k s3 = if String.eqb k (xname ++ "_events") then Some (VDT (dict_zip keys (r_t_events r)))
     else if String.eqb "t_events" k then None else if String.eqb k "x_events" then Some (VDT (dict_zip keys (r_t_events r)))
     else if String.eqb k xname then Some (VA (map Fin (r_t r))) else dict_get k s2).
  { intros k. unfold s3, setattr. rewrite get_set, get_del, get_set, get_set. reflexivity. }
  rewrite (G3 "y_events"%string). replace (String.eqb "y_events" (xname ++ "_events")) with false by (symmetry; apply String.eqb_neq; exact NY).
  replace (String.eqb "y_events" xname) with false by (symmetry; apply String.eqb_neq, X; simpl; tauto). cbn [String.eqb Ascii.eqb Bool.eqb].
  rewrite G2, (RN "y_events"%string) by (simpl; tauto). unfold s1 at 1. cbn [dict_get String.eqb Ascii.eqb Bool.eqb].
  match goal with |- context [getattr ?s "y"] => set (s4 := s) end.
  assert (G4 : forall k, dict_get k s4 = if String.eqb k "y_events" then Some (VDY (dict_zip keys (r_y_events r))) else dict_get k s3).
  { intros k. unfold s4, setattr. rewrite get_set, get_del. rewrite (String.eqb_sym "y_events" k). destruct (String.eqb k "y_events"); reflexivity. }
  assert (NE : forall a, In a (xname :: names) -> String.eqb a (xname ++ "_events") = false).
  { intros a Ha. apply String.eqb_neq. intros C. apply (XE a); auto. }
  assert (Y4 : dict_get "y" s4 = Some (VM n (r_y r))).
  { rewrite G4. cbn [String.eqb Ascii.eqb Bool.eqb]. rewrite G3.
    assert (L : String.eqb "y" (xname ++ "_events") = false).
    { apply String.eqb_neq. intros C. destruct xname as [|c [|c' x']]; simpl in C; discriminate. }
    rewrite L. replace (String.eqb "y" xname) with false by (symmetry; apply String.eqb_neq, X; simpl; tauto). cbn [String.eqb Ascii.eqb Bool.eqb].
    rewrite G2, (RN "y"%string) by (simpl; tauto). reflexivity. }
  unfold getattr. rewrite Y4. cbn [bind as_M fst].
  destruct (set_event_cols_ok items n (dict_zip keys (r_y_events r))) with (s := s4) as [s5 [E5 [A5 B5]]].
  { intros k i Hk. apply in_combine_seq in Hk as Hk'. split; [lia|]. intros C. apply (append_inj_r k "y") in C.
    apply (R k "y"%string); [right; eapply in_combine_l; exact Hk|simpl; tauto|exact C]. }
  { rewrite FST; exact NDn. }
  { rewrite G4. reflexivity. }
  rewrite FST in B5. exists s5. split; [exact E5|].
  assert (KX : forall a, In a (xname :: names) -> String.eqb a "y_events" = false /\ String.eqb "t_events" a = false /\ String.eqb a "x_events" = false).
  { intros a Ha. repeat split; apply String.eqb_neq; [apply R|intros C; symmetry in C; revert C; apply R|apply R]; auto; simpl; tauto. }
  assert (S5 : forall k, lastc k <> Some "s"%char -> dict_get k s5 = if String.eqb k xname then Some (VA (map Fin (r_t r))) else dict_get k s2).
  { intros k Hk. rewrite B5 by (intros nm _; apply not_events, Hk). rewrite G4.
    assert (Q : forall c, String.eqb k (c ++ "_events") = false) by (intros c; apply String.eqb_neq, not_events, Hk).
    pose proof (Q "y"%string) as Q1. pose proof (Q "x"%string) as Q2. pose proof (Q "t"%string) as Q3. cbn [append] in Q1, Q2, Q3. rewrite Q1.
    rewrite G3, Q, (String.eqb_sym "t_events"), Q2, Q3. reflexivity. }
  assert (V5 : forall a, In a (xname :: names) -> dict_get a s5 = if String.eqb a xname then Some (VA (map Fin (r_t r))) else dict_get a s2).
  { intros a Ha. rewrite B5 by (intros nm Hnm C; apply (EV nm a); [right; exact Hnm|exact Ha|auto]).
    destruct (KX a Ha) as [K1 [K2 K3]]. rewrite G4, K1, G3, (NE a Ha), K2, K3. reflexivity. }
  repeat match goal with |- _ /\ _ => split end.
  - rewrite S5 by discriminate. replace (String.eqb "independent_variable" xname) with false by (symmetry; apply String.eqb_neq, X; simpl; tauto).
    rewrite G2, RN by (simpl; tauto). reflexivity.
  - rewrite S5 by discriminate. replace (String.eqb "x" xname) with false by (symmetry; apply String.eqb_neq, X; simpl; tauto).
    rewrite G2, RN by (simpl; tauto). reflexivity.
  - rewrite V5 by (left; reflexivity). rewrite String.eqb_refl. reflexivity.
  - rewrite S5 by discriminate. replace (String.eqb "y" xname) with false by (symmetry; apply String.eqb_neq, X; simpl; tauto).
    rewrite G2, RN by (simpl; tauto). reflexivity.
  - intros i name Hi. assert (Ha : In name names) by (eapply nth_error_In; exact Hi). rewrite V5 by (right; exact Ha).
    replace (String.eqb name xname) with false by (symmetry; apply String.eqb_neq; intros ->; contradiction).
    rewrite G2, (GI i name Hi). reflexivity.
  - rewrite B5. 2:{ intros nm Hnm C. apply (append_inj_r "x" nm) in C. apply (R nm "x"%string); [right; exact Hnm|simpl; tauto|auto]. }
    rewrite G4. cbn [String.eqb Ascii.eqb Bool.eqb]. rewrite G3.
    replace (String.eqb "x_events" (xname ++ "_events")) with false by (symmetry; apply String.eqb_neq; exact NX). reflexivity.
  - rewrite B5. 2:{ intros nm Hnm C. apply append_inj_r in C. subst nm. contradiction. }
    rewrite G4. replace (String.eqb (xname ++ "_events") "y_events") with false by (symmetry; apply String.eqb_neq; auto).
    rewrite G3, String.eqb_refl. reflexivity.
  - rewrite B5. 2:{ intros nm Hnm C. apply (append_inj_r "y" nm) in C. apply (R nm "y"%string); [right; exact Hnm|simpl; tauto|auto]. }
    rewrite G4. reflexivity.
  - intros i name Hi. apply (A5 name i (GI i name Hi)).
  - intros k K1 K2 K3. rewrite B5 by (intros nm _; apply K2). rewrite G4.
    replace (String.eqb k "y_events") with false by (symmetry; apply String.eqb_neq; exact (K2 "y"%string)). rewrite G3.
    replace (String.eqb k (xname ++ "_events")) with false by (symmetry; apply String.eqb_neq, K2).
    replace (String.eqb "t_events" k) with false by (symmetry; apply String.eqb_neq; intros C; apply (K2 "t"%string); auto).
    replace (String.eqb k "x_events") with false by (symmetry; apply String.eqb_neq; exact (K2 "x"%string)).
    replace (String.eqb k xname) with false by (symmetry; apply String.eqb_neq; intros ->; apply K1; left; reflexivity).
    rewrite G2, GN by (intros C; apply K1; right; exact C). unfold s1. cbn [dict_get].
    replace (String.eqb k "y") with false by (symmetry; apply String.eqb_neq; intros ->; apply K3; simpl; tauto).
    replace (String.eqb k "t_events") with false by (symmetry; apply String.eqb_neq; exact (K2 "t"%string)).
    replace (String.eqb k "y_events") with false by (symmetry; apply String.eqb_neq; exact (K2 "y"%string)).
    replace (String.eqb k "event_keys") with false by (symmetry; apply String.eqb_neq; intros ->; apply K3; simpl; tauto).
    replace (String.eqb k "independent_variable") with false by (symmetry; apply String.eqb_neq; intros ->; apply K3; simpl; tauto).
    replace (String.eqb k "x") with false by (symmetry; apply String.eqb_neq; intros ->; apply K3; simpl; tauto). reflexivity.
Qed.

Lemma zipw_snd {A B C} (f : B -> C) (l : list A) (m : list B) : List.length l = List.length m -> zipw (fun _ y => f y) l m = map f m.
Proof. revert m; induction l as [|a l IH]; intros [|b m] H; simpl in *; try discriminate; [reflexivity|]. f_equal. apply IH. lia. Qed.
Lemma zipw_fst {A B C} (f : A -> C) (l : list A) (m : list B) : List.length l = List.length m -> zipw (fun x _ => f x) l m = map f l.
Proof. revert m; induction l as [|a l IH]; intros [|b m] H; simpl in *; try discriminate; [reflexivity|]. f_equal. apply IH. lia. Qed.
Lemma zipw_combine {A B C} (f : A -> B -> C) (l : list A) (m : list B) : zipw f l m = map (fun q => f (fst q) (snd q)) (combine l m).
Proof. revert m; induction l as [|a l IH]; intros [|b m]; simpl; try reflexivity. f_equal. apply IH. Qed.

(** names of the two classes *)
Definition T_names (te : bool) : list string := (["phi"; "dphidt"; "_N"] ++ if te then ["eta"] else [])%list%string.
Definition N_names (tt te : bool) : list string := (["phi"; "dphidN"] ++ (if tt then ["t"] else []) ++ if te then ["eta"] else [])%list%string.
Lemma T_idx_names te : T_idx te = add_variable (T_names te) []. Proof. destruct te; reflexivity. Qed.
Lemma N_idx_names tt te : N_idx tt te = add_variable (N_names tt te) []. Proof. destruct tt, te; reflexivity. Qed.
Lemma clash_dec xname names :
  (if in_dec string_dec xname names then false else true) = true ->
  (forallb (fun a => negb (existsb (String.eqb a) ["x"; "y"; "x_events"; "y_events"; "t_events"; "event_keys"; "independent_variable"]%string)) (xname :: names)) = true ->
  (forallb (fun a => forallb (fun b => negb (String.eqb (a ++ "_events") b)) (xname :: names)) (xname :: names)) = true ->
  NoDup names -> clash_free xname names.
Proof.
  intros H1 H2 H3 ND. split; [|split].
  - constructor; [|exact ND]. destruct (in_dec string_dec xname names); [discriminate|assumption].
  - intros a Ha C. rewrite forallb_forall in H2. specialize (H2 a Ha). apply negb_true_iff in H2.
    assert (existsb (String.eqb a) ["x"; "y"; "x_events"; "y_events"; "t_events"; "event_keys"; "independent_variable"]%string = true); [|congruence].
    apply existsb_exists. exists a. split; [exact C|apply String.eqb_refl].
  - intros a b Ha Hb C. rewrite forallb_forall in H3. specialize (H3 a Ha). rewrite forallb_forall in H3. specialize (H3 b Hb).
    apply negb_true_iff in H3. apply String.eqb_neq in H3. contradiction.
Qed.
Ltac nodup := repeat match goal with |- NoDup _ => constructor | |- ~ In _ _ => simpl; intuition discriminate end.
Lemma T_clash te : clash_free "t" (T_names te).
Proof. apply clash_dec; destruct te; try reflexivity; cbn [T_names app]; nodup. Qed.
Lemma N_clash tt te : clash_free "_N" (N_names tt te).
Proof. apply clash_dec; destruct tt, te; try reflexivity; cbn [N_names app]; nodup. Qed.

(** the part of Equations.sol that the rest of the code uses, class-independently *)
Lemma eqs_sol q keys r : inflation_eqs q -> NoDup keys -> ivp_ok (List.length (e_idx q)) (List.length keys) r ->
  exists s dN dphi dx dy, base_sol (e_idx q) (e_xname q) (bunch_of (List.length (e_idx q)) r keys) = Ok s /\
    dict_get "x" s = Some (VA (map Fin (r_t r))) /\
    dict_get "y" s = Some (VM (List.length (e_idx q)) (r_y r)) /\
    dict_get "_N" s = Some (VA (map Fin (zipw (e_N q) (r_t r) (r_y r)))) /\
    dict_get "phi" s = Some (VA (map Fin (zipw (e_phi q) (r_t r) (r_y r)))) /\
    dict_get "_N_events" s = Some (VDT dN) /\ dict_get "phi_events" s = Some (VDT dphi) /\
    dict_get "x_events" s = Some (VDT dx) /\ dict_get "y_events" s = Some (VDY dy) /\
    dict_get "inflation_mask" s = None /\
    (forall k, ~ In k keys -> dict_get k dN = None) /\
    (forall j k te ye, nth_error keys j = Some k -> nth_error (r_t_events r) j = Some te -> nth_error (r_y_events r) j = Some ye ->
       dict_get k dx = Some te /\ dict_get k dy = Some ye /\
       dict_get k dN = Some (zipw (e_N q) te ye) /\ dict_get k dphi = Some (zipw (e_phi q) te ye)).
Proof.
  intros Hq ND IV.
  assert (ZN : forall (vs : list (list R)) k, List.length vs = List.length keys -> ~ In k keys -> dict_get k (dict_zip keys vs) = None).
  { intros vs k L Hk. rewrite dict_zip_nodup by (auto). apply get_none_notin. rewrite map_fst_combine by auto. exact Hk. }
  assert (ZN2 : forall (vs : list (list (list R))) k, List.length vs = List.length keys -> ~ In k keys -> dict_get k (dict_zip keys vs) = None).
  { intros vs k L Hk. rewrite dict_zip_nodup by (auto). apply get_none_notin. rewrite map_fst_combine by auto. exact Hk. }
  destruct IV as [I0 [I1 [I2 [I3 I4]]]] eqn:EIV. assert (IV' : ivp_ok (List.length (e_idx q)) (List.length keys) r) by (repeat split; assumption).
  clear EIV IV.
  destruct Hq as [[K [U [te Hq]]]|[K [U [tt [te Hq]]]]]; subst q; cbn [e_idx e_xname e_N e_phi T_eqs N_eqs] in *.
  - assert (EL : List.length (T_idx te) = List.length (T_names te)) by (destruct te; reflexivity).
    rewrite EL in *.
    destruct (base_sol_ok (T_names te) "t" keys r _ (T_clash te) eq_refl IV') as [s [E [_ [Hx [Ht [Hy [Hv [Hxe [Hte [Hye [Hve Hnone]]]]]]]]]]].
    rewrite <- T_idx_names in E.
    assert (N2 : nth_error (T_names te) 2 = Some "_N"%string) by (destruct te; reflexivity).
    assert (N0 : nth_error (T_names te) 0 = Some "phi"%string) by (destruct te; reflexivity).
    destruct (Hve 2%nat _ N2) as [dN [EN GN]]. destruct (Hve 0%nat _ N0) as [dp [EP GP]].
    exists s, dN, dp, (dict_zip keys (r_t_events r)), (dict_zip keys (r_y_events r)).
    assert (VN : forall y, var (T_idx te) "_N" y = nth 2 y 0) by (destruct te; reflexivity).
    assert (VP : forall y, var (T_idx te) "phi" y = nth 0 y 0) by (destruct te; reflexivity).
    split; [exact E|]. split; [exact Hx|]. split; [exact Hy|].
    split. { rewrite (Hv 2%nat _ N2). rewrite (zipw_snd (var (T_idx te) "_N") _ _ I1). unfold col. do 3 f_equal. apply map_ext. intros; auto. }
    split. { rewrite (Hv 0%nat _ N0). rewrite (zipw_snd (var (T_idx te) "phi") _ _ I1). unfold col. do 3 f_equal. apply map_ext. intros; auto. }
    split; [exact EN|]. split; [exact EP|]. split; [exact Hxe|]. split; [exact Hye|].
    split. { apply Hnone; [destruct te; simpl; intuition discriminate|intros c; apply not_events; discriminate|simpl; intuition discriminate]. }
    split. { intros k Hk. rewrite GN, (ZN2 _ k I3 Hk). reflexivity. }
    intros j k tev yev Hk Hte' Hye'.
    assert (D1 : dict_get k (dict_zip keys (r_t_events r)) = Some tev) by (rewrite (get_dict_zip keys _ j k); auto).
    assert (D2 : dict_get k (dict_zip keys (r_y_events r)) = Some yev) by (rewrite (get_dict_zip keys _ j k); auto).
    pose proof (I4 j tev yev Hte' Hye') as LL.
    split; [exact D1|]. split; [exact D2|].
    split; [rewrite GN|rewrite GP]; rewrite D2; [rewrite (zipw_snd (var (T_idx te) "_N") _ _ LL)|rewrite (zipw_snd (var (T_idx te) "phi") _ _ LL)];
      unfold col; f_equal; apply map_ext; intros; auto.
  - assert (EL : List.length (N_idx tt te) = List.length (N_names tt te)) by (destruct tt, te; reflexivity).
    rewrite EL in *.
    destruct (base_sol_ok (N_names tt te) "_N" keys r _ (N_clash tt te) eq_refl IV') as [s [E [_ [Hx [Ht [Hy [Hv [Hxe [Hte [Hye [Hve Hnone]]]]]]]]]]].
    rewrite <- N_idx_names in E.
    assert (N0 : nth_error (N_names tt te) 0 = Some "phi"%string) by (destruct tt, te; reflexivity).
    destruct (Hve 0%nat _ N0) as [dp [EP GP]].
    exists s, (dict_zip keys (r_t_events r)), dp, (dict_zip keys (r_t_events r)), (dict_zip keys (r_y_events r)).
    assert (VP : forall y, var (N_idx tt te) "phi" y = nth 0 y 0) by (destruct tt, te; reflexivity).
    split; [exact E|]. split; [exact Hx|]. split; [exact Hy|].
    split. { rewrite Ht. rewrite (zipw_fst (fun x => x) _ _ I1), map_id. reflexivity. }
    split. { rewrite (Hv 0%nat _ N0). rewrite (zipw_snd (var (N_idx tt te) "phi") _ _ I1). unfold col. do 3 f_equal. apply map_ext. intros; auto. }
    split; [exact Hte|]. split; [exact EP|]. split; [exact Hxe|]. split; [exact Hye|].
    split. { apply Hnone; [destruct te; try destruct tt; simpl; intuition discriminate|intros c; apply not_events; discriminate|simpl; intuition discriminate]. }
    split. { intros k Hk. apply (ZN _ k I2 Hk). }
    intros j k tev yev Hk Hte' Hye'.
    assert (D1 : dict_get k (dict_zip keys (r_t_events r)) = Some tev) by (rewrite (get_dict_zip keys _ j k); auto).
    assert (D2 : dict_get k (dict_zip keys (r_y_events r)) = Some yev) by (rewrite (get_dict_zip keys _ j k); auto).
    pose proof (I4 j tev yev Hte' Hye') as LL.
    split; [exact D1|]. split; [exact D2|]. split.
    + rewrite D1. rewrite (zipw_fst (fun x => x) _ _ LL), map_id. reflexivity.
    + rewrite GP, D2. rewrite (zipw_snd (var (N_idx tt te) "phi") _ _ LL). unfold col. f_equal. apply map_ext. intros; auto.
Qed.

(** event names identify the kinds *)
Lemma fmt_d_inj a b : fmt_d a = fmt_d b -> a = b.
Proof.
  unfold fmt_d. intros H. apply (f_equal DecimalString.NilEmpty.int_of_string) in H.
  rewrite !DecimalString.NilEmpty.isi in H. injection H as H. rewrite <- (DecimalZ.of_to a), <- (DecimalZ.of_to b), H. reflexivity.
Qed.
Fixpoint nounder (s : string) : bool :=
  match s with EmptyString => true | String c s => (negb (Ascii.eqb c "_") && nounder s)%bool end.
Lemma nounder_fmt_d z : nounder (fmt_d z) = true.
Proof.
  assert (U : forall u, nounder (DecimalString.NilEmpty.string_of_uint u) = true) by (induction u; simpl; auto).
  unfold fmt_d. destruct (Z.to_int z) as [u|u]; simpl; apply U.
Qed.
Lemma append_inj_l s a b : (s ++ a)%string = (s ++ b)%string -> a = b.
Proof. induction s as [|c s IH]; simpl; [auto|]. intros H. injection H as H. auto. Qed.
Lemma name_collapse fmt_e e : event_name fmt_e e = "Collapse"%string <-> is_collapse e = true.
Proof. destruct e; simpl; split; intros H; try discriminate; reflexivity. Qed.
Lemma name_inflation fmt_e d b e : event_name fmt_e e = ("Inflation_dir" ++ fmt_d d ++ "_term" ++ fmt_b b)%string <-> is_inflation d b e = true.
Proof.
  destruct e; try (split; intros H; discriminate).
  unfold event_name, is_inflation. split; intros H.
  - apply append_inj_l in H. assert (E : fmt_b term = fmt_b b).
    { assert (L : lastc (fmt_d dir ++ "_term" ++ fmt_b term) = lastc (fmt_d d ++ "_term" ++ fmt_b b)) by (rewrite H; reflexivity).
      assert (LL : forall s t, lastc (s ++ "_term" ++ fmt_b t) = lastc (fmt_b t)).
      { intros s t. induction s as [|c s IH]; [destruct t; reflexivity|].
        change (lastc (String c (s ++ "_term" ++ fmt_b t)) = lastc (fmt_b t)). rewrite <- IH.
        destruct (s ++ "_term" ++ fmt_b t)%string eqn:Z; [destruct s; destruct t; discriminate|]. reflexivity. }
      rewrite !LL in L. destruct term, b; simpl in L; congruence. }
    rewrite E in H. apply append_inj_r in H. apply fmt_d_inj in H. subst dir.
    rewrite Z.eqb_refl. destruct term, b; try discriminate; reflexivity.
  - apply andb_true_iff in H. destruct H as [H1 H2]. apply Z.eqb_eq in H1. apply Bool.eqb_prop in H2. subst. reflexivity.
Qed.
