(** Lemmas for C113: the outcome of solve() does not depend on verbosity or on earlier uses of the object. *)
From Coq Require Import Reals List String ZArith Bool Lia FunctionalExtensionality.
From Verif Require Import Base Model.Equations Model.Background Model.Float Model.Solution Model.InitCond
  Model.State Model.ApproxPower Model.Calibrate Model.BigBang Model.Shooting Model.Solver Model.Session Spec.SessionSpec.
Import ListNotations.
Open Scope string_scope.

(** ** verbosity only decides whether warnings are shown *)
Definition quiet (v : bool) (r : res (attrs * list warning)) : res (attrs * list warning) :=
  match r with Ok w => Ok (fst w, if v then snd w else []) | Raise e => Raise e end.
Lemma bind_quiet {A} (m : res A) v f g : (forall a, f a = quiet v (g a)) -> bind m f = quiet v (bind m g).
Proof. intros H. destruct m; [apply H|reflexivity]. Qed.
Lemma vwarn_quiet v w : vwarn v w = if v then vwarn true w else [].
Proof. destruct v; reflexivity. Qed.
Lemma start_quiet q v s : postprocessing_inflation_start q v s = quiet v (postprocessing_inflation_start q true s).
Proof.
  unfold postprocessing_inflation_start. cbv zeta. apply bind_quiet. intros Nev.
  match goal with |- bind ?a ?f = quiet v (bind ?b ?f) => assert (E : a = quiet v b) end.
  { destruct (fired "Collapse" Nev); [cbn [quiet fst snd]; rewrite (vwarn_quiet v); reflexivity|].
    repeat (apply bind_quiet; intros ?).
    match goal with |- (if ?b then _ else _) = _ => destruct b end.
    - repeat (apply bind_quiet; intros ?). cbn [quiet fst snd]. destruct v; reflexivity.
    - destruct (fired "Inflation_dir1_term0" Nev); [repeat (apply bind_quiet; intros ?); cbn [quiet fst snd]; destruct v; reflexivity|].
      cbn [quiet fst snd]. rewrite (vwarn_quiet v). reflexivity. }
  rewrite E. clear E. match goal with |- bind (quiet v ?b) _ = _ => destruct b as [[s' ws]|e]; cbn [bind quiet fst snd]; [|reflexivity] end.
  repeat (apply bind_quiet; intros ?). reflexivity.
Qed.
Lemma end_quiet q v s : postprocessing_inflation_end q v s = quiet v (postprocessing_inflation_end q true s).
Proof.
  unfold postprocessing_inflation_end. cbv zeta. repeat (apply bind_quiet; intros ?).
  match goal with |- match ?p with _ => _ end = _ => destruct p end; cbn [quiet fst snd]; rewrite ?(vwarn_quiet v); destruct v; reflexivity.
Qed.
Lemma solve_quiet fmt q v ev r : solve fmt q v ev r = quiet v (solve fmt q true ev r).
Proof.
  unfold solve, inflation_sol. cbv zeta.
  repeat match goal with |- bind ?m _ = quiet _ (bind ?m _) => apply bind_quiet; intros ? end.
  rewrite start_quiet. match goal with |- bind (quiet v ?b) _ = _ => destruct b as [[s1 w1]|x]; cbn [bind quiet fst snd]; [|reflexivity] end.
  rewrite end_quiet. match goal with |- bind (quiet v ?b) _ = _ => destruct b as [[s2 w2]|x]; cbn [bind quiet fst snd]; [|reflexivity] end.
  repeat (apply bind_quiet; intros ?). cbn [quiet fst snd]. destruct v; reflexivity.
Qed.
Lemma run_solve_verbose fmt ivp v ic ev : run_solve fmt ivp v ic ev = run_solve fmt ivp true ic ev.
Proof.
  unfold run_solve. destruct (is_call ic _) as [c|]; [|reflexivity]; cbn [bind]. destruct (eqs_of _); [|reflexivity]; cbn [bind].
  destruct (attr_of _) as [x|]; [|reflexivity]; cbn [bind]. match goal with |- bind ?m _ = _ => destruct m; [|reflexivity]; cbn [bind] end.
  destruct (all_R _); [|reflexivity]; cbn [bind]. cbv zeta. rewrite solve_quiet. match goal with |- context [quiet v ?b] => destruct b; reflexivity end.
Qed.
Lemma phii2Ntot_verbose fmt ivp v : phii2Ntot fmt ivp v = phii2Ntot fmt ivp true.
Proof.
  repeat (apply functional_extensionality; intros ?). unfold phii2Ntot. destruct (is_init _ _ _ _ _ _) as [ic|e]; [|reflexivity].
  destruct (ic_N ic); cbn [bind]; try reflexivity. rewrite run_solve_verbose. reflexivity.
Qed.
Lemma phii2Nstar_verbose F euler z3 S fmt ivp v : phii2Nstar F euler z3 S fmt ivp v = phii2Nstar F euler z3 S fmt ivp true.
Proof.
  repeat (apply functional_extensionality; intros ?). unfold phii2Nstar. destruct (is_init _ _ _ _ _ _) as [ic|e]; [|reflexivity]. cbn [bind].
  rewrite run_solve_verbose. reflexivity.
Qed.

(** ** what a call depends on *)
Definition core (ic : icobj) := (ic_eqs ic, ic_t ic, ic_eta ic, ic_x_end ic, ic_input ic).
Definition strip (ic : icobj) := (core ic, ic_phi ic, ic_V ic, ic_N ic, ic_O ic, ic_aH ic, ic_H ic).
Definition sim (c c' : anyic) : Prop :=
  match c, c' with
  | ASlowRoll a, ASlowRoll b => a = b
  | AStart a, AStart b => strip a = strip b
  | ANt a T br, ANt b T' br' => core a = core b /\ T = T' /\ br = br'
  | ANs o, ANs o' => core (ns_ic o) = core (ns_ic o') /\ ns_N_star o = ns_N_star o' /\ ns_OK0 o = ns_OK0 o' /\ ns_h o = ns_h o' /\
      ns_bracket o = ns_bracket o' /\ ns_N0 o = ns_N0 o'
  | _, _ => False
  end.
Lemma sim_refl c : sim c c.
Proof. destruct c; cbn; repeat split. Qed.
Lemma sim_trans a b c : sim a b -> sim b c -> sim a c.
Proof. destruct a, b, c; cbn; intuition congruence. Qed.
Lemma sim_eqs a b : sim a b -> any_eqs a = any_eqs b.
Proof.
  destruct a, b; cbn; try tauto; intros H.
  - congruence.
  - unfold strip, core in H. congruence.
  - destruct H as [H _]. unfold core in H. congruence.
  - destruct H as [H _]. unfold core in H. congruence.
Qed.
Definition alike (a b : res (icobj * list fl)) : Prop :=
  match a, b with
  | Ok r, Ok r' => ic_x_ini (fst r) = ic_x_ini (fst r') /\ ic_x_end (fst r) = ic_x_end (fst r') /\ snd r = snd r'
  | Raise e, Raise e' => e = e'
  | _, _ => False
  end.
Lemma alike_refl a : alike a a.
Proof. destruct a; cbn; repeat split. Qed.
Lemma is_call_strip a b y : strip a = strip b -> alike (is_call a y) (is_call b y).
Proof.
  destruct a as [q p t e xe i V n o aH H x d], b as [q' p' t' e' xe' i' V' n' o' aH' H' x' d']. unfold strip, core; cbn [ic_eqs ic_phi ic_t ic_eta ic_x_end ic_input ic_V ic_N ic_O ic_aH ic_H]. intros E.
  injection E as <- <- <- <- <- <- <- <- <- <- <-. unfold is_call. cbn [ic_eqs ic_phi ic_t ic_eta ic_x_end ic_input ic_V ic_N ic_O ic_aH ic_H].
  apply alike_refl.
Qed.
Lemma is_after_strip a : strip (is_after a) = strip a.
Proof. unfold is_after, strip, core. destruct (ic_eqs a) eqn:E; cbn [ic_eqs ic_phi ic_t ic_eta ic_x_end ic_input ic_V ic_N ic_O ic_aH ic_H]; rewrite ?E; reflexivity. Qed.
Lemma is_init_input q phi t eta xe i ic : is_init q phi t eta xe (kw_of i) = Ok ic -> core ic = (q, t, eta, xe, i).
Proof.
  unfold is_init. destruct i; cbn [kw_of kw_N kw_O]; repeat (match goal with |- context [if ?b then _ else _] => destruct b end; cbn [bind]); try discriminate; intros E; injection E as <-; reflexivity.
Qed.
Lemma is_reinit_core a phi : core (is_reinit a phi) = core a.
Proof.
  unfold is_reinit. destruct (is_init _ _ _ _ _ _) as [ic|e] eqn:E; unfold core; cbn [ic_eqs ic_t ic_eta ic_x_end ic_input]; [|reflexivity].
  apply is_init_input in E. unfold core in E. injection E as <- <- <- <- E. rewrite E. reflexivity.
Qed.
Lemma shoot_after_core a root : core (shoot_after a root) = core a.
Proof.
  unfold shoot_after. destruct (is_init _ _ _ _ _ _); [|apply is_reinit_core].
  transitivity (core (is_reinit a root)); [|apply is_reinit_core]. pose proof (is_after_strip (is_reinit a root)) as E. unfold strip in E. congruence.
Qed.
Lemma shoot_finish_core a b root y : core a = core b -> shoot_finish a root y = shoot_finish b root y.
Proof. unfold core, shoot_finish. intros E. injection E as -> -> -> -> ->. reflexivity. Qed.

Lemma honours_sim q k t eta xe a b : sim a b -> honours q k t eta xe a -> honours q k t eta xe b.
Proof.
  unfold honours. destruct a as [i|i|i T br|o], b as [i'|i'|i' T' br'|o']; cbn [sim ic_part]; try tauto; unfold strip, core.
  - intros ->. tauto.
  - intros E. injection E as -> -> -> -> _ -> _ _ _ _ _. tauto.
  - intros (E & <- & <-). injection E as -> -> -> -> _. tauto.
  - intros (E & <- & <- & <- & <- & _). injection E as -> -> -> -> _. tauto.
Qed.

Section Calls.
Variables (F : phys) (euler z3 : R) (S : splines) (fmt_e : R -> string) (ivp : settings -> integrator) (find : ieqs -> rootfinder).
Notation ic_call := (ic_call F euler z3 S fmt_e ivp find).
Notation solve_kw := (solve_kw F euler z3 S fmt_e ivp find).
Lemma ic_call_sim v a b kw y : sim a b -> alike (ic_call v a kw y) (ic_call true b kw y).
Proof.
  destruct a, b; cbn [sim]; try tauto; intros H; cbn [Solver.ic_call].
  - subst. apply alike_refl.
  - apply is_call_strip. exact H.
  - destruct H as (C & <- & <-). unfold nt_call. rewrite (phii2Ntot_verbose _ _ v).
    pose proof (fun root => shoot_finish_core _ _ root y C) as SF. unfold core in C. injection C as <- <- <- <- <-.
    destruct (find _ _ _); cbn [bind]; [rewrite SF; apply alike_refl|reflexivity].
  - destruct H as (C & H1 & H2 & H3 & H4 & H5). unfold ns_call. rewrite (phii2Nstar_verbose _ _ _ _ _ _ v). cbv zeta. rewrite H1, H2, H3, H4, H5.
    pose proof (fun root => shoot_finish_core _ _ root y C) as SF. unfold core in C. injection C as <- <- <- <- <-.
    destruct (find _ _ _); cbn [bind]; [rewrite SF; apply alike_refl|reflexivity].
Qed.
Lemma ic_call_sim_eq v a b kw y : sim a b -> ic_call v a kw y = ic_call true b kw y.
Proof.
  destruct a as [i|i|i T br|o], b as [i'|i'|i' T' br'|o']; cbn [sim]; try tauto; intros H; cbn [Solver.ic_call].
  - subst. reflexivity.
  - destruct i as [q p t e xe ii V n o aH HH x d], i' as [q' p' t' e' xe' i' V' n' o' aH' HH' x' d']. unfold strip, core in H; cbn [ic_eqs ic_phi ic_t ic_eta ic_x_end ic_input ic_V ic_N ic_O ic_aH ic_H] in H. injection H as <- <- <- <- <- <- <- <- <- <- <-. reflexivity.
  - destruct H as (C & <- & <-). unfold nt_call. rewrite (phii2Ntot_verbose _ _ v).
    pose proof (fun root => shoot_finish_core _ _ root y C) as SF. unfold core in C. injection C as <- <- <- <- <-.
    destruct (find _ _ _); cbn [bind]; [rewrite SF; reflexivity|reflexivity].
  - destruct H as (C & H1 & H2 & H3 & H4 & H5). unfold ns_call. rewrite (phii2Nstar_verbose _ _ _ _ _ _ v). cbv zeta. rewrite H1, H2, H3, H4, H5.
    pose proof (fun root => shoot_finish_core _ _ root y C) as SF. unfold core in C. injection C as <- <- <- <- <-.
    destruct (find _ _ _); cbn [bind]; [rewrite SF; reflexivity|reflexivity].
Qed.
(** a call that succeeds leaves in the object what it returned *)
Lemma is_call_after ic y r : is_call ic y = Ok r -> fst r = is_after ic.
Proof.
  unfold is_call, is_after. cbv zeta. destruct (ic_eqs ic); cbn [bind]; try discriminate;
  repeat match goal with |- context [bind ?m _] => lazymatch m with bind _ _ => fail | _ => destruct m end; cbn [bind fst snd] end; try discriminate; intros H; injection H as <-; reflexivity.
Qed.
Lemma is_init_fields q phi t eta xe kw ic : is_init q phi t eta xe kw = Ok ic ->
  ic_eqs ic = q /\ ic_phi ic = phi /\ ic_t ic = t /\ ic_eta ic = eta /\ ic_x_end ic = xe.
Proof.
  unfold is_init. cbv zeta. match goal with |- bind ?m _ = _ -> _ => destruct m as [[[[? ?] ?] ?]|]; cbn [bind]; [|discriminate] end.
  intros H. injection H as <-. repeat split.
Qed.
Lemma shoot_finish_after ic root y r : shoot_finish ic root y = Ok r -> fst (fst r) = shoot_after ic root.
Proof.
  unfold shoot_finish, shoot_after, is_reinit. cbv zeta. destruct (is_init _ _ _ _ _ _) as [ic'|] eqn:E; cbn [bind]; [|discriminate].
  destruct (is_call ic' y) as [r'|] eqn:E'; cbn [bind]; [|discriminate]. intros H. injection H as <-. cbn [fst]. rewrite (is_call_after _ _ _ E').
  destruct (is_init_fields _ _ _ _ _ _ _ E) as (F1 & F2 & F3 & F4 & F5). destruct ic' as [q p t e xe i V n o aH hh x d]. cbn [ic_eqs ic_phi ic_t ic_eta ic_x_end ic_input ic_V ic_N ic_O ic_aH ic_H] in *.
  subst. unfold is_init in E. assert (x = None /\ d = None) as [-> ->].
  { cbv zeta in E. match type of E with bind ?m _ = _ => destruct m as [[[[? ?] ?] ?]|]; cbn [bind] in E; [|discriminate] end. injection E as <- <- <- <- <- <- <- <-. split; reflexivity. }
  unfold is_after. cbn [ic_eqs ic_phi ic_t ic_eta ic_x_end ic_input ic_V ic_N ic_O ic_aH ic_H]. destruct (ic_eqs ic) eqn:Q; try reflexivity.
  exfalso. unfold is_call in E'. cbn [ic_eqs] in E'. discriminate.
Qed.
Lemma ic_after_part v c kw y r : ic_call v c kw y = Ok r -> fst r = ic_part (ic_after F euler z3 S fmt_e ivp find v c kw).
Proof.
  destruct c as [ic|ic|ic T br|o]; cbn [Solver.ic_call ic_after ic_part].
  - destruct (sr_call ic y); cbn [bind]; [|discriminate]. intros H. injection H as <-. reflexivity.
  - apply is_call_after.
  - unfold nt_call. destruct (find _ _ _) as [root|]; cbn [bind]; [|discriminate]. destruct (shoot_finish ic root y) as [p|] eqn:E; cbn [bind]; [|discriminate].
    intros H. injection H as <-. exact (shoot_finish_after _ _ _ _ E).
  - unfold ns_call. cbv zeta. destruct (find _ _ _) as [root|]; cbn [bind]; [|discriminate]. destruct (shoot_finish (ns_ic o) root y) as [p|] eqn:E; cbn [bind]; [|discriminate].
    intros H. injection H as <-. exact (shoot_finish_after _ _ _ _ E).
Qed.
Lemma construct_honours q k t eta xe kw c : construct F q k t eta xe kw = Ok c -> honours q k t eta xe c.
Proof.
  unfold construct. destruct k as [phi|phi|T br|Ns OK0 h br].
  - unfold sr_init. cbv zeta. match goal with |- bind (bind ?m _) _ = _ -> _ => destruct m as [[[[? ?] ?] ?]|]; cbn [bind]; [|discriminate] end.
    destruct q; cbn [bind]; intros H; injection H as <-; repeat split.
  - destruct (is_init _ _ _ _ _ _) as [ic|] eqn:E; cbn [bind]; [|discriminate]. intros H. injection H as <-. destruct (is_init_fields _ _ _ _ _ _ _ E) as (F1 & F2 & F3 & F4 & F5). repeat split; assumption.
  - unfold nt_init. destruct (last_of br) as [phi|]; cbn [bind]; [|discriminate]. destruct (is_init _ _ _ _ _ _) as [ic|] eqn:E; cbn [bind]; [|discriminate].
    intros H. injection H as <-. destruct (is_init_fields _ _ _ _ _ _ _ E) as (F1 & F2 & F3 & F4 & F5). repeat split; assumption.
  - unfold ns_init. destruct (Req_EM_T OK0 0); [discriminate|]. destruct (last_of br) as [phi|]; cbn [bind]; [|discriminate]. destruct (is_init _ _ _ _ _ _) as [ic|] eqn:E; cbn [bind]; [|discriminate].
    destruct (get_a0 _ _ _ _); cbn [bind]; [|discriminate]. intros H. injection H as <-. destruct (is_init_fields _ _ _ _ _ _ _ E) as (F1 & F2 & F3 & F4 & F5). repeat split; assumption.
Qed.
Lemma solve_kw_sim v a b args kw : sim a b -> solve_kw v a args kw = solve_kw true b args kw.
Proof.
  intros H. unfold Solver.solve_kw. destruct (existsb _ reserved); [reflexivity|]. cbv zeta. rewrite (sim_eqs a b H).
  pose proof (ic_call_sim v a b (ivp_kwargs (snd (split_kw kw))) (repeat (Fin 0) (List.length (ie_idx (any_eqs b)))) H) as X.
  unfold alike in X. destruct (ic_call v a _ _) as [r|], (ic_call true b _ _) as [r'|]; cbn [bind]; try tauto; [|congruence]. destruct X as (-> & -> & ->).
  destruct args; [|reflexivity]. destruct (eqs_of _); [|reflexivity]; cbn [bind]. destruct (attr_of _) as [x|]; [|reflexivity]; cbn [bind].
  match goal with |- bind ?m _ = _ => destruct m; [|reflexivity]; cbn [bind] end. destruct (all_R _); [|reflexivity]; cbn [bind].
  destruct (fst (split_kw kw)); try reflexivity. cbv zeta. rewrite solve_quiet. match goal with |- context [quiet v ?b] => destruct b; reflexivity end.
Qed.
Lemma solve_warnings_sim v a b args kw : sim a b ->
  solve_warnings F euler z3 S fmt_e ivp find v a args kw = if v then solve_warnings F euler z3 S fmt_e ivp find true b args kw else [].
Proof.
  intros H. unfold solve_warnings. destruct (existsb _ reserved); [destruct v; reflexivity|]. cbv zeta. rewrite (sim_eqs a b H).
  pose proof (ic_call_sim v a b (ivp_kwargs (snd (split_kw kw))) (repeat (Fin 0) (List.length (ie_idx (any_eqs b)))) H) as X.
  unfold alike in X. destruct (ic_call v a _ _) as [r|], (ic_call true b _ _) as [r'|]; cbn [bind]; try tauto; [|destruct v; reflexivity]. destruct X as (-> & -> & ->).
  destruct args; [|destruct v; reflexivity]. destruct (eqs_of _); [|destruct v; reflexivity]; cbn [bind]. destruct (attr_of _) as [x|]; [|destruct v; reflexivity]; cbn [bind].
  match goal with |- context [bind ?m] => destruct m; [|destruct v; reflexivity]; cbn [bind] end. destruct (all_R _); [|destruct v; reflexivity]; cbn [bind].
  destruct (fst (split_kw kw)); try (destruct v; reflexivity). rewrite solve_quiet. match goal with |- context [quiet v ?b] => destruct b; destruct v; reflexivity end.
Qed.
Lemma solve_after_sim v c kw : sim c (solve_after F euler z3 S fmt_e ivp find v c kw).
Proof.
  unfold solve_after. destruct (existsb _ reserved); [apply sim_refl|]. destruct c; cbn [ic_after].
  - reflexivity.
  - cbn [sim]. symmetry. apply is_after_strip.
  - destruct (find _ _ _); [|apply sim_refl]. cbn [sim]. split; [symmetry; apply shoot_after_core|split; reflexivity].
  - cbv zeta. destruct (find _ _ _); [|apply sim_refl]. cbn [sim ns_ic ns_N_star ns_OK0 ns_h ns_bracket ns_N0].
    split; [symmetry; apply shoot_after_core|repeat split; reflexivity].
Qed.

(** ** the session *)
Notation step := (step F euler z3 S fmt_e ivp find).
Notation run := (run F euler z3 S fmt_e ivp find).
Definition heap_after (h : heap) (ops : list op) : heap := fold_left (fun h o => fst (step h o)) ops h.
Lemma run_app h a b : run h (a ++ b) = (run h a ++ run (heap_after h a) b)%list.
Proof.
  revert h. induction a as [|o t IH]; intros h; [reflexivity|]. cbn [app Session.run heap_after fold_left]. destruct (step h o) as [h' r]. cbn [fst app].
  f_equal. apply IH.
Qed.
Lemma run_length h ops : List.length (run h ops) = List.length ops.
Proof. revert h. induction ops as [|o t IH]; intros h; [reflexivity|]. cbn [Session.run]. destruct (step h o). cbn [List.length]. f_equal. apply IH. Qed.
Lemma verbosity_app e a b v : verbosity e (a ++ b) v = verbosity e b (verbosity e a v).
Proof.
  revert v. induction a as [|[o r] t IH]; intros v; [reflexivity|]. cbn [app verbosity]. destruct o, r as [e'|[i'|x]|r ws|]; apply IH.
Qed.
Lemma nth_error_set {A} i j (v : A) l : nth_error (set_nth i v l) j = if Nat.eqb i j then (match nth_error l j with Some _ => Some v | None => None end) else nth_error l j.
Proof.
  revert i j. induction l as [|a t IH]; intros i j; [destruct i, j; cbn; try reflexivity; destruct (Nat.eqb _ _); reflexivity|].
  destruct i, j; cbn [set_nth nth_error Nat.eqb]; try reflexivity. apply IH.
Qed.
Lemma nth_error_snoc {A} (l : list A) x j : nth_error (l ++ [x]) j = if Nat.eqb (List.length l) j then Some x else nth_error l j.
Proof.
  revert j. induction l as [|a t IH]; intros j; destruct j; cbn [app nth_error List.length Nat.eqb]; try reflexivity; [destruct j; reflexivity|apply IH].
Qed.
Definition inv (h : heap) (tr : list (op * out)) : Prop :=
  (forall q v e, In (NewEqs q v, OEqs e) tr -> exists E, nth_error (h_eqs h) e = Some E /\ eq_q E = q) /\
  (forall e E, nth_error (h_eqs h) e = Some E -> eq_verbose E = verbosity e tr false) /\
  (forall e k t eta xe kw v i, In (NewIC e k t eta xe kw v, OIC (Ok i)) tr -> exists s E c, nth_error (h_ics h) i = Some s /\ sl_eq s = e /\
     nth_error (h_eqs h) e = Some E /\ construct F (eq_q E) k t eta xe kw = Ok c /\ sim c (sl_ic s)).
Lemma lt_neq_b n (A : Type) (l : list A) x : nth_error l n = Some x -> Nat.eqb (List.length l) n = false.
Proof. intros H. apply Nat.eqb_neq. assert (n < List.length l)%nat by (apply nth_error_Some; congruence). lia. Qed.
Lemma inv_step h tr o : inv h tr -> inv (fst (step h o)) (tr ++ [(o, snd (step h o))]).
Proof.
  intros (I1 & I2 & I3). destruct o as [q v|e k t eta xe kw v|i args kw]; cbn [Session.step].
  - cbn [fst snd]. split; [|split].
    + intros q' v' e' H. cbn [h_eqs]. rewrite nth_error_snoc. apply in_app_or in H. destruct H as [H|[H|[]]].
      * destruct (I1 _ _ _ H) as (E & E1 & E2). rewrite (lt_neq_b _ _ _ _ E1). exists E. split; assumption.
      * injection H as <- <- <-. rewrite Nat.eqb_refl. eexists. split; reflexivity.
    + intros e' E. cbn [h_eqs]. rewrite nth_error_snoc, verbosity_app. cbn [verbosity]. destruct (Nat.eqb _ e'); [intros H; injection H as <-; reflexivity|apply I2].
    + intros e k t eta xe kw v' i H. apply in_app_or in H. destruct H as [H|[H|[]]]; [|discriminate].
      destruct (I3 _ _ _ _ _ _ _ _ H) as (s & E & c & A1 & A2 & A3 & A4 & A5). exists s, E, c. cbn [h_eqs h_ics]. rewrite nth_error_snoc, (lt_neq_b _ _ _ _ A3). auto.
  - destruct (nth_error (h_eqs h) e) as [E|] eqn:EE; [destruct (construct F (eq_q E) k t eta xe kw) as [c|x] eqn:EC|]; cbn [fst snd].
    + assert (SETQ : forall e' E', nth_error (h_eqs h) e' = Some E' -> exists E'', nth_error (if shooting k then set_nth e (mkeq (eq_q E) v) (h_eqs h) else h_eqs h) e' = Some E'' /\ eq_q E'' = eq_q E').
      { intros e' E' H. destruct (shooting k); [|exists E'; split; [exact H|reflexivity]]. rewrite nth_error_set. destruct (Nat.eqb e e') eqn:B; [|exists E'; split; [exact H|reflexivity]].
        apply Nat.eqb_eq in B. subst e'. rewrite H. eexists. split; [reflexivity|]. cbn [eq_q]. congruence. }
      split; [|split].
      * intros q' v' e' H. apply in_app_or in H. destruct H as [H|[H|[]]]; [|discriminate]. destruct (I1 _ _ _ H) as (E' & E1 & E2). cbn [h_eqs].
        destruct (SETQ _ _ E1) as (E'' & A1 & A2). exists E''. split; [exact A1|congruence].
      * intros e' E'. cbn [h_eqs]. rewrite verbosity_app. cbn [verbosity]. destruct (shooting k).
        -- rewrite nth_error_set, andb_true_r. destruct (Nat.eqb e e') eqn:B; [|apply I2]. apply Nat.eqb_eq in B. subst e'. rewrite EE. intros H. injection H as <-. reflexivity.
        -- rewrite andb_false_r. apply I2.
      * intros e' k' t' eta' xe' kw' v' i H. apply in_app_or in H. cbn [h_eqs h_ics]. rewrite nth_error_snoc. destruct H as [H|[H|[]]].
        -- destruct (I3 _ _ _ _ _ _ _ _ H) as (s & E' & c' & A1 & A2 & A3 & A4 & A5). rewrite (lt_neq_b _ _ _ _ A1). destruct (SETQ _ _ A3) as (E'' & B1 & B2).
           exists s, E'', c'. rewrite B2. auto.
        -- injection H as <- <- <- <- <- <- <- <-. rewrite Nat.eqb_refl. destruct (SETQ _ _ EE) as (E'' & B1 & B2). exists (mkslot c e v), E'', c. rewrite B2. cbn [sl_ic sl_eq].
           repeat split; auto using sim_refl.
    + split; [|split]; [intros q' v' e' H|intros e' E' H|intros e' k' t' eta' xe' kw' v' i H].
      1,3: apply in_app_or in H; destruct H as [H|[H|[]]]; [|discriminate]; eauto. rewrite verbosity_app. cbn [verbosity]. eauto.
    + split; [|split]; [intros q' v' e' H|intros e' E' H|intros e' k' t' eta' xe' kw' v' i H].
      1,3: apply in_app_or in H; destruct H as [H|[H|[]]]; [|discriminate]; eauto. rewrite verbosity_app. cbn [verbosity]. eauto.
  - assert (J : forall r tl, tl = [(Solve i args kw, r)] -> inv h (tr ++ tl)).
    { intros r tl ->. split; [|split]; [intros q' v' e' H|intros e' E' H|intros e' k' t' eta' xe' kw' v' j H].
      1,3: apply in_app_or in H; destruct H as [H|[H|[]]]; [|discriminate]; eauto. rewrite verbosity_app. cbn [verbosity]. eauto. }
    destruct (nth_error (h_ics h) i) as [s|] eqn:ES; [|exact (J _ _ eq_refl)]. destruct (nth_error (h_eqs h) (sl_eq s)) as [E|] eqn:EE; [|exact (J _ _ eq_refl)]. cbv zeta. cbn [fst snd].
    match goal with |- inv _ (tr ++ ?l) => destruct (J _ l eq_refl) as (J1 & J2 & J3) end. split; [exact J1|]. split; [exact J2|].
    intros e' k' t' eta' xe' kw' v' j H. destruct (J3 _ _ _ _ _ _ _ _ H) as (s' & E' & c & A1 & A2 & A3 & A4 & A5). cbn [h_ics h_eqs]. rewrite nth_error_set. destruct (Nat.eqb i j) eqn:B.
    + apply Nat.eqb_eq in B. subst j. rewrite A1. assert (s' = s) as -> by congruence. eexists _, E', c. split; [reflexivity|]. cbn [sl_eq sl_ic]. repeat split; auto.
      eapply sim_trans; [exact A5|apply solve_after_sim].
    + exists s', E', c. auto.
Qed.
Lemma inv_run : forall ops, inv (heap_after empty_heap ops) (combine ops (run empty_heap ops)).
Proof.
  intros ops. induction ops as [|o t IH] using rev_ind.
  - split; [intros q v e []|]. split; [intros [|e] E; discriminate|intros e k t eta xe kw v i []].
  - unfold heap_after. rewrite fold_left_app. fold (heap_after empty_heap t). cbn [fold_left]. rewrite run_app.
    assert (C : forall A B (l l' : list A) (m m' : list B), List.length l = List.length m -> combine (l ++ l') (m ++ m') = (combine l m ++ combine l' m')%list).
    { intros A B l. induction l as [|a r I]; intros l' [|b m] m' L; try discriminate; [reflexivity|]. cbn. f_equal. apply I. injection L as L. exact L. }
    rewrite C by (symmetry; apply run_length). cbn [Session.run]. pose proof (inv_step (heap_after empty_heap t) (combine t (run empty_heap t)) o IH) as X.
    destruct (step (heap_after empty_heap t) o) as [h' r]. exact X.
Qed.
(** the outcome of the operation at position n *)
Lemma run_at ops n o r : nth_error (combine ops (run empty_heap ops)) n = Some (o, r) ->
  r = snd (step (heap_after empty_heap (firstn n ops)) o) /\ firstn n (combine ops (run empty_heap ops)) = combine (firstn n ops) (run empty_heap (firstn n ops)).
Proof.
  generalize empty_heap. revert n. induction ops as [|a t IH]; intros n h; [destruct n; discriminate|]. cbn [Session.run]. destruct (step h a) as [h' x] eqn:E.
  destruct n as [|n]; cbn [combine nth_error firstn heap_after fold_left].
  - intros H. injection H as <- <-. rewrite E. split; reflexivity.
  - intros H. destruct (IH n h' H) as [A1 A2]. rewrite E. cbn [fst]. cbn [Session.run]. rewrite E. cbn [combine]. split; [exact A1|]. f_equal. exact A2.
Qed.
End Calls.
