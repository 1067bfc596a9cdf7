(** C91: what reaches the integrator. *)
From Coq Require Import Reals List String ZArith Lra Lia Bool Classical.
From Verif Require Import Base Model.Equations Model.Background Model.Float Model.Solution Model.InitCond
  Model.State Model.ApproxPower Model.Calibrate Model.BigBang Model.Shooting Model.Solver
  Spec.SolutionSpec Spec.SolverSpec Proofs.FloatLemmas Proofs.DictLemmas Proofs.SolLemmas Proofs.PostProc Properties.InitProps Properties.InitProps2 Properties.ShootProps.
Import ListNotations.
Open Scope R_scope.
Open Scope string_scope.

Lemma get_filter {A} k k' (d : dict A) :
  dict_get k (filter (fun p => negb (String.eqb k' (fst p))) d) = if String.eqb k' k then None else dict_get k d.
Proof.
  induction d as [|[a v] d IH]; cbn; [destruct (String.eqb k' k); reflexivity|].
  destruct (String.eqb k' a) eqn:E; cbn.
  - rewrite IH. apply String.eqb_eq in E. subst a. rewrite (String.eqb_sym k k'). destruct (String.eqb k' k); reflexivity.
  - rewrite IH. destruct (String.eqb k a) eqn:E2; [|reflexivity]. apply String.eqb_eq in E2. subst a. rewrite E. reflexivity.
Qed.
Lemma split_spec kw : fst (split_kw kw) = given kw "events" (KwEvents []) /\ asked kw (snd (split_kw kw)).
Proof.
  unfold split_kw, kwpop, asked, given. cbn [fst snd st_method st_rtol st_atol st_rest].
  do 4 (split; [rewrite ?get_filter; reflexivity|]). intros k. rewrite !get_filter.
  destruct (in_dec string_dec k _) as [I|I].
  - cbn in I. destruct I as [<-|[<-|[<-|[<-|[]] ] ] ]; reflexivity.
  - cbn in I. destruct (String.eqb "atol" k) eqn:E1; [apply String.eqb_eq in E1; tauto|]. destruct (String.eqb "rtol" k) eqn:E2; [apply String.eqb_eq in E2; tauto|].
    destruct (String.eqb "method" k) eqn:E3; [apply String.eqb_eq in E3; tauto|]. destruct (String.eqb "events" k) eqn:E4; [apply String.eqb_eq in E4; tauto|]. reflexivity.
Qed.
(** the settings of the trial runs *)
Lemma trial_spec kw ev : asked_but_RK45 kw (snd (split_kw (("events", KwEvents ev) :: ivp_kwargs (snd (split_kw kw))))).
Proof.
  destruct (split_spec (("events", KwEvents ev) :: ivp_kwargs (snd (split_kw kw)))) as [_ (M & RT & AT & RE)].
  destruct (split_spec kw) as [_ (M0 & RT0 & AT0 & RE0)].
  set (st := snd (split_kw kw)) in *. set (st' := snd (split_kw (_ :: _))) in *. clearbody st st'.
  unfold asked_but_RK45. rewrite M, RT, AT. unfold given in *.
  change (dict_get "method" (("events", KwEvents ev) :: ivp_kwargs st)) with (dict_get "method" (st_rest st)).
  change (dict_get "rtol" (("events", KwEvents ev) :: ivp_kwargs st)) with (Some (st_rtol st)).
  change (dict_get "atol" (("events", KwEvents ev) :: ivp_kwargs st)) with (Some (st_atol st)).
  split; [rewrite RE0; reflexivity|]. split; [exact RT0|]. split; [exact AT0|].
  intros k. rewrite RE. destruct (in_dec string_dec k _) as [I|I]; [reflexivity|]. cbn in I. unfold ivp_kwargs. cbn [dict_get].
  destruct (String.eqb k "events") eqn:E1; [apply String.eqb_eq in E1; subst; tauto|]. destruct (String.eqb k "rtol") eqn:E2; [apply String.eqb_eq in E2; subst; tauto|].
  destruct (String.eqb k "atol") eqn:E3; [apply String.eqb_eq in E3; subst; tauto|]. rewrite RE0. destruct (in_dec string_dec k _) as [I'|I']; [|reflexivity]. cbn in I'. exfalso.
  repeat (destruct I' as [<-|I']; [tauto|]). destruct I'.
Qed.

Lemma run_solve_ext fmt_e i1 i2 verbose ic ev : (forall q x0 xe y0 ev, i1 q x0 xe y0 ev = i2 q x0 xe y0 ev) ->
  run_solve fmt_e i1 verbose ic ev = run_solve fmt_e i2 verbose ic ev.
Proof.
  intros A. unfold run_solve. destruct (is_call _ _) as [c|]; [|reflexivity]. cbn [bind]. destruct (eqs_of _); [|reflexivity]. cbn [bind].
  destruct (attr_of _) as [x|]; [|reflexivity]. cbn [bind]. destruct (match x with None => _ | Some _ => _ end); [|reflexivity]. cbn [bind]. destruct (all_R _); [|reflexivity]. cbn [bind].
  rewrite A. reflexivity.
Qed.
Lemma phii2Ntot_ext fmt_e i1 i2 verbose q t eta xe input T phi : (forall q x0 xe y0 ev, i1 q x0 xe y0 ev = i2 q x0 xe y0 ev) ->
  phii2Ntot fmt_e i1 verbose q t eta xe input T phi = phii2Ntot fmt_e i2 verbose q t eta xe input T phi.
Proof.
  intros A. unfold phii2Ntot. destruct (is_init _ _ _ _ _ _) as [ic|]; [|reflexivity]. destruct (match ic_N ic with Fin r => _ | _ => _ end); [|reflexivity]. cbn [bind].
  rewrite (run_solve_ext fmt_e i1 i2 verbose ic _ A). reflexivity.
Qed.
Lemma phii2Nstar_ext F euler z3 S fmt_e i1 i2 verbose q t eta xe input N_star OK0 h N0 phi : (forall q x0 xe y0 ev, i1 q x0 xe y0 ev = i2 q x0 xe y0 ev) ->
  phii2Nstar F euler z3 S fmt_e i1 verbose q t eta xe input N_star OK0 h N0 phi = phii2Nstar F euler z3 S fmt_e i2 verbose q t eta xe input N_star OK0 h N0 phi.
Proof.
  intros A. unfold phii2Nstar. destruct (is_init _ _ _ _ _ _) as [ic|]; [|reflexivity]. cbn [bind].
  rewrite (run_solve_ext fmt_e i1 i2 verbose ic _ A). reflexivity.
Qed.

(** ** The result of solve depends on the integrator only through requests with the user's events and
    settings -- for the shooting classes also through trial runs with the user's tolerances and other
    keywords, but method RK45. *)
Theorem C91_settings : forall F euler z3 S fmt_e i1 i2 find verbose c args kw,
  (shoots c = true -> extensional find /\ agree (asked_but_RK45 kw) i1 i2) ->
  agree_on (asked kw) (given kw "events" (KwEvents [])) i1 i2 ->
  solve_kw F euler z3 S fmt_e i1 find verbose c args kw = solve_kw F euler z3 S fmt_e i2 find verbose c args kw.
Proof.
  intros F euler z3 S fmt_e i1 i2 find verbose c args kw HS HA. unfold solve_kw. destruct (existsb _ _); [reflexivity|].
  destruct (split_spec kw) as [EV AS]. set (st := snd (split_kw kw)) in *. cbv zeta.
  assert (EC : ic_call F euler z3 S fmt_e i1 find verbose c (ivp_kwargs st) (repeat (Fin 0) (List.length (ie_idx (any_eqs c)))) =
               ic_call F euler z3 S fmt_e i2 find verbose c (ivp_kwargs st) (repeat (Fin 0) (List.length (ie_idx (any_eqs c))))).
  { unfold ic_call. destruct c as [ic|ic|ic T br|o]; try reflexivity; destruct (HS eq_refl) as [EX AG].
    - unfold nt_call. rewrite (EX _ _ (phii2Ntot fmt_e (trial_ivp i2 (ivp_kwargs st)) verbose (ic_eqs ic) (ic_t ic) (ic_eta ic) (ic_x_end ic) (ic_input ic) T)); [reflexivity|].
      intros x. apply phii2Ntot_ext. intros. apply AG. apply trial_spec.
    - unfold ns_call. rewrite (EX _ _ (phii2Nstar F euler z3 S fmt_e (trial_ivp i2 (ivp_kwargs st)) verbose (ic_eqs (ns_ic o)) (ic_t (ns_ic o)) (ic_eta (ns_ic o)) (ic_x_end (ns_ic o)) (ic_input (ns_ic o))
         (ns_N_star o) (ns_OK0 o) (ns_h o) (ns_N0 o))); [reflexivity|].
      intros x. apply phii2Nstar_ext. intros. apply AG. apply trial_spec. }
  rewrite EC. clear EC. destruct (ic_call _ _ _ _ _ _ _ _ _ _ _) as [r|]; [|reflexivity]. cbn [bind]. destruct args; [|reflexivity].
  destruct (eqs_of _); [|reflexivity]. cbn [bind]. destruct (attr_of _) as [x|]; [|reflexivity]. cbn [bind].
  destruct (match x with None => _ | Some _ => _ end); [|reflexivity]. cbn [bind]. destruct (all_R _); [|reflexivity]. cbn [bind].
  destruct (fst (split_kw kw)) eqn:FE; try reflexivity. rewrite HA; [reflexivity|exact AS|symmetry; exact EV].
Qed.
Lemma is_call_keeps ic y0 c : is_call ic y0 = Ok c -> ic_x_end (fst c) = ic_x_end ic /\ ic_eqs (fst c) = ic_eqs ic.
Proof.
  unfold is_call, bind.
  destruct (ic_eqs ic) eqn:EQ; [| |discriminate];
  repeat match goal with
         | |- context [match assign ?a ?b ?c ?d with _ => _ end] => destruct (assign a b c d); [|discriminate]; cbn [fst snd]
         | |- context [match assign_opt ?a ?b ?c ?d with _ => _ end] => destruct (assign_opt a b c d); [|discriminate]; cbn [fst snd]
         | |- context [if ?b then _ else _] => destruct b; cbn [fst snd] end; intros X; injection X as <-; split; reflexivity.
Qed.

(** each trial run is itself a call of solve on an InflationStartIC *)
Theorem C91_trials : forall F euler z3 S fmt_e ivp find verbose ic events kw,
  existsb (fun k => match dict_get k kw with Some _ => true | None => false end) reserved = false ->
  run_solve fmt_e (trial_ivp ivp kw) verbose ic events =
  solve_kw F euler z3 S fmt_e ivp find verbose (AStart ic) [] (("events", KwEvents events) :: kw).
Proof.
  intros F euler z3 S fmt_e ivp find verbose ic events kw HR. unfold solve_kw.
  assert (HR' : existsb (fun k => match dict_get k (("events", KwEvents events) :: kw) with Some _ => true | None => false end) reserved = false).
  { revert HR. unfold reserved. cbn. tauto. }
  rewrite HR'. cbv zeta. unfold ic_call, run_solve, trial_ivp. cbn [any_eqs].
  replace (snd (split_kw (("events", KwEvents events) :: kw))) with (snd (split_kw (("events", KwEvents []) :: kw))) by reflexivity.
  replace (fst (split_kw (("events", KwEvents events) :: kw))) with (KwEvents events) by reflexivity.
  set (st := snd (split_kw _)). clearbody st.
  destruct (is_call ic _) as [c|] eqn:EC; [|reflexivity]. cbn [bind].
  destruct (is_call_keeps _ _ _ EC) as (X & _).
  rewrite X. reflexivity.
Qed.

(** ** The total number of e-folds after ISIC_Nt *)
(** a root finder whose answers are roots *)
Definition honest (find : ieqs -> rootfinder) : Prop :=
  forall q f br x, find q f br = Ok x -> f x = Ok (Fin 0).
(** the two runs recorded the same start and end of inflation *)
Definition same_records (ev1 : list event) (r1 : raw_sol) (ev2 : list event) (r2 : raw_sol) : Prop :=
  recorded is_collapse ev1 r1 = recorded is_collapse ev2 r2 /\
  recorded (is_inflation 1 false) ev1 r1 = recorded (is_inflation 1 false) ev2 r2 /\
  end_record ev1 r1 = end_record ev2 r2 /\
  hd_error (r_t r1) = hd_error (r_t r2) /\ hd_error (r_y r1) = hd_error (r_y r2).
Lemma same_records_N_tot fmt_e q v1 v2 ev1 r1 ev2 r2 s1 w1 s2 w2 :
  inflation_eqs q -> NoDup (map (event_name fmt_e) ev1) -> NoDup (map (event_name fmt_e) ev2) ->
  ivp_ok (List.length (e_idx q)) (List.length ev1) r1 -> ivp_ok (List.length (e_idx q)) (List.length ev2) r2 ->
  solve fmt_e q v1 ev1 r1 = Ok (s1, w1) -> solve fmt_e q v2 ev2 r2 = Ok (s2, w2) -> same_records ev1 r1 ev2 r2 ->
  get_F s1 "N_tot" = get_F s2 "N_tot".
Proof.
  intros IQ N1 N2 I1 I2 E1 E2 (A & B & C & D & E).
  destruct (solve_ok fmt_e q v1 ev1 r1 IQ N1 I1) as [s1' [X1 S1]]. rewrite E1 in X1. injection X1 as <- _.
  destruct (solve_ok fmt_e q v2 ev2 r2 IQ N2 I2) as [s2' [X2 S2]]. rewrite E2 in X2. injection X2 as <- _.
  destruct S1 as (_ & _ & _ & _ & _ & _ & _ & _ & T1 & _). destruct S2 as (_ & _ & _ & _ & _ & _ & _ & _ & T2 & _).
  unfold get_F, getattr. rewrite T1, T2. cbn [bind as_F]. f_equal. f_equal.
  - unfold N_end_of. rewrite C. reflexivity.
  - unfold N_beg_of. rewrite A, B. destruct (r_t r1), (r_t r2); try discriminate; [reflexivity|]. injection D as ->.
    destruct (r_y r1), (r_y r2); try discriminate; [reflexivity|]. injection E as ->. reflexivity.
Qed.
Lemma filter_absent (k : string) (kw : kwdict) : dict_get k kw = None -> filter (fun p => negb (String.eqb k (fst p))) kw = kw.
Proof.
  induction kw as [|[a v] kw IH]; [reflexivity|]. cbn [dict_get filter fst]. destruct (String.eqb k a); [discriminate|]. intros X. cbn [negb]. rewrite IH by exact X. reflexivity.
Qed.
(** with method RK45 the trial runs have exactly the settings of the final run *)
Lemma trial_same kw : given kw "method" (KwStr "RK45") = KwStr "RK45" ->
  snd (split_kw (("events", KwEvents []) :: ivp_kwargs (snd (split_kw kw)))) = snd (split_kw kw).
Proof.
  intros HM. destruct (split_spec kw) as [_ (M & RT & AT & RE)]. rewrite HM in M. set (st := snd (split_kw kw)) in *. clearbody st. destruct st as [m rt a rest]. cbn [st_method st_rtol st_atol st_rest] in *.
  assert (E1 : dict_get "events" rest = None) by (rewrite RE; reflexivity). assert (E2 : dict_get "method" rest = None) by (rewrite RE; reflexivity).
  assert (E3 : dict_get "rtol" rest = None) by (rewrite RE; reflexivity). assert (E4 : dict_get "atol" rest = None) by (rewrite RE; reflexivity). clear RE RT AT.
  subst m. unfold split_kw, kwpop, ivp_kwargs. cbn [fst snd st_method st_rtol st_atol st_rest].
  change (filter (fun p => negb (String.eqb "events" (fst p))) (("events", KwEvents []) :: ("rtol", rt) :: ("atol", a) :: rest))
    with (("rtol", rt) :: ("atol", a) :: filter (fun p => negb (String.eqb "events" (fst p))) rest).
  rewrite (filter_absent "events" rest E1).
  change (filter (fun p => negb (String.eqb "method" (fst p))) (("rtol", rt) :: ("atol", a) :: rest))
    with (("rtol", rt) :: ("atol", a) :: filter (fun p => negb (String.eqb "method" (fst p))) rest).
  rewrite (filter_absent "method" rest E2).
  change (filter (fun p => negb (String.eqb "rtol" (fst p))) (("rtol", rt) :: ("atol", a) :: rest))
    with (("atol", a) :: filter (fun p => negb (String.eqb "rtol" (fst p))) rest).
  rewrite (filter_absent "rtol" rest E3).
  change (filter (fun p => negb (String.eqb "atol" (fst p))) (("atol", a) :: rest)) with (filter (fun p => negb (String.eqb "atol" (fst p))) rest).
  rewrite (filter_absent "atol" rest E4).
  change (dict_get "method" (("rtol", rt) :: ("atol", a) :: rest)) with (dict_get "method" rest). rewrite E2. reflexivity.
Qed.
Lemma all_R_inv l y : all_R l = Ok y -> l = map Fin y.
Proof.
  revert y. induction l as [|[r| | |] l IH]; cbn; intros y E; try discriminate; [injection E as <-; reflexivity|].
  destruct (all_R l) as [u|]; [|discriminate]. cbn in E. injection E as <-. rewrite (IH u eq_refl). reflexivity.
Qed.

(** With the default method, and if the final run sees the same start and end of inflation as the trial run,
    solve(ISIC_Nt(N_tot=T, ...)) returns a solution with N_tot = T. *)
Theorem C91_total_efolds_partial : forall F euler z3 S fmt_e ivp find verbose q bracket t eta xe i ic T kw events s b,
  honest find -> is_other q = false -> 0 < T -> nt_init q bracket t eta xe (kw_of i) = Ok ic ->
  given kw "method" (KwStr "RK45") = KwStr "RK45" -> dict_get "events" kw = Some (KwEvents events) ->
  NoDup (map (event_name fmt_e) events) ->
  solve_kw F euler z3 S fmt_e ivp find verbose (ANt ic T bracket) [] kw = Ok (s, b) ->
  exists st root ic0 Ni x0 y0, asked kw st /\ is_init q root t eta xe (kw_of i) = Ok ic0 /\ ic_N ic0 = Fin Ni /\
    let r := fst (ivp st q x0 xe y0 events) in let until := Ni + T + 10 in
    let r' := fst (ivp st q x0 xe y0 (shoot_events until)) in
    (ivp_ok (List.length (ie_idx q)) (List.length events) r -> shoot_contract q until r' ->
     same_records events r (shoot_events until) r' -> get_F s "N_tot" = Ok (Fin T)).
Proof.
  intros F euler z3 S fmt_e ivp find verbose q bracket t eta xe i ic T kw events s b HF Hq HT HI HM HE ND E.
  unfold solve_kw in E. destruct (existsb _ _); [discriminate|]. cbv zeta in E. destruct (split_spec kw) as [EV AS]. unfold given in EV. rewrite HE in EV. rewrite EV in E.
  unfold ic_call, trial_ivp in E. rewrite (trial_same kw HM) in E. set (st := snd (split_kw kw)) in *.
  destruct (nt_call fmt_e (ivp st) find verbose ic T bracket _) as [[[ic' y] root]|] eqn:EN; [|discriminate]. cbn [bind fst snd any_eqs] in E.
  assert (QI : ic_eqs ic = q). { unfold nt_init in HI. destruct (last_of bracket); [|discriminate]. cbn [bind] in HI. apply is_init_obj in HI. destruct HI as [? [? [? [? [? [-> _]]]]]]. reflexivity. }
  rewrite QI in *.
  destruct (C35_shooting fmt_e (ivp st) find verbose q bracket t eta xe i ic T _ ic' y root HI EN) as (K1 & K2 & K3 & K4 & K5 & K6 & _ & FR & ic0 & I0 & C0).
  apply HF in FR. 
  destruct (inflation_eqs_ie q Hq) as [IQ [EQ EI]]. rewrite EQ in E. cbn [bind] in E.
  destruct (attr_of (ic_x_ini ic')) as [x|] eqn:EX; [|discriminate]. cbn [bind] in E. destruct x as [[x0| | |]|]; try discriminate E. cbn [bind] in E.
  destruct (all_R y) as [y0|] eqn:EY; [|discriminate]. cbn [bind] in E. apply all_R_inv in EY. subst y. rewrite K5 in E.
  destruct (solve fmt_e (eqs_ie q) verbose events (fst (ivp st q x0 xe y0 events))) as [w|] eqn:ES; [|discriminate]. cbn [bind] in E. injection E as E1 E2.
  assert (XI : ic_x_ini ic' = Some (Some (Fin x0))). { destruct (ic_x_ini ic'); cbn in EX; congruence. }
  assert (NI : exists Ni, ic_N ic0 = Fin Ni). { revert FR. unfold phii2Ntot. rewrite I0. destruct (ic_N ic0); try discriminate. eauto. }
  destruct NI as [Ni EN0].
  exists st, root, ic0, Ni, x0, y0. split; [exact AS|]. split; [exact I0|]. split; [exact EN0|]. cbv zeta.
  intros IV SC SR. cbn [any_eqs] in C0. rewrite QI in C0.
  destruct (C34_zero fmt_e (ivp st) verbose q t eta xe i T root ic0 Ni ic' y0 x0 Hq HT I0 EN0 C0 XI SC) as [Z _].
  destruct (Z FR) as (s' & ws' & ES' & GT). rewrite <- GT. destruct w as [s1 w1]. cbn [fst] in E1. subst s1.
  apply (same_records_N_tot fmt_e (eqs_ie q) verbose verbose events (fst (ivp st q x0 xe y0 events)) (shoot_events (Ni + T + 10)) (fst (ivp st q x0 xe y0 (shoot_events (Ni + T + 10)))) s w1 s' ws'); try assumption.
  1: cbn; nodup.
  all: rewrite EI; first [exact IV|exact (proj1 SC)].
Qed.

(** ** ... but with another method the trial runs still use RK45 *)
(** a run inflating from N = 0 to N = n *)
Definition run_to (n : R) : raw_sol := mkraw [0; n] [[0; -1; 0]; [0; 1; n]] [[]; [n]; []; []] [[]; [[0; 1; n]]; []; []].
Definition q91 : ieqs := IT 0 Uex false.
Definition ic91 : icobj := is_obj q91 0 (Some 0) None 100 (InN 0) (Fin 0) (Fin (- 0 / (pV Uex 0 / 2 * exp (2 * 0) - 0))) (Fin (sqrt (pV Uex 0 / 2 * exp (2 * 0) - 0))) (Fin (sqrt (pV Uex 0 / 2 - 0 * exp (-2 * 0)))).
Lemma run_to_contract n until : shoot_contract q91 until (run_to n).
Proof.
  split; [|split; [intros C; exfalso; apply C; reflexivity|cbn; lia]].
  repeat split; try discriminate. intros [|[|[|[|[|j]]]]] te ye; cbn; intros A B; try discriminate; injection A as <-; injection B as <-; reflexivity.
Qed.
Lemma ic91_init : is_init q91 0 (Some 0) None 100 (kw_of (InN 0)) = Ok ic91.
Proof.
  apply (is_from_N q91 0 (Some 0) None 100 0). cbn. rewrite Rmult_0_r, exp_0. lra.
Qed.
Lemma ic91_call : exists ic', is_call ic91 (repeat (Fin 0) 3) = Ok (ic', map Fin [0; - sqrt (1 + 0^2); 0]) /\ ic_x_ini ic' = Some (Some (Fin 0)) /\ ic_x_end ic' = 100.
Proof.
  destruct (is_call_spec q91 0 (Some 0) None 100 (InN 0) (Fin 0) (Fin (- 0 / (pV Uex 0 / 2 * exp (2 * 0) - 0))) (Fin (sqrt (pV Uex 0 / 2 * exp (2 * 0) - 0))) (Fin (sqrt (pV Uex 0 / 2 - 0 * exp (-2 * 0)))) eq_refl) as [_ B].
  destruct B as [y [_ C]]; [intros [D _]; discriminate|].
  specialize (C (repeat (Fin 0) 3) eq_refl). fold ic91 in C.
  assert (Y : Ok [Fin 0; fneg (fsqrt (Fin (1 + 0^2))); Fin 0] = Ok y) by exact (f_equal state_of C).
  assert (Y' : y = map Fin [0; - sqrt (1 + 0^2); 0]).
  { rewrite fsqrt_fin in Y by lra. cbn [fneg] in Y. cbn [map]. congruence. }
  rewrite Y' in C. eexists. split; [exact C|]. split; reflexivity.
Qed.
Lemma run_to_N_tot fmt_e verbose n until : exists s ws, solve fmt_e (eqs_ie q91) verbose (shoot_events until) (run_to n) = Ok (s, ws) /\ get_F s "N_tot" = Ok (Fin n).
Proof.
  assert (IVP : ivp_ok (List.length (e_idx (eqs_ie q91))) 4 (run_to n)) by apply (run_to_contract n until).
  destruct (solve_ok fmt_e (eqs_ie q91) verbose (shoot_events until) (run_to n)) as [s [ES SO]]; [left; repeat eexists|cbn; nodup|exact IVP|].
  exists s. eexists. split; [exact ES|]. destruct SO as [_ [_ [_ [_ [_ [_ [_ [_ [S9 _]]]]]]]]].
  unfold get_F, getattr. rewrite S9. cbn [bind as_F]. f_equal.
  unfold N_end_of, N_beg_of, end_record, recorded, run_to. cbn [record_of r_t_events r_y_events shoot_events is_inflation is_collapse Z.eqb Pos.eqb Bool.eqb andb combine r_t r_y fst snd].
  rewrite (fle_true 0 _); [cbn; f_equal; ring|]. cbn. unfold T_inflating. cbn. lra.
Qed.
(** the root finder of the example: returns 0 if that is a root *)
Definition find91 (q : ieqs) : rootfinder := fun f _ =>
  match f 0 with Ok (Fin r) => if Req_EM_T r 0 then Ok 0 else Raise ValueError | Ok _ => Raise ValueError | Raise e => Raise e end.
Lemma find91_honest : honest find91.
Proof. intros q f br x. unfold find91. destruct (f 0) as [[r| | |]|] eqn:E; try discriminate. destruct (Req_EM_T r 0); [|discriminate]. intros X. injection X as <-. congruence. Qed.
(** an integrator that finds 4 e-folds with RK45 and n with any other method *)
Definition ivp91 (n : R) (st : settings) : integrator := fun _ _ _ _ _ =>
  (run_to (match st_method st with KwStr m => if String.eqb m "RK45" then 4 else n | _ => n end), false).

Lemma solve91 F euler z3 S fmt_e verbose n kw : (kw = [] \/ exists m, kw = [("method", KwStr m)]) ->
  let kw' := ("events", KwEvents (shoot_events 14)) :: kw in
  exists s, solve_kw F euler z3 S fmt_e (ivp91 n) find91 verbose (ANt ic91 4 [0]) [] kw' = Ok (s, false) /\
    get_F s "N_tot" = Ok (Fin (match given kw "method" (KwStr "RK45") with KwStr m => if String.eqb m "RK45" then 4 else n | _ => n end)).
Proof.
  intros HK kw'. 
  assert (ST : exists m, snd (split_kw kw') = mkst (KwStr m) (KwNum (/ 10^10)) (KwNum (/ 10^12)) [] /\ given kw "method" (KwStr "RK45") = KwStr m).
  { destruct HK as [->|[m ->]]; eexists; split; reflexivity. }
  destruct ST as [m [ST GM]]. rewrite GM.
  unfold solve_kw. assert (HR : existsb (fun k => match dict_get k kw' with Some _ => true | None => false end) reserved = false) by (destruct HK as [->|[? ->]]; reflexivity).
  rewrite HR. cbv zeta. clear HR. assert (EV : fst (split_kw kw') = KwEvents (shoot_events 14)) by reflexivity. rewrite EV, ST. clear EV ST.
  set (st := mkst _ _ _ _).
  destruct ic91_call as [ic' [EC [EX EE]]].
  assert (FN : nt_call fmt_e (trial_ivp (ivp91 n) (ivp_kwargs st)) find91 verbose ic91 4 [0] (repeat (Fin 0) 3) = Ok ((ic', map Fin [0; - sqrt (1 + 0^2); 0]), 0)).
  { unfold nt_call. change (ic_eqs ic91) with q91. change (ic_t ic91) with (Some 0). change (ic_eta ic91) with (@None R). change (ic_x_end ic91) with 100. change (ic_input ic91) with (InN 0).
    unfold find91. destruct (C34_zero fmt_e (trial_ivp (ivp91 n) (ivp_kwargs st)) verbose q91 (Some 0) None 100 (InN 0) 4 0 ic91 0 ic' [0; - sqrt (1 + 0^2); 0] 0 eq_refl ltac:(lra) ic91_init eq_refl EC EX (run_to_contract 4 _)) as [_ Z].
    rewrite Z; [|apply run_to_N_tot]. destruct (Req_EM_T 0 0); [|lra]. cbn [bind]. unfold shoot_finish.
    change (ic_eqs ic91) with q91. change (ic_t ic91) with (Some 0). change (ic_eta ic91) with (@None R). change (ic_x_end ic91) with 100. change (ic_input ic91) with (InN 0).
    rewrite ic91_init. cbn [bind]. rewrite EC. reflexivity. }
  unfold ic_call. change (List.length (ie_idx (any_eqs (ANt ic91 4 [0])))) with 3%nat. rewrite FN. cbn [bind fst snd]. rewrite EX. change (eqs_of (any_eqs (ANt ic91 4 [0]))) with (Ok (eqs_ie q91)). cbn [bind attr_of].
  rewrite all_R_map. cbn [bind]. unfold ivp91 at 1 2. cbn [fst snd st st_method].
  destruct (run_to_N_tot fmt_e verbose (if String.eqb m "RK45" then 4 else n) 14) as (s & ws & ES & GT). rewrite ES. cbn [bind fst snd]. exists s. split; [reflexivity|exact GT].
Qed.

(** For every method name other than RK45 and every n there are an integrator obeying scipy's contract and an
    honest root finder for which solve(ISIC_Nt(N_tot=4), method=m) returns a solution with N_tot = n; with the
    method left out it returns N_tot = 4. *)
Theorem C91_method_refuted : forall F euler z3 S fmt_e verbose m n, m <> "RK45" ->
  exists ivp find ic, honest find /\ nt_init q91 [0] (Some 0) None 100 (kw_of (InN 0)) = Ok ic /\
    (forall st x0 xe y0, shoot_contract q91 14 (fst (ivp st q91 x0 xe y0 (shoot_events 14)))) /\
    (exists s b, solve_kw F euler z3 S fmt_e ivp find verbose (ANt ic 4 [0]) [] [("events", KwEvents (shoot_events 14)); ("method", KwStr m)] = Ok (s, b) /\
       get_F s "N_tot" = Ok (Fin n)) /\
    (exists s b, solve_kw F euler z3 S fmt_e ivp find verbose (ANt ic 4 [0]) [] [("events", KwEvents (shoot_events 14))] = Ok (s, b) /\
       get_F s "N_tot" = Ok (Fin 4)).
Proof.
  intros F euler z3 S fmt_e verbose m n Hm. exists (ivp91 n), find91, ic91. split; [exact find91_honest|]. split; [exact ic91_init|]. split; [intros; apply run_to_contract|]. split.
  - destruct (solve91 F euler z3 S fmt_e verbose n [("method", KwStr m)]) as (s & E & G); [right; eauto|]. exists s, false. split; [exact E|]. rewrite G. cbn.
    destruct (String.eqb m "RK45") eqn:X; [apply String.eqb_eq in X; contradiction|reflexivity].
  - destruct (solve91 F euler z3 S fmt_e verbose n []) as (s & E & G); [left; reflexivity|]. exists s, false. split; [exact E|]. rewrite G. reflexivity.
Qed.

(** ** Arguments solve cannot take: any positional argument after ic, the names bound by position, and
    events that are not a list of Event objects *)
Theorem C91_arguments : forall F euler z3 S fmt_e ivp find verbose c args kw s,
  solve_kw F euler z3 S fmt_e ivp find verbose c args kw = Ok s ->
  args = [] /\ (forall k, In k ["ic"; "y0"; "fun"; "t_span"] -> dict_get k kw = None) /\
  exists events, given kw "events" (KwEvents []) = KwEvents events.
Proof.
  intros F euler z3 S fmt_e ivp find verbose c args kw s E. unfold solve_kw in E.
  destruct (existsb _ reserved) eqn:EX; [discriminate|]. cbv zeta in E. destruct (ic_call _ _ _ _ _ _ _ _ _ _ _) as [r|]; [|discriminate]. cbn [bind] in E.
  destruct args; [|discriminate]. split; [reflexivity|]. split.
  - intros k I. destruct (dict_get k kw) eqn:D; [|reflexivity]. exfalso.
    assert (existsb (fun k => match dict_get k kw with Some _ => true | None => false end) reserved = true); [|congruence].
    apply existsb_exists. exists k. split; [exact I|]. rewrite D. reflexivity.
  - destruct (eqs_of _); [|discriminate]. cbn [bind] in E. destruct (attr_of _) as [x|]; [|discriminate]. cbn [bind] in E.
    destruct (match x with None => _ | Some _ => _ end); [|discriminate]. cbn [bind] in E. destruct (all_R _); [|discriminate]. cbn [bind] in E.
    destruct (split_spec kw) as [EV _]. rewrite <- EV. destruct (fst (split_kw kw)); try discriminate E. eexists. reflexivity.
Qed.

(** ** A start with a NaN or an infinity (C33 shows which inputs produce one) is never integrated: solve and the trial
    runs of the shooting classes raise ValueError, whatever the integrator *)
Lemma all_R_bad l : (exists a, In a l /\ forall r, a <> Fin r) -> all_R l = Raise ValueError.
Proof.
  induction l as [|b l IH]; intros (a & I & N); [destruct I|]. cbn [all_R]. destruct b as [r| | |]; try reflexivity.
  destruct I as [I|I]; [exfalso; exact (N r (eq_sym I))|]. rewrite IH by eauto. reflexivity.
Qed.
Theorem C33_not_integrated : forall F euler z3 S fmt_e ivp find verbose c kw q r x,
  existsb (fun k => match dict_get k kw with Some _ => true | None => false end) ["ic"; "y0"; "fun"; "t_span"] = false ->
  eqs_of (any_eqs c) = Ok q ->
  ic_call F euler z3 S fmt_e ivp find verbose c (ivp_kwargs (snd (split_kw kw))) (repeat (Fin 0) (List.length (ie_idx (any_eqs c)))) = Ok r ->
  attr_of (ic_x_ini (fst r)) = Ok (Some x) ->
  (forall a, x <> Fin a) \/ (exists a, In a (snd r) /\ forall b, a <> Fin b) ->
  solve_kw F euler z3 S fmt_e ivp find verbose c [] kw = Raise ValueError.
Proof.
  intros F euler z3 S fmt_e ivp find verbose c kw q r x NR EQ EC EX H. unfold solve_kw, reserved. rewrite NR. cbv zeta. rewrite EC. cbn [bind]. rewrite EQ. cbn [bind]. rewrite EX. cbn [bind].
  destruct x as [a| | |]; try reflexivity. destruct H as [H|H]; [exfalso; exact (H a eq_refl)|]. cbn [bind]. rewrite (all_R_bad _ H). reflexivity.
Qed.
Theorem C33_not_integrated_trial : forall fmt_e ivp verbose ic events q r x,
  eqs_of (ic_eqs ic) = Ok q -> is_call ic (repeat (Fin 0) (List.length (ie_idx (ic_eqs ic)))) = Ok r ->
  attr_of (ic_x_ini (fst r)) = Ok (Some x) ->
  (forall a, x <> Fin a) \/ (exists a, In a (snd r) /\ forall b, a <> Fin b) ->
  run_solve fmt_e ivp verbose ic events = Raise ValueError.
Proof.
  intros fmt_e ivp verbose ic events q r x EQ EC EX H. unfold run_solve. rewrite EC. cbn [bind]. rewrite EQ. cbn [bind]. rewrite EX. cbn [bind].
  destruct x as [a| | |]; try reflexivity. destruct H as [H|H]; [exfalso; exact (H a eq_refl)|]. cbn [bind]. rewrite (all_R_bad _ H). reflexivity.
Qed.
Theorem C33_flat_curvature_rejected : forall F euler z3 S fmt_e ivp find verbose U phi t xe o kw, 0 < pV U phi -> o < 1 -> o <> 0 ->
  existsb (fun k => match dict_get k kw with Some _ => true | None => false end) ["ic"; "y0"; "fun"; "t_span"] = false ->
  exists ic, sr_init (IT 0 U false) phi (Some t) None xe (mkkw None (Some o)) = Ok ic /\
    solve_kw F euler z3 S fmt_e ivp find verbose (ASlowRoll ic) [] kw = Raise ValueError.
Proof.
  intros F euler z3 S fmt_e ivp find verbose U phi t xe o kw HV O1 O0 NR.
  destruct (proj1 (C33_invalid_start_refuted U phi false (Some t) None xe HV) o O1 O0) as [(ic & E & EN & _) _].
  exists ic. split; [exact E|].
  assert (ST : ic_eqs ic = IT 0 U false /\ ic_x_ini ic = Some (Some (Fin t)) /\ exists d, ic_dphi ic = Some d).
  { unfold sr_init in E. cbn [kw_N kw_O] in E. destruct (flt (Fin o) (Fin 1)); [|discriminate]. destruct (feq (Fin o) (Fin 0)); [discriminate|]. cbn [bind] in E.
    injection E as <-. cbn. eauto. }
  destruct ST as (S1 & S2 & d & S3).
  eapply (C33_not_integrated F euler z3 S fmt_e ivp find verbose (ASlowRoll ic) kw (T_eqs 0 U false) (ic, [Fin (ic_phi ic); d; NInf]) (Fin t)).
  - exact NR.
  - cbn [any_eqs]. rewrite S1. reflexivity.
  - cbn [any_eqs ic_call]. unfold sr_call. rewrite S1, S3, EN. reflexivity.
  - cbn [fst]. rewrite S2. reflexivity.
  - right. exists NInf. split; [right; right; left; reflexivity|discriminate].
Qed.
