(** C129 in cosmic time: what solve() reports after an integration of the cosmic-time equations without error. *)
From Coq Require Import Reals List String Lra Lia Classical ZArith Bool.
From Coquelicot Require Import Coquelicot.
From Verif Require Import Base Model.Potentials Model.SlowRoll Model.Equations Model.Background Model.Float Model.Solution Model.InitCond Model.Events
  Model.State Model.ApproxPower Model.Calibrate Model.BigBang Model.Shooting Model.Solver
  Spec.PotentialSpec Spec.SlowRollSpec Spec.BackgroundSpec Spec.SolutionSpec Spec.ExactRun Spec.ExactRunT Proofs.PhiEnd Proofs.SRN Proofs.Bracket Proofs.BackgroundT Proofs.BackgroundN Proofs.BackgroundTN Proofs.BackgroundEx Proofs.FloatLemmas Proofs.Unique
  Proofs.PostProc Proofs.SolLemmas Proofs.SlowRollBound Proofs.Roll Proofs.RollEnd Proofs.FastRoll Proofs.StartCont Proofs.ShootRun Proofs.ShootRunT Proofs.RunReports Proofs.RunReportsT
  Properties.InitProps Properties.UniqueProps Properties.SlowRollBoundProps Properties.EndNonvacuity Properties.InflationEndsProps Properties.StartEndsProps Properties.StartEndsNonvacuity Properties.StartContProps Properties.ExactShootTimeProps Properties.ExactReportProps.
Import ListNotations.
Open Scope R_scope.
Open Scope string_scope.

(** C129, for any universe and potential, in cosmic time: an evolution that inflates from t_i until the inflation indicator
    changes sign at t_end is reported as such, without a warning; the e-folds are those of the evolved _N. *)
Theorem C129_time_reports : forall fmt_e verbose K U te y a b t_i t_end x_end extra r,
  let q := T_eqs K U te in let ev := Inflation 1 false 0 None :: Inflation (-1) true 0 None :: extra in
  T_background K U te y a b -> a < t_i < t_end -> t_end < b -> t_end < x_end ->
  0 <= T_inflating U te t_i (y t_i) -> (forall t, t_i < t < t_end -> 0 < T_inflating U te t (y t)) ->
  falls_through (fun t => T_inflating U te t (y t)) t_end ->
  NoDup (map (event_name fmt_e) ev) -> List.Forall (fun e => event_terminal e = false \/ exists v, v <= 0 /\ e = Collapse v) extra ->
  exact_run_time K U te t_i x_end (y t_i) ev r ->
  last (r_t r) t_i = t_end /\
  exists s, solve fmt_e q verbose ev r = Ok (s, []) /\
    says s (map (fun st => var (T_idx te) "_N" st) (r_y r)) (T_N te y t_i) (T_Hub K U te y t_i) (T_N te y t_end) (T_phi te y t_end) (pV U (T_phi te y t_end)) (T_Hub K U te y t_end).
Proof.
  intros fmt_e verbose K U te y a b t_i t_end x_end extra r q ev B A1 A2 XE I0 I1 F ND EX RUN.
  split; [apply (run_record_T K U te y a b t_i t_end x_end B A1 A2 I1 F extra r XE EX RUN)|].
  exact (run_reports_T K U te y a b t_i t_end x_end B A1 A2 I0 I1 F extra r XE EX RUN fmt_e verbose ND).
Qed.

Lemma solve_kw_via_T F euler z3 S fmt_e ivp find verbose c kw ev te U ic' t_i x_end y1 s ws :
  existsb (fun k => match dict_get k kw with Some _ => true | None => false end) reserved = false ->
  dict_get "events" kw = Some (KwEvents ev) -> any_eqs c = IT 0 U te ->
  ic_call F euler z3 S fmt_e ivp find verbose c (ivp_kwargs (snd (split_kw kw))) (repeat (Fin 0) (List.length (ie_idx (any_eqs c)))) = Ok (ic', map Fin y1) ->
  ic_x_ini ic' = Some (Some (Fin t_i)) -> ic_x_end ic' = x_end ->
  solve fmt_e (T_eqs 0 U te) verbose ev (fst (ivp (snd (split_kw kw)) (IT 0 U te) t_i x_end y1 ev)) = Ok (s, ws) ->
  solve_kw F euler z3 S fmt_e ivp find verbose c [] kw = Ok (s, snd (ivp (snd (split_kw kw)) (IT 0 U te) t_i x_end y1 ev)).
Proof.
  intros RS EV EQ IC XI XF SO. unfold solve_kw. rewrite RS, IC. cbn [bind fst snd].
  assert (EV' : fst (split_kw kw) = KwEvents ev) by (unfold split_kw, kwpop; cbn [fst]; rewrite EV; reflexivity).
  rewrite EQ. cbn [eqs_of bind]. change (eqs_of (IT 0 U te)) with (Ok (T_eqs 0 U te)). cbn [bind].
  rewrite XI. cbn [attr_of bind]. rewrite all_R_map. cbn [bind]. rewrite EV', XF. rewrite SO. reflexivity.
Qed.
Lemma T_hub_at_zero P L te y a b t : T_background 0 (potfun_of P L) te y a b -> a < t < b -> T_inflating (potfun_of P L) te t (y t) = 0 ->
  T_Hub 0 (potfun_of P L) te y t = sqrt (V P L (T_phi te y t) / 2).
Proof.
  intros B Ht Z. destruct (T_flow P L te y a b B t Ht) as (_ & _ & _ & _ & FR & HP & _). cbn beta in FR.
  assert (Q : V P L (T_phi te y t) - (T_dphi te y t)^2 = 0) by exact Z. set (h := T_Hub 0 (potfun_of P L) te y t) in *. clearbody h.
  rewrite <- (sqrt_pow2 h) by lra. f_equal. lra.
Qed.

(** C129 for InflationStartIC in cosmic time, flat universe: given an x_end beyond the time inflation can take (C128),
    solve() reports without a warning that inflation starts at N_i and lasts the true number of e-folds N_tot, that the field
    at the end is strictly below the potential's slow-roll phi_end, and H = sqrt(V/2) at both ends. *)
Theorem C129_time_start : forall F euler z3 S fmt_e ivp find verbose root P L te phi t_i eta_i x_end N_i e ic kw extra,
  let U := potfun_of P L in let q := IT 0 U te in let ev := Inflation 1 false 0 None :: Inflation (-1) true 0 None :: extra in
  let out y1 := ivp (snd (split_kw kw)) q t_i x_end y1 ev in let N_max := phi * (V P L phi / dV P L phi) in
  root_spec root -> featureless P -> valid P -> (forall p phi0, P = DoubleWell p phi0 -> 1 <= p) -> P <> DoubleWell 1 (sqrt 2) ->
  L <> 0 -> branch P phi -> phi_end root P L = Ok e -> e < phi ->
  is_init q phi (Some t_i) eta_i x_end (kw_of (InN N_i)) = Ok ic -> ~ missing q (Some t_i) eta_i ->
  existsb (fun k => match dict_get k kw with Some _ => true | None => false end) reserved = false -> dict_get "events" kw = Some (KwEvents ev) ->
  NoDup (map (event_name fmt_e) ev) -> List.Forall (fun e => event_terminal e = false \/ exists v, v <= 0 /\ e = Collapse v) extra ->
  N_max * (sqrt (3 / V P L phi) * exp (1 / 2 + N_max)) < x_end - t_i ->
  (forall ic' y1, is_call ic (repeat (Fin 0) (List.length (T_idx te))) = Ok (ic', map Fin y1) -> exact_run_time 0 U te t_i x_end y1 ev (fst (out y1))) ->
  exists s y1 t_end N_tot phi_e N_sr,
    solve_kw F euler z3 S fmt_e ivp find verbose (AStart ic) [] kw = Ok (s, snd (out y1)) /\
    solve fmt_e (T_eqs 0 U te) verbose ev (fst (out y1)) = Ok (s, []) /\
    (forall y a b, T_background 0 U te y a b -> a < t_i < b -> y t_i = y1 ->
       T_inflating U te t_i (y t_i) = 0 /\ (forall t, t_i < t < t_end -> t < b -> 0 < T_inflating U te t (y t)) /\
       (t_end < b -> T_inflating U te t_end (y t_end) = 0 /\ T_N te y t_end - T_N te y t_i = N_tot)) /\
    last (r_t (fst (out y1))) t_i = t_end /\
    says s (map (fun st => var (T_idx te) "_N" st) (r_y (fst (out y1)))) N_i (sqrt (V P L phi / 2)) (N_i + N_tot) phi_e (V P L phi_e) (sqrt (V P L phi_e / 2)) /\
    0 < phi_e < e /\ sr_phi2N root P L phi = Ok N_sr /\
    N_sr - (sqrt 2 * (V P L phi / dV P L phi) - 1) / 2 <= N_tot <= N_max /\
    t_i < t_end /\ N_tot / sqrt (V P L phi / 2) <= t_end - t_i <= N_max * (sqrt (3 / V P L phi) * exp (1 / 2 + N_max)) /\
    (exists y a b, T_background 0 U te y a b /\ a < t_i /\ t_end < b /\ y t_i = y1).
Proof.
  intros F euler z3 S fmt_e ivp find verbose root P L te phi t_i eta_i x_end N_i e ic kw extra U q ev out N_max HR HF HV HD HN HL HB HE LE SI NM RS KE ND EX XE RUN.
  destruct (branch_pos P L phi HF HV HL HB) as [V0 V1].
  pose proof (phi_end_branch root P L e HR HF HV HL HN HE) as Be. destruct (phi_end_spec root P L e HR HF HV HL HE) as [_ Ee].
  pose proof (Nfun_end root P L e HF HV HE) as Ne.
  destruct (is_start_ok_T U te phi t_i eta_i x_end N_i V0 NM) as (ic0 & ic' & y1 & SI' & ICN & SC & XI). assert (ic0 = ic) by (unfold q in SI; congruence). subst ic0. clear SI'.
  pose proof (SC (repeat (Fin 0) (List.length (T_idx te))) (repeat_length _ _)) as SC0.
  destruct (is_start_T U te phi (Some t_i) eta_i x_end N_i ic _ ic' y1 V0 SI (repeat_length _ _) SC0) as (E1 & E2 & E3 & L1).
  destruct (lasts_ex P L e N_i HF HV HL HD Be Ee phi Ne HB LE) as (M & DM).
  destruct (time_core_end P L e N_i t_i te HF HV HL HD Be Ee Ne phi M y1 HB LE DM E1 E2 E3 L1) as (y & a & b & tE & A1 & A2 & B & Ey & _ & I2 & I3 & Z & FT & N1 & N2 & TB & BE & PE).
  change (potfun_of P L) with U in B, I2, I3, Z, FT.
  destruct (C128_duration root P L te phi t_i eta_i x_end N_i e ic _ ic' y1 HR HF HV HD HN HL HB HE LE SI (repeat_length _ _) SC0) as (tq & M' & N_sr & T0 & SR & NB & TD & EXY & UN).
  assert (ET : tq = tE /\ M' = M).
  { destruct (UN y a b B ltac:(lra) Ey) as (_ & K3 & KZ). change (potfun_of P L) with U in K3, KZ.
    assert (ET : tq = tE).
    { destruct (Rtotal_order tq tE) as [X|[X|X] ]; [|exact X|]; exfalso.
      - pose proof (I3 tq ltac:(lra)) as Q. destruct (KZ ltac:(lra)) as [Q' _]. lra.
      - pose proof (K3 tE ltac:(lra) ltac:(lra)) as Q. lra. }
    split; [exact ET|]. destruct (KZ ltac:(lra)) as [_ Q']. rewrite ET in Q'. lra. }
  destruct ET as [-> ->].
  pose proof (RUN ic' y1 SC0) as RN. rewrite <- Ey in RN.
  destruct (C129_time_reports fmt_e verbose 0 U te y a b t_i tE x_end extra _ B ltac:(lra) A2 ltac:(unfold N_max, t_budget in *; lra) ltac:(rewrite I2; lra) I3 FT ND EX RN) as (LA & s & SO & SA).
  fold ev in SO, SA, LA. rewrite Ey in SO, SA, LA. rewrite N1, N2 in SA.
  assert (P1 : T_phi te y t_i = phi) by (unfold T_phi; rewrite Ey; exact E1).
  pose proof (T_hub_at_zero P L te y a b t_i B ltac:(lra) I2) as HA1. pose proof (T_hub_at_zero P L te y a b tE B ltac:(lra) Z) as HA2. rewrite P1 in HA1.
  assert (Y1 : T_Hub 0 U te y t_i = sqrt (V P L phi / 2)) by exact HA1. assert (Y2 : T_Hub 0 U te y tE = sqrt (V P L (T_phi te y tE) / 2)) by exact HA2.
  rewrite Y1, Y2 in SA. clear HA1 HA2 Y1 Y2.
  exists s, y1, tE, M, (T_phi te y tE), N_sr.
  assert (OB : ic_eqs ic = q /\ ic_x_end ic = x_end) by (destruct (is_init_obj _ _ _ _ _ _ _ SI) as (i & n & o & aH & H & -> & _); split; reflexivity).
  assert (XF : ic_x_end ic' = x_end) by (rewrite (is_call_xend _ _ _ _ SC0); apply OB).
  split.
  { apply (solve_kw_via_T F euler z3 S fmt_e ivp find verbose (AStart ic) kw ev te U ic' t_i x_end y1 s []); try assumption; cbn [any_eqs ic_call]; rewrite (proj1 OB); [reflexivity|exact SC0]. }
  split; [exact SO|]. split; [exact UN|]. split; [exact LA|]. split; [exact SA|].
  split; [split; [apply (branch_gt0 P _ BE)|exact PE]|]. split; [exact SR|]. split; [exact NB|]. split; [exact T0|]. split; [exact TD|exact EXY].
Qed.
