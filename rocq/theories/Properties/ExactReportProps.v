(** C129: what solve() reports after an integration without error, with the events of the package's own examples
    (InflationEvent +1 recorded, InflationEvent -1 terminal): the true start, end and duration of inflation. *)
From Coq Require Import Reals List String Lra Lia Classical ZArith Bool.
From Coquelicot Require Import Coquelicot.
From Verif Require Import Base Model.Potentials Model.SlowRoll Model.Equations Model.Background Model.Float Model.Solution Model.InitCond Model.Events
  Model.State Model.ApproxPower Model.Calibrate Model.BigBang Model.Shooting Model.Solver
  Spec.PotentialSpec Spec.SlowRollSpec Spec.BackgroundSpec Spec.SolutionSpec Spec.ExactRun Proofs.PhiEnd Proofs.SRN Proofs.Bracket Proofs.BackgroundT Proofs.BackgroundN Proofs.BackgroundTN Proofs.BackgroundEx Proofs.FloatLemmas Proofs.Unique
  Proofs.PostProc Proofs.SlowRollBound Proofs.Roll Proofs.RollEnd Proofs.FastRoll Proofs.StartCont Proofs.ShootRun Proofs.RunReports Proofs.RunFallsSR
  Properties.InitProps Properties.UniqueProps Properties.SlowRollBoundProps Properties.InflationEndsProps Properties.StartEndsProps Properties.StartContProps.
Import ListNotations.
Open Scope R_scope.
Open Scope string_scope.

(** The solution object s, with the sampled e-folds Ns, says that inflation started at N_beg with Hubble parameter H_beg
    and ended at N_end with the field phi_end, the potential V_end and the Hubble parameter H_end; the samples run up to
    the end, and inflation_mask marks exactly those strictly between start and end. *)
Definition says (s : attrs) (Ns : list R) (N_beg H_beg N_end phi_end V_end H_end : R) : Prop :=
  dict_get "_N_beg" s = Some (VF (Fin N_beg)) /\ dict_get "_N_end" s = Some (VF (Fin N_end)) /\ dict_get "N_tot" s = Some (VF (Fin (N_end - N_beg))) /\
  dict_get "phi_end" s = Some (VF (Fin phi_end)) /\ dict_get "V_end" s = Some (VF (Fin V_end)) /\
  dict_get "H_end" s = Some (VF (Fin H_end)) /\ dict_get "H_beg" s = Some (VF (Fin H_beg)) /\
  dict_get "_N" s = Some (VA (map Fin Ns)) /\ last Ns N_beg = N_end /\
  exists mask, dict_get "inflation_mask" s = Some (VB mask) /\ List.length mask = List.length Ns /\
    forall i n m, nth_error Ns i = Some n -> nth_error mask i = Some m -> (m = true <-> N_beg < n < N_end).

(** C129, for any universe and potential: an evolution that inflates from N_i until the inflation indicator changes sign
    at N_end is reported as such, without a warning. [extra]: any further events, if they only record, or look for
    H^2 = v with v <= 0 (CollapseEvent). *)
Theorem C129_reports : forall fmt_e verbose K U tm te y a b N_i N_end x_end extra r,
  let q := N_eqs K U tm te in let ev := Inflation 1 false 0 None :: Inflation (-1) true 0 None :: extra in
  N_background K U tm te y a b -> a < N_i < N_end -> N_end < b -> N_end < x_end ->
  0 <= N_inflating K U tm te N_i (y N_i) -> (forall n, N_i < n < N_end -> 0 < N_inflating K U tm te n (y n)) ->
  falls_through (fun n => N_inflating K U tm te n (y n)) N_end ->
  NoDup (map (event_name fmt_e) ev) -> List.Forall (fun e => event_terminal e = false \/ exists v, v <= 0 /\ e = Collapse v) extra ->
  exact_run K U tm te N_i x_end (y N_i) ev r ->
  exists s, solve fmt_e q verbose ev r = Ok (s, []) /\
    says s (r_t r) N_i (N_Hub K U tm te y N_i) N_end (N_phi tm te y N_end) (pV U (N_phi tm te y N_end)) (N_Hub K U tm te y N_end).
Proof.
  intros fmt_e verbose K U tm te y a b N_i N_end x_end extra r q ev B A1 A2 XE I0 I1 F ND EX RUN.
  exact (run_reports K U tm te y a b N_i N_end x_end B A1 A2 I0 I1 F extra r XE EX RUN fmt_e verbose ND).
Qed.

(** how solve() with initial conditions whose call succeeds comes to that result *)
Lemma solve_kw_via F euler z3 S fmt_e ivp find verbose c kw ev tm te U ic' N_i x_end y1 s ws :
  existsb (fun k => match dict_get k kw with Some _ => true | None => false end) reserved = false ->
  dict_get "events" kw = Some (KwEvents ev) -> any_eqs c = IN 0 U tm te ->
  ic_call F euler z3 S fmt_e ivp find verbose c (ivp_kwargs (snd (split_kw kw))) (repeat (Fin 0) (List.length (ie_idx (any_eqs c)))) = Ok (ic', map Fin y1) ->
  ic_x_ini ic' = Some (Some (Fin N_i)) -> ic_x_end ic' = x_end ->
  solve fmt_e (N_eqs 0 U tm te) verbose ev (fst (ivp (snd (split_kw kw)) (IN 0 U tm te) N_i x_end y1 ev)) = Ok (s, ws) ->
  solve_kw F euler z3 S fmt_e ivp find verbose c [] kw = Ok (s, snd (ivp (snd (split_kw kw)) (IN 0 U tm te) N_i x_end y1 ev)).
Proof.
  intros RS EV EQ IC XI XF SO. unfold solve_kw. rewrite RS, IC. cbn [bind fst snd].
  assert (EV' : fst (split_kw kw) = KwEvents ev) by (unfold split_kw, kwpop; cbn [fst]; rewrite EV; reflexivity).
  rewrite EQ. cbn [eqs_of bind]. change (eqs_of (IN 0 U tm te)) with (Ok (N_eqs 0 U tm te)). cbn [bind].
  rewrite XI. cbn [attr_of bind]. rewrite all_R_map. cbn [bind]. rewrite EV', XF. rewrite SO. reflexivity.
Qed.


(** the Hubble parameter when the inflation indicator vanishes *)
Lemma hub_at_zero P L tm te y a b n : N_background 0 (potfun_of P L) tm te y a b -> a < n < b -> N_inflating 0 (potfun_of P L) tm te n (y n) = 0 ->
  N_Hub 0 (potfun_of P L) tm te y n = sqrt (V P L (N_phi tm te y n) / 2).
Proof.
  intros B Hn Z. pose proof (N_V 0 _ tm te y a b B n Hn) as EV. destruct (N_pos 0 _ tm te y a b B n Hn) as (HP & _ & H6).
  pose proof (run_infl P L tm te y a b B n Hn) as Q. rewrite Z in Q. cbn [potfun_of pV] in EV. set (h := N_Hub 0 (potfun_of P L) tm te y n) in *. set (v := N_dphi tm te y n) in *. set (W := V P L (N_phi tm te y n)) in *. clearbody h v W.
  rewrite <- (sqrt_pow2 h) by lra. f_equal. replace ((h * v)^2) with (h^2 * v^2) in Q by ring. lra.
Qed.

Lemma is_call_xend ic y0 ic' l : is_call ic y0 = Ok (ic', l) -> ic_x_end ic' = ic_x_end ic.
Proof.
  unfold is_call. intros H. repeat match type of H with
  | bind ?x _ = _ => let E := fresh "E" in destruct x eqn:E; cbn [bind] in H; [|discriminate H]
  | (if ?c then _ else _) = _ => destruct c
  end; destruct (ic_eqs ic); repeat match goal with
  | Q : bind ?x _ = _ |- _ => let E := fresh "E" in destruct x eqn:E; cbn [bind] in Q; [|discriminate Q]
  | Q : Ok _ = Ok _ |- _ => injection Q; clear Q; intros; subst
  | Q : Raise _ = Ok _ |- _ => discriminate Q
  end; reflexivity.
Qed.

(** C129 for InflationStartIC in a flat universe: whatever the options, the events extra and the other keywords, solve()
    with an integrator that makes no error reports, without a warning, that inflation starts at N_i, lasts the true number of
    e-folds, which lies between the slow-roll count less (sqrt 2 V/V' - 1)/2 and phi V/V', and ends at a field strictly
    below the one where the potential slow-roll parameter is 1; at both ends H = sqrt(V/2). *)
Theorem C129_start : forall F euler z3 S fmt_e ivp find verbose root P L tm te phi t_i eta_i x_end N_i e ic kw extra,
  let U := potfun_of P L in let q := IN 0 U tm te in let ev := Inflation 1 false 0 None :: Inflation (-1) true 0 None :: extra in
  let out y1 := ivp (snd (split_kw kw)) q N_i x_end y1 ev in
  root_spec root -> featureless P -> valid P -> (forall p phi0, P = DoubleWell p phi0 -> 1 <= p) -> P <> DoubleWell 1 (sqrt 2) ->
  L <> 0 -> branch P phi -> phi_end root P L = Ok e -> e < phi ->
  is_init q phi t_i eta_i x_end (kw_of (InN N_i)) = Ok ic -> ~ missing q t_i eta_i ->
  existsb (fun k => match dict_get k kw with Some _ => true | None => false end) reserved = false -> dict_get "events" kw = Some (KwEvents ev) ->
  NoDup (map (event_name fmt_e) ev) -> List.Forall (fun e => event_terminal e = false \/ exists v, v <= 0 /\ e = Collapse v) extra ->
  N_i + phi * (V P L phi / dV P L phi) < x_end ->
  (forall ic' y1, is_call ic (repeat (Fin 0) (List.length (N_idx tm te))) = Ok (ic', map Fin y1) -> exact_run 0 U tm te N_i x_end y1 ev (fst (out y1))) ->
  exists s y1 N_tot phi_e N_sr,
    solve_kw F euler z3 S fmt_e ivp find verbose (AStart ic) [] kw = Ok (s, snd (out y1)) /\
    solve fmt_e (N_eqs 0 U tm te) verbose ev (fst (out y1)) = Ok (s, []) /\
    inflates_for U tm te t_i eta_i x_end N_i phi N_tot /\
    says s (r_t (fst (out y1))) N_i (sqrt (V P L phi / 2)) (N_i + N_tot) phi_e (V P L phi_e) (sqrt (V P L phi_e / 2)) /\
    0 < phi_e < e /\ sr_phi2N root P L phi = Ok N_sr /\
    N_sr - (sqrt 2 * (V P L phi / dV P L phi) - 1) / 2 <= N_tot <= phi * (V P L phi / dV P L phi).
Proof.
  intros F euler z3 S fmt_e ivp find verbose root P L tm te phi t_i eta_i x_end N_i e ic kw extra U q ev out HR HF HV HD HN HL HB HE LE SI NM RS KE ND EX XE RUN.
  destruct (branch_pos P L phi HF HV HL HB) as [V0 V1].
  pose proof (phi_end_branch root P L e HR HF HV HL HN HE) as Be. destruct (phi_end_spec root P L e HR HF HV HL HE) as [_ Ee].
  pose proof (Nfun_end root P L e HF HV HE) as Ne.
  destruct (is_start_ok U tm te phi t_i eta_i x_end N_i V0 NM) as (ic0 & ic' & y1 & SI' & ICN & SC & XI). assert (ic0 = ic) by (unfold q in SI; congruence). subst ic0. clear SI'.
  pose proof (SC (repeat (Fin 0) (List.length (N_idx tm te))) (repeat_length _ _)) as SC0.
  destruct (is_start_N U tm te phi t_i eta_i x_end N_i ic _ ic' y1 V0 SI (repeat_length _ _) SC0) as (E1 & E2 & L1).
  pose proof (lam_lt P L HF HV HL HD phi e HB Be Ee LE) as LM.
  destruct (st_core P L tm te HF HV HL HD phi N_i y1 HB E1 E2 LM e Be Ee Ne L1) as (y & a & b & N_end & A1 & A2 & B & Ey & I1 & I2 & I3 & Z & LO & UP).
  change (potfun_of P L) with U in B, I1, I2, I3, Z.
  assert (UP' : N_end - N_i <= phi * (V P L phi / dV P L phi)) by (eapply Rle_trans; [exact UP|]; right; field; lra).
  assert (LO' : Nfun P e phi - (sqrt 2 * (V P L phi / dV P L phi) - 1) / 2 <= N_end - N_i) by (eapply Rle_trans; [|exact LO]; right; field; lra).
  set (M := N_end - N_i) in *. assert (M0 : 0 < M) by (unfold M; lra). assert (EN : N_i + M = N_end) by (unfold M; ring).
  assert (DM : lasts P L N_i phi M).
  { split; [lra|]. exists (fun s => [N_phi tm te y s; N_dphi tm te y s]), a, b. rewrite EN.
    split; [exact (N_proj 0 U tm te y a b B)|]. split; [lra|]. split; [exact A2|]. split; [unfold N_phi, N_dphi; rewrite Ey, E1, E2; reflexivity|]. split; [intros n Hn; exact (I3 n Hn)|exact Z]. }
  assert (P1 : N_phi tm te y N_i = phi) by (unfold N_phi; rewrite Ey; exact E1). assert (P2 : N_dphi tm te y N_i = - sqrt 2) by (unfold N_dphi; rewrite Ey; exact E2).
  pose proof (run_falls P L e N_i tm te HF HV HL HD Be Ee phi M y a b HB LE M0 B ltac:(lra) ltac:(lra) P1 P2 ltac:(intros n Hn; apply I3; lra) ltac:(rewrite EN; exact Z)) as FA.
  rewrite EN in FA. fold U in FA.
  destruct (ld_end P L e N_i HF HV HL HD Be Ee phi M (fun s => [N_phi tm te y s; N_dphi tm te y s]) a b HB LE M0 (N_proj 0 U tm te y a b B) ltac:(lra) ltac:(lra)
    ltac:(cbv beta; rewrite P1, P2; reflexivity) ltac:(intros n Hn; apply I3; lra) ltac:(rewrite EN; exact Z)) as (_ & _ & PE).
  destruct (ld_stay P L e N_i HF HV HL HD Be Ee phi M (fun s => [N_phi tm te y s; N_dphi tm te y s]) a b HB LE M0 (N_proj 0 U tm te y a b B) ltac:(lra) ltac:(lra)
    ltac:(cbv beta; rewrite P1, P2; reflexivity) ltac:(intros n Hn; apply I3; lra) N_end ltac:(lra)) as (BE & _).
  rewrite EN in PE. change (N_phi tm te y N_end < e) in PE. change (branch P (N_phi tm te y N_end)) in BE.
  pose proof (RUN ic' y1 SC0) as RN. rewrite <- Ey in RN.
  destruct (C129_reports fmt_e verbose 0 U tm te y a b N_i N_end x_end extra _ B ltac:(lra) A2 ltac:(lra) ltac:(rewrite I2; lra) I3 FA ND EX RN) as (s & SO & SA).
  fold ev in SO. rewrite Ey in SO, SA.
  pose proof (hub_at_zero P L tm te y a b N_i B ltac:(lra) I2) as HA1. pose proof (hub_at_zero P L tm te y a b N_end B ltac:(lra) Z) as HA2. rewrite P1 in HA1.
  assert (Y1 : N_Hub 0 U tm te y N_i = sqrt (V P L phi / 2)) by exact HA1. assert (Y2 : N_Hub 0 U tm te y N_end = sqrt (V P L (N_phi tm te y N_end) / 2)) by exact HA2.
  rewrite Y1, Y2 in SA. clear HA1 HA2 Y1 Y2.
  exists s, y1, M, (N_phi tm te y N_end), (Nfun P e phi).
  assert (OB : ic_eqs ic = q /\ ic_x_end ic = x_end) by (destruct (is_init_obj _ _ _ _ _ _ _ SI) as (i & n & o & aH & H & -> & _); split; reflexivity).
  assert (XF : ic_x_end ic' = x_end) by (rewrite (is_call_xend _ _ _ _ SC0); apply OB).
  split.
  { apply (solve_kw_via F euler z3 S fmt_e ivp find verbose (AStart ic) kw ev tm te U ic' N_i x_end y1 s []); try assumption; cbn [any_eqs ic_call]; rewrite (proj1 OB); [reflexivity|exact SC0]. }
  split; [exact SO|]. split; [apply (lasts_inflates P L e N_i HF HV HL HD Be Ee Ne); assumption|].
  rewrite EN. split; [exact SA|]. split; [split; [apply (branch_gt0 P _ BE)|exact PE]|]. split; [apply Nfun_ok with (1 := HE)|split; assumption].
Qed.

(** C129 for SlowRollIC in a flat universe: inflation is reported to start at N_i and to last the true number of e-folds,
    between the slow-roll count and phi V/V', and to end strictly below the field where the potential slow-roll parameter is 1. *)
Theorem C129_slow_roll : forall F euler z3 S fmt_e ivp find verbose root P L tm te phi t_i eta_i x_end N_i e ic y1 kw extra,
  let U := potfun_of P L in let q := IN 0 U tm te in let ev := Inflation 1 false 0 None :: Inflation (-1) true 0 None :: extra in
  let out := ivp (snd (split_kw kw)) q N_i x_end y1 ev in
  root_spec root -> featureless P -> valid P -> (forall p phi0, P = DoubleWell p phi0 -> 1 <= p) -> P <> DoubleWell 1 (sqrt 2) ->
  L <> 0 -> branch P phi -> phi_end root P L = Ok e -> e < phi ->
  sr_init q phi t_i eta_i x_end (kw_of (InN N_i)) = Ok ic -> sr_call ic (repeat (Fin 0) (List.length (N_idx tm te))) = Ok (map Fin y1) ->
  existsb (fun k => match dict_get k kw with Some _ => true | None => false end) reserved = false -> dict_get "events" kw = Some (KwEvents ev) ->
  NoDup (map (event_name fmt_e) ev) -> List.Forall (fun e => event_terminal e = false \/ exists v, v <= 0 /\ e = Collapse v) extra ->
  N_i + phi * V P L phi / dV P L phi < x_end ->
  exact_run 0 U tm te N_i x_end y1 ev (fst out) ->
  exists s H_beg N_tot phi_e N_sr,
    solve_kw F euler z3 S fmt_e ivp find verbose (ASlowRoll ic) [] kw = Ok (s, snd out) /\
    solve fmt_e (N_eqs 0 U tm te) verbose ev (fst out) = Ok (s, []) /\ 0 < H_beg /\
    (forall y a b, N_background 0 U tm te y a b -> a < N_i < b -> y N_i = y1 ->
       (forall n, N_i <= n < N_i + N_tot -> n < b -> 0 < N_inflating 0 U tm te n (y n)) /\
       (N_i + N_tot < b -> N_inflating 0 U tm te (N_i + N_tot) (y (N_i + N_tot)) = 0)) /\
    says s (r_t (fst out)) N_i H_beg (N_i + N_tot) phi_e (V P L phi_e) (sqrt (V P L phi_e / 2)) /\
    0 < phi_e < e /\ sr_phi2N root P L phi = Ok N_sr /\ N_sr <= N_tot <= phi * V P L phi / dV P L phi.
Proof.
  intros F euler z3 S fmt_e ivp find verbose root P L tm te phi t_i eta_i x_end N_i e ic y1 kw extra U q ev out HR HF HV HD HN HL HB HE LE SI SC RS KE ND EX XE RUN.
  destruct (branch_pos P L phi HF HV HL HB) as [V0 V1].
  pose proof (phi_end_branch root P L e HR HF HV HL HN HE) as Be. destruct (phi_end_spec root P L e HR HF HV HL HE) as [_ Ee].
  pose proof (Nfun_end root P L e HF HV HE) as Ne. pose proof (Rdiv_lt_0_compat _ _ V1 V0) as LP.
  destruct (sr_start_N U tm te phi t_i eta_i x_end N_i ic _ y1 V0 SI (repeat_length _ _) SC) as [E1 E2].
  pose proof (sr_start_len U tm te phi t_i eta_i x_end N_i ic _ y1 V0 SI (repeat_length _ _) SC) as L1.
  unfold U, potfun_of in E2. cbn [pV pdV] in E2.
  assert (VI : - (dV P L phi / V P L phi) <= - dV P L phi / V P L phi < 0) by (split; [right; field; lra|unfold Rdiv in *; rewrite Ropp_mult_distr_l_reverse; lra]).
  destruct (run_core P L tm te HF HV HL HD phi _ N_i y1 HB E1 E2 VI e Be Ee Ne LE L1) as (y & a & b & N_end & A1 & A2 & B & Ey & I1 & Z & LO & UP).
  change (potfun_of P L) with U in B, I1, Z.
  assert (UP' : N_end - N_i <= phi * V P L phi / dV P L phi) by (eapply Rle_trans; [exact UP|]; right; field; lra).
  assert (P1 : N_phi tm te y N_i = phi) by (unfold N_phi; rewrite Ey; exact E1). assert (P2 : N_dphi tm te y N_i = - dV P L phi / V P L phi) by (unfold N_dphi; rewrite Ey; exact E2).
  destruct (sr_stay P L tm te HF HV HL HD phi _ N_i N_end y a b HB VI B A1 A2 P1 P2 I1 N_end ltac:(lra)) as (BE & _).
  destruct (sr_end P L e tm te HF HV HL HD Be Ee phi _ N_i N_end y a b HB VI B A1 A2 P1 P2 I1 Z) as (VE & LM & PE).
  assert (I3 : forall n, N_i < n < N_end -> 0 < N_inflating 0 U tm te n (y n)) by (intros n Hn; apply I1; lra).
  pose proof (end_falls P L tm te y a b N_i N_end B A1 A2 I3 Z VE LM) as FA.
  pose proof RUN as RN. rewrite <- Ey in RN.
  destruct (C129_reports fmt_e verbose 0 U tm te y a b N_i N_end x_end extra _ B A1 A2 ltac:(lra) ltac:(left; apply I1; lra) I3 FA ND EX RN) as (s & SO & SA).
  fold ev in SO.
  pose proof (hub_at_zero P L tm te y a b N_end B ltac:(lra) Z) as HA2.
  assert (Y2 : N_Hub 0 U tm te y N_end = sqrt (V P L (N_phi tm te y N_end) / 2)) by exact HA2. rewrite Y2 in SA. clear HA2 Y2.
  exists s, (N_Hub 0 U tm te y N_i), (N_end - N_i), (N_phi tm te y N_end), (Nfun P e phi). replace (N_i + (N_end - N_i)) with N_end by ring.
  destruct (sr_init_obj _ _ _ _ _ _ _ SI) as (i & n & o & aH & EI & _).
  assert (XN : ic_x_ini ic = Some (Some (Fin N_i)) /\ ic_eqs ic = q /\ ic_x_end ic = x_end).
  { assert (HP : 0 < pV U phi / 3 * exp (2 * N_i) - 0) by (pose proof (exp_pos (2 * N_i)); rewrite Rminus_0_r; apply Rmult_lt_0_compat; cbn [U potfun_of pV]; lra).
    rewrite (sr_from_N q phi t_i eta_i x_end N_i HP) in SI. injection SI as <-. repeat split; reflexivity. }
  destruct XN as (XI & XQ & XF).
  split.
  { apply (solve_kw_via F euler z3 S fmt_e ivp find verbose (ASlowRoll ic) kw ev tm te U ic N_i x_end y1 s []); try assumption.
    cbn [any_eqs ic_call]. rewrite XQ. change (ie_idx q) with (N_idx tm te). rewrite SC. reflexivity. }
  split; [exact SO|]. split; [apply (N_pos 0 U tm te y a b B N_i); lra|]. split.
  { intros y' a' b' B' HT' Ey'.
    assert (EQ : forall m, N_i <= m -> m < b -> m < b' -> y' m = y m) by (intros m Hm Hb Hb'; apply (C110_efolds 0 U tm te y' y a' b' a b N_i B' B); try lra; congruence).
    split; [intros m Hm Hb; rewrite EQ by lra; apply I1; lra|intros Hb; rewrite EQ by lra; exact Z]. }
  split; [exact SA|]. split; [split; [apply (branch_gt0 P _ BE)|exact PE]|]. split; [apply Nfun_ok with (1 := HE)|split; assumption].
Qed.
