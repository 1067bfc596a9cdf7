(** C128 and C129 for SlowRollIC in cosmic time. *)
From Coq Require Import Reals List String Lra Lia Classical ZArith Bool.
From Coquelicot Require Import Coquelicot.
From Verif Require Import Base Model.Potentials Model.SlowRoll Model.Equations Model.Background Model.Float Model.Solution Model.InitCond Model.Events
  Model.State Model.ApproxPower Model.Calibrate Model.BigBang Model.Shooting Model.Solver
  Spec.PotentialSpec Spec.SlowRollSpec Spec.BackgroundSpec Spec.SolutionSpec Spec.ExactRun Spec.ExactRunT Proofs.PhiEnd Proofs.SRN Proofs.Bracket Proofs.BackgroundT Proofs.BackgroundN Proofs.BackgroundTN Proofs.BackgroundEx Proofs.FloatLemmas Proofs.Unique
  Proofs.PostProc Proofs.SolLemmas Proofs.SlowRollBound Proofs.Roll Proofs.RollEnd Proofs.FastRoll Proofs.StartCont Proofs.ShootRun Proofs.ShootRunT Proofs.RunReports Proofs.RunReportsT Proofs.RunFallsSR Proofs.TimeSR
  Properties.InitProps Properties.UniqueProps Properties.SlowRollBoundProps Properties.EndNonvacuity Properties.InflationEndsProps Properties.StartEndsProps Properties.StartEndsNonvacuity Properties.StartContProps Properties.ExactShootTimeProps Properties.ExactReportProps
  Properties.ExactReportNonvacuity Properties.ExactReportTimeProps Properties.ExactReportTimeNonvacuity.
Import ListNotations.
Open Scope R_scope.
Open Scope string_scope.

(** C128 for SlowRollIC: the cosmic time inflation takes from the slow-roll start, and the e-folds it lasts *)
Theorem C128_slow_roll : forall root P L te phi_i t_i eta_i x_end N_i e ic y0 y1,
  let U := potfun_of P L in let V_i := V P L phi_i in let N_max := phi_i * V_i / dV P L phi_i * sqrt (1 + eps1V P phi_i / 3) in
  root_spec root -> featureless P -> valid P -> (forall p phi0, P = DoubleWell p phi0 -> 1 <= p) -> P <> DoubleWell 1 (sqrt 2) ->
  L <> 0 -> branch P phi_i -> phi_end root P L = Ok e -> e < phi_i ->
  sr_init (IT 0 U te) phi_i (Some t_i) eta_i x_end (kw_of (InN N_i)) = Ok ic ->
  List.length y0 = List.length (T_idx te) -> sr_call ic y0 = Ok (map Fin y1) ->
  exists t_end M N_sr, t_i < t_end /\ sr_phi2N root P L phi_i = Ok N_sr /\ N_sr <= M <= N_max /\
    M / sqrt (V_i / 2) <= t_end - t_i <= N_max * (sqrt (3 / V_i) * exp (1 / 2 + N_max)) /\
    (exists y a b, T_background 0 U te y a b /\ a < t_i /\ t_end < b /\ y t_i = y1) /\
    forall y a b, T_background 0 U te y a b -> a < t_i < b -> y t_i = y1 ->
      (forall t, t_i <= t < t_end -> t < b -> 0 < T_inflating U te t (y t)) /\
      (t_end < b -> T_inflating U te t_end (y t_end) = 0 /\ T_N te y t_end - T_N te y t_i = M).
Proof.
  intros root P L te phi_i t_i eta_i x_end N_i e ic y0 y1 U V_i N_max HR HF HV HD HN HL HB HE LE SI LY SC.
  destruct (branch_pos P L phi_i HF HV HL HB) as [V0 V1].
  destruct (sr_start_T U te phi_i (Some t_i) eta_i x_end N_i ic y0 y1 V0 SI LY SC) as [E1 E2]. unfold U, potfun_of in E2. cbn [pV pdV] in E2.
  destruct (sr_written_T U te phi_i (Some t_i) eta_i x_end N_i ic y0 y1 V0 SI LY SC) as [E3 L1].
  pose proof (phi_end_branch root P L e HR HF HV HL HN HE) as Be. destruct (phi_end_spec root P L e HR HF HV HL HE) as [_ Ee].
  pose proof (Nfun_end root P L e HF HV HE) as Ne.
  destruct (time_core_sr P L e N_i t_i te HF HV HL HD Be Ee Ne phi_i y1 HB LE E1 E2 E3 L1) as (z & c & d & tE & C1 & C2 & Bz & Ez & J3 & JZ & _ & N1 & NB & TB & _).
  change (potfun_of P L) with U in Bz, J3, JZ. fold V_i in NB, TB. fold N_max in NB, TB.
  exists tE, (T_N te z tE - N_i), (Nfun P e phi_i). split; [lra|]. split; [apply Nfun_ok with (1 := HE)|]. split; [exact NB|]. split; [exact TB|].
  split; [exists z, c, d; repeat (split; [first [assumption|lra]|]); exact Ez|].
  intros x a' b' Bx Hx Ex. assert (EQ : forall t, t_i <= t <= tE -> a' < t < b' -> x t = z t) by (intros t Ht Ht'; apply (C110_time 0 U te x z a' b' c d t_i Bx Bz); try lra; congruence).
  split; [intros t Ht Hb; rewrite EQ by lra; apply J3, Ht|].
  intros Hb. rewrite (EQ tE) by lra. split; [exact JZ|]. unfold T_N. rewrite (EQ tE), (EQ t_i) by lra. fold (T_N te z tE). fold (T_N te z t_i). lra.
Qed.

(** C129 for SlowRollIC in cosmic time, flat universe: given an x_end beyond the time inflation can take, solve() reports
    without a warning that inflation starts at N_i and lasts the true number of e-folds, that the field at the end is
    strictly below the potential's slow-roll phi_end, and there H = sqrt(V/2). *)
Theorem C129_time_slow_roll : forall F euler z3 S fmt_e ivp find verbose root P L te phi t_i eta_i x_end N_i e ic y1 kw extra,
  let U := potfun_of P L in let q := IT 0 U te in let ev := Inflation 1 false 0 None :: Inflation (-1) true 0 None :: extra in
  let out := ivp (snd (split_kw kw)) q t_i x_end y1 ev in let N_max := phi * V P L phi / dV P L phi * sqrt (1 + eps1V P phi / 3) in
  root_spec root -> featureless P -> valid P -> (forall p phi0, P = DoubleWell p phi0 -> 1 <= p) -> P <> DoubleWell 1 (sqrt 2) ->
  L <> 0 -> branch P phi -> phi_end root P L = Ok e -> e < phi ->
  sr_init q phi (Some t_i) eta_i x_end (kw_of (InN N_i)) = Ok ic -> sr_call ic (repeat (Fin 0) (List.length (T_idx te))) = Ok (map Fin y1) ->
  existsb (fun k => match dict_get k kw with Some _ => true | None => false end) reserved = false -> dict_get "events" kw = Some (KwEvents ev) ->
  NoDup (map (event_name fmt_e) ev) -> List.Forall (fun e => event_terminal e = false \/ exists v, v <= 0 /\ e = Collapse v) extra ->
  N_max * (sqrt (3 / V P L phi) * exp (1 / 2 + N_max)) < x_end - t_i ->
  exact_run_time 0 U te t_i x_end y1 ev (fst out) ->
  exists s H_beg t_end N_tot phi_e N_sr,
    solve_kw F euler z3 S fmt_e ivp find verbose (ASlowRoll ic) [] kw = Ok (s, snd out) /\
    solve fmt_e (T_eqs 0 U te) verbose ev (fst out) = Ok (s, []) /\ 0 < H_beg /\
    (forall y a b, T_background 0 U te y a b -> a < t_i < b -> y t_i = y1 ->
       (forall t, t_i <= t < t_end -> t < b -> 0 < T_inflating U te t (y t)) /\
       (t_end < b -> T_inflating U te t_end (y t_end) = 0 /\ T_N te y t_end - T_N te y t_i = N_tot)) /\
    last (r_t (fst out)) t_i = t_end /\
    says s (map (fun st => var (T_idx te) "_N" st) (r_y (fst out))) N_i H_beg (N_i + N_tot) phi_e (V P L phi_e) (sqrt (V P L phi_e / 2)) /\
    0 < phi_e < e /\ sr_phi2N root P L phi = Ok N_sr /\ N_sr <= N_tot <= N_max /\
    t_i < t_end /\ N_tot / sqrt (V P L phi / 2) <= t_end - t_i <= N_max * (sqrt (3 / V P L phi) * exp (1 / 2 + N_max)).
Proof.
  intros F euler z3 S fmt_e ivp find verbose root P L te phi t_i eta_i x_end N_i e ic y1 kw extra U q ev out N_max HR HF HV HD HN HL HB HE LE SI SC RS KE ND EX XE RUN.
  destruct (branch_pos P L phi HF HV HL HB) as [V0 V1].
  pose proof (phi_end_branch root P L e HR HF HV HL HN HE) as Be. destruct (phi_end_spec root P L e HR HF HV HL HE) as [_ Ee].
  pose proof (Nfun_end root P L e HF HV HE) as Ne.
  destruct (sr_start_T U te phi (Some t_i) eta_i x_end N_i ic _ y1 V0 SI (repeat_length _ _) SC) as [E1 E2]. unfold U, potfun_of in E2. cbn [pV pdV] in E2.
  destruct (sr_written_T U te phi (Some t_i) eta_i x_end N_i ic _ y1 V0 SI (repeat_length _ _) SC) as [E3 L1].
  destruct (time_core_sr P L e N_i t_i te HF HV HL HD Be Ee Ne phi y1 HB LE E1 E2 E3 L1) as (y & a & b & tE & A1 & A2 & B & Ey & I3 & Z & FT & N1 & NB & TB & BE & PE).
  change (potfun_of P L) with U in B, I3, Z, FT. fold N_max in NB, TB.
  pose proof RUN as RN. rewrite <- Ey in RN.
  destruct (C129_time_reports fmt_e verbose 0 U te y a b t_i tE x_end extra _ B ltac:(lra) A2 ltac:(lra) ltac:(left; apply I3; lra) ltac:(intros t Ht; apply I3; lra) FT ND EX RN) as (LA & s & SO & SA).
  fold ev in SO, SA, LA. rewrite N1 in SA.
  pose proof (T_hub_at_zero P L te y a b tE B ltac:(lra) Z) as HA2.
  assert (Y2 : T_Hub 0 U te y tE = sqrt (V P L (T_phi te y tE) / 2)) by exact HA2. rewrite Y2 in SA. clear HA2 Y2.
  exists s, (T_Hub 0 U te y t_i), tE, (T_N te y tE - N_i), (T_phi te y tE), (Nfun P e phi). replace (N_i + (T_N te y tE - N_i)) with (T_N te y tE) by ring.
  assert (XN : ic_x_ini ic = Some (Some (Fin t_i)) /\ ic_eqs ic = q /\ ic_x_end ic = x_end).
  { assert (HP : 0 < pV U phi / 3 * exp (2 * N_i) - 0) by (pose proof (exp_pos (2 * N_i)); rewrite Rminus_0_r; apply Rmult_lt_0_compat; cbn [U potfun_of pV]; lra).
    rewrite (sr_from_N q phi (Some t_i) eta_i x_end N_i HP) in SI. injection SI as <-. repeat split; reflexivity. }
  destruct XN as (XI & XQ & XF).
  split.
  { apply (solve_kw_via_T F euler z3 S fmt_e ivp find verbose (ASlowRoll ic) kw ev te U ic t_i x_end y1 s []); try assumption.
    cbn [any_eqs ic_call]. rewrite XQ. change (ie_idx q) with (T_idx te). rewrite SC. reflexivity. }
  split; [exact SO|]. split; [apply (T_pos 0 U te y a b B t_i); lra|]. split.
  { intros x a' b' Bx Hx Ex. assert (EQ : forall t, t_i <= t <= tE -> a' < t < b' -> x t = y t) by (intros t Ht Ht'; apply (C110_time 0 U te x y a' b' a b t_i Bx B); try lra; congruence).
    split; [intros t Ht Hb; rewrite EQ by lra; apply I3, Ht|].
    intros Hb. rewrite (EQ tE) by lra. split; [exact Z|]. unfold T_N. rewrite (EQ tE), (EQ t_i) by lra. fold (T_N te y tE). fold (T_N te y t_i). lra. }
  split; [exact LA|]. split; [exact SA|]. split; [split; [apply (branch_gt0 P _ BE)|exact PE]|]. split; [apply Nfun_ok with (1 := HE)|]. split; [exact NB|]. split; [lra|exact TB].
Qed.

(** SlowRollIC at phi = 10 in the quadratic potential, conformal time tracked, starting at t = 1: there is an integrator
    that meets the hypotheses, and solve() reports between 24.5 and 51 e-folds and an end below phi = sqrt 2 *)
Theorem C129_time_slow_roll_nonvacuous : forall F euler z3 S fmt_e find verbose, exists root, root_spec root /\ phi_end root Quadratic 1 = Ok (sqrt 2) /\
  exists x_end ivp ic y1 s b N_tot phi_e, sr_init (IT 0 (potfun_of Quadratic 1) true) 10 (Some 1) (Some 0) x_end (kw_of (InN 0)) = Ok ic /\ sr_call ic [Fin 0; Fin 0; Fin 0; Fin 0] = Ok (map Fin y1) /\
     exact_run_time 0 (potfun_of Quadratic 1) true 1 x_end y1 events3 (fst (ivp (snd (split_kw [("events", KwEvents events3)])) (IT 0 (potfun_of Quadratic 1) true) 1 x_end y1 events3)) /\
     solve_kw F euler z3 S fmt_e ivp find verbose (ASlowRoll ic) [] [("events", KwEvents events3)] = Ok (s, b) /\
     dict_get "_N_beg" s = Some (VF (Fin 0)) /\ dict_get "N_tot" s = Some (VF (Fin N_tot)) /\ 49/2 <= N_tot <= 51 /\ dict_get "phi_end" s = Some (VF (Fin phi_e)) /\ 0 < phi_e < sqrt 2.
Proof.
  intros F euler z3 S fmt_e find verbose. destruct C125_nonvacuous as (root & HR & PE & _). pose proof sq2 as S2.
  exists root. split; [exact HR|]. split; [exact PE|].
  assert (B10 : branch Quadratic 10) by (cbn; lra).
  assert (NF : forall N_sr, sr_phi2N root Quadratic 1 10 = Ok N_sr -> N_sr = 49 / 2) by (intros N_sr Q; exact (quad_Nsr root N_sr Q)).
  assert (ND : NoDup (map (event_name fmt_e) events3)) by (cbn; nodup).
  assert (FX : List.Forall (fun e => event_terminal e = false \/ exists v, v <= 0 /\ e = Collapse v) [Collapse 0]) by (constructor; [right; exists 0; split; [lra|reflexivity]|constructor]).
  set (NM := 10 * V Quadratic 1 10 / dV Quadratic 1 10 * sqrt (1 + eps1V Quadratic 10 / 3)).
  assert (NMB : NM <= 51).
  { unfold NM. rewrite quad_up. pose proof (branch_lam2 Quadratic 1 I I ltac:(lra) 10 B10) as W. replace ((dV Quadratic 1 10 / V Quadratic 1 10)^2) with (1/25) in W by (unfold V, dV, quad_V, quad_dV; field).
    replace (eps1V Quadratic 10) with (1/50) by lra.
    assert (sqrt (1 + 1 / 50 / 3) <= 51/50); [|lra]. rewrite <- (sqrt_pow2 (51/50)) by lra. apply sqrt_le_1_alt. lra. }
  set (TB := NM * (sqrt (3 / V Quadratic 1 10) * exp (1 / 2 + NM))).
  set (x_end := TB + 2). assert (XE : TB < x_end - 1) by (unfold x_end; lra). clearbody x_end.
  destruct (starts_T (potfun_of Quadratic 1) 10 1 0 x_end 0 quad_V10) as (ic & y1 & SI & SC).
  destruct (C128_slow_roll root Quadratic 1 true 10 1 (Some 0) x_end 0 (sqrt 2) ic _ y1 HR I I ltac:(intros; discriminate) ltac:(discriminate) ltac:(lra) B10 PE ltac:(lra) SI (eq_refl : List.length [Fin 0; Fin 0; Fin 0; Fin 0] = _) SC)
    as (E & M0 & N0 & T0 & _ & _ & TD & (y & a & b & B & A1 & A2 & Ey) & UN).
  fold NM in TD. fold TB in TD. destruct (UN y a b B ltac:(lra) Ey) as (I3 & Z). destruct (Z A2) as [Z0 _].
  set (r := mkraw [1; E] [y 1; y E] [[]; [E]; []] [[]; [y E]; []]).
  set (ivp := (fun _ _ _ _ _ _ => (r, false)) : settings -> integrator).
  assert (EX : exact_run_time 0 (potfun_of Quadratic 1) true 1 x_end y1 events3 r).
  { rewrite <- Ey. apply (two_samples_T _ _ _ y a b 1 E x_end B ltac:(lra) A2 ltac:(lra)); [intros t Ht; apply I3; lra|exact Z0]. }
  destruct (C129_time_slow_roll F euler z3 S fmt_e ivp find verbose root Quadratic 1 true 10 1 (Some 0) x_end 0 (sqrt 2) ic y1 [("events", KwEvents events3)] [Collapse 0]
    HR I I ltac:(intros; discriminate) ltac:(discriminate) ltac:(lra) B10 PE ltac:(lra) SI SC eq_refl eq_refl ND FX XE EX) as (s & hb & t_end & M & p & N' & K1 & _ & _ & _ & _ & SA & HP & SR' & UP' & _).
  fold NM in UP'. rewrite (NF N' SR') in UP'. destruct SA as (G1 & _ & G3 & G4 & _). replace (0 + M - 0) with M in G3 by ring.
  exists x_end, ivp, ic, y1, s, false, M, p. split; [exact SI|]. split; [exact SC|]. split; [exact EX|]. split; [exact K1|]. split; [exact G1|]. split; [exact G3|]. split; [lra|]. split; [exact G4|exact HP].
Qed.
