(** A concrete case of C130 in cosmic time: the quadratic potential from phi = 10, sampled at its start, its middle and its end. *)
From Coq Require Import Reals List String Lra Lia Classical ZArith Bool Sorted.
From Coquelicot Require Import Coquelicot.
From Verif Require Import Base Model.Potentials Model.SlowRoll Model.Equations Model.Background Model.Float Model.Solution Model.InitCond Model.Events Model.Interp
  Model.State Model.ApproxPower Model.Calibrate
  Spec.PotentialSpec Spec.SlowRollSpec Spec.BackgroundSpec Spec.SolutionSpec Spec.ExactRun Spec.ExactRunT Spec.CalibSpec Proofs.StateLemmas Proofs.InterpInverse Proofs.PhiEnd Proofs.SRN Proofs.Bracket Proofs.BackgroundT Proofs.BackgroundN Proofs.BackgroundTN
  Proofs.FloatLemmas Proofs.PostProc Proofs.SlowRollBound Proofs.Roll Proofs.RollEnd Proofs.FastRoll Proofs.StartCont Proofs.ShootRun Proofs.ShootRunT Proofs.RunReports Proofs.RunReportsT Proofs.RunFallsSR Proofs.TimeSR Proofs.PivotExit Proofs.CalibPure Proofs.CalibPure2 Proofs.CalibPure3 Proofs.CalibRun Proofs.PowerRun Proofs.CalibTotal Proofs.CalibResult
  Properties.InitProps Properties.UniqueProps Properties.SlowRollBoundProps Properties.InflationEndsProps Properties.StartEndsProps Properties.StartContProps Properties.CalibProps Properties.CalibProps5 Properties.PipelineProps
  Properties.EndNonvacuity Properties.StartEndsNonvacuity Proofs.SolLemmas Properties.ExactReportProps Properties.ExactReportNonvacuity Properties.PivotExitProps Properties.PivotExitNonvacuity Properties.PivotTimeProps.
Import ListNotations.
Open Scope R_scope.
Open Scope string_scope.

Lemma three_samples_T K U te y a b t_i m E x_end : T_background K U te y a b -> a < t_i < m -> m < E -> E < b -> E <= x_end ->
  (forall t, t_i < t < E -> 0 < T_inflating U te t (y t)) -> T_inflating U te E (y E) = 0 ->
  exact_run_time K U te t_i x_end (y t_i) events3 (mkraw [t_i; m; E] [y t_i; y m; y E] [[]; [E]; []] [[]; [y E]; []]).
Proof.
  intros B A1 Am A2 XE I1 Z.
  assert (NI : forall t, t_i < t < E -> forall d, ~ passes d (fun s => T_inflating U te s (y s) - 0) t).
  { intros t Ht d. pose proof (I1 t Ht) as X. intros [ (_ & Q & _) | (_ & Q & _) ]; lra. }
  exists y, a, b, E. split; [exact B|]. split; [lra|]. split; [lra|]. split; [reflexivity|]. split; [lra|]. split; [reflexivity|]. split; [reflexivity|]. split; [reflexivity|]. split; [reflexivity|]. split; [reflexivity|]. split.
  - intros [|[|[|[|i] ] ] ] ev ts N1 N2; cbn in N1, N2; try discriminate; injection N1 as <-; injection N2 as <-; cbn [event_call event_terminal event_direction]; cbn [e_inflating e_N e_H2 T_eqs].
    + split; [constructor|]. split; [intros t []|]. intros t Ht Q. destruct (NI t Ht _ Q).
    + split; [constructor; [intros []|constructor]|]. split; [intros t [<-|[] ]; split; [lra|]; split; [rewrite Z; ring|reflexivity]|]. intros t Ht Q. destruct (NI t Ht _ Q).
    + split; [constructor|]. split; [intros t []|]. intros t Ht Q. exfalso. destruct (proj2 B t ltac:(lra)) as (X & _). destruct Q as [ (_ & Q & _) | (_ & Q & _) ]; lra.
  - right. exists 1%nat, (Inflation (-1) true 0 None), [E]. split; [reflexivity|]. split; [reflexivity|]. split; [reflexivity|left; reflexivity].
Qed.

(** any exact evolution in cosmic time that inflates up to a sign change, sampled at its start, at m and at its end, can be
    calibrated with N_star = N(t_end) - N(m) *)
Lemma pivot_case_T fmt_e U te y a b t_i m E x_end : T_background 0 U te y a b -> a < t_i < m -> m < E -> E < b -> E < x_end ->
  0 <= T_inflating U te t_i (y t_i) -> (forall t, t_i < t < E -> 0 < T_inflating U te t (y t)) ->
  falls_through (fun t => T_inflating U te t (y t)) E -> NoDup (map (event_name fmt_e) events3) ->
  let ns := T_N te y E - T_N te y m in 0 < ns /\
  exists r s s' w, exact_run_time 0 U te t_i x_end (y t_i) events3 r /\ StronglySorted Rlt (r_t r) /\
    solve fmt_e (T_eqs 0 U te) true events3 r = Ok (s, []) /\ calibrate_scale_factor exC exS (mkaeqs AT 0 U) (pivot_args ns) s = (s', Ok w).
Proof.
  intros B A1 Am A2 XE I0 I1 F ND ns.
  assert (Z : T_inflating U te E (y E) = 0) by (destruct F as (F0 & _); lra).
  pose proof (g_incr U te y a b t_i E B ltac:(lra) A2 t_i m ltac:(lra) ltac:(lra) ltac:(lra)) as G1.
  pose proof (g_incr U te y a b t_i E B ltac:(lra) A2 m E ltac:(lra) ltac:(lra) ltac:(lra)) as G2. cbv beta in G1, G2.
  split; [unfold ns; lra|].
  set (r := mkraw [t_i; m; E] [y t_i; y m; y E] [[]; [E]; []] [[]; [y E]; []]).
  assert (RUN : exact_run_time 0 U te t_i x_end (y t_i) events3 r) by (apply (three_samples_T 0 U te y a b t_i m E x_end B A1 Am A2); [lra|exact I1|exact Z]).
  assert (SRT : StronglySorted Rlt (r_t r)) by (cbn; repeat constructor; lra).
  assert (EX : List.Forall only_recorded [Collapse 0]) by (constructor; [right; exists 0; split; [lra|reflexivity]|constructor]).
  destruct (run_reports_T 0 U te y a b t_i E x_end B ltac:(lra) A2 I0 I1 F [Collapse 0] r XE EX RUN fmt_e true ND) as (s & ES & _).
  destruct (run_T fmt_e true U te y a b t_i E x_end [Collapse 0] r s [] B ltac:(lra) A2 XE I0 I1 F ND EX RUN SRT ES) as (BG & _ & ZN & ZH).
  destruct (run_record_T 0 U te y a b t_i E x_end B ltac:(lra) A2 I1 F [Collapse 0] r XE EX RUN) as (IV & _).
  assert (HF := C23_field_samples fmt_e (T_eqs 0 U te) true events3 r s [] ltac:(left; repeat eexists) ND IV ES).
  assert (SN : sane (pivot_args ns)) by (split; cbn; [unfold ns; lra|discriminate]).
  assert (EP : exists o, pure_first exC (pivot_args ns) 0 (bg_of (T_eqs 0 U te) r t_i (y t_i) E (y E)) = Ok o).
  { unfold pure_first, pivot_args. destruct (Req_EM_T 0 0); [|lra]. cbn [ca_Omega_K0 ca_method bind String.eqb Ascii.eqb Bool.eqb].
    unfold pure_N_star. cbn [ca_N_star]. unfold ns. destruct (Rle_dec (T_N te y E - T_N te y m) 0); [lra|]. unfold maskedN, maskedL, logaH, bg_of.
    cbn [b_end b_beg b_N b_H b_mask]. rewrite ZN, ZH. change (e_N (T_eqs 0 U te) t_i (y t_i)) with (T_N te y t_i). change (e_N (T_eqs 0 U te) E (y E)) with (T_N te y E).
    destruct (Rlt_dec (T_N te y E - T_N te y t_i) (T_N te y E - T_N te y m)); [lra|]. cbn [r_t r map logaH_of].
    destruct (Rlt_dec (T_N te y t_i) (T_N te y t_i)); [lra|]. destruct (Rlt_dec (T_N te y t_i) (T_N te y m)); [|lra]. destruct (Rlt_dec (T_N te y m) (T_N te y E)); [|lra]. destruct (Rlt_dec (T_N te y t_i) (T_N te y E)); [|lra]. destruct (Rlt_dec (T_N te y E) (T_N te y E)); [lra|].
    cbn [select combine]. unfold interp1d. cbn [sort_x insert_x last fst snd]. replace (T_N te y E - (T_N te y E - T_N te y m)) with (T_N te y m) by ring.
    destruct (Rlt_dec (T_N te y m) (T_N te y m)); [lra|]. cbn [bind pure_N_star_reh ca_rho_reh_GeV ca_w_reh ca_DeltaN_reh fst snd]. eexists. reflexivity. }
  destruct EP as (o & EP).
  destruct (calibrate_succeeds exC exS (mkaeqs AT 0 U) (pivot_args ns) s _ o _ _ 3%nat exC_ok SN BG eq_refl EP HF ltac:(cbn; lia) exS_ok eq_refl eq_refl ltac:(lia)) as (s' & w & CAL & _).
  exists r, s, s', w. split; [exact RUN|]. split; [exact SRT|]. split; [exact ES|exact CAL].
Qed.

(** the hypotheses of C130_time together, for the quadratic potential: SlowRollIC at phi = 10, conformal time tracked, from
    t = 1, calibrated at the middle of the inflating stretch *)
Theorem C130_time_nonvacuous : forall fmt_e, exists y a b t_end x_end N_star r s s' w, let U := potfun_of Quadratic 1 in
  T_background 0 U true y a b /\ a < 1 < t_end /\ t_end < b /\ t_end < x_end /\ var (T_idx true) "phi" (y 1) = 10 /\ T_N true y 1 = 0 /\ 49/2 <= T_N true y t_end <= 51 /\
  0 <= T_inflating U true 1 (y 1) /\ (forall t, 1 < t < t_end -> 0 < T_inflating U true t (y t)) /\
  falls_through (fun t => T_inflating U true t (y t)) t_end /\ NoDup (map (event_name fmt_e) events3) /\
  exact_run_time 0 U true 1 x_end (y 1) events3 r /\ StronglySorted Rlt (r_t r) /\ solve fmt_e (T_eqs 0 U true) true events3 r = Ok (s, []) /\
  consts_ok exC /\ sane (pivot_args N_star) /\ method 0 (pivot_args N_star) = "N_star" /\
  calibrate_scale_factor exC exS (mkaeqs AT 0 U) (pivot_args N_star) s = (s', Ok w).
Proof.
  intros fmt_e. destruct C125_nonvacuous as (root & HR & PE & _). pose proof sq2 as S2.
  assert (SB : 7/5 < sqrt 2 < 3/2) by (assert (sqrt 2 * sqrt 2 = 2) by (apply sqrt_sqrt; lra); assert (0 < sqrt 2) by (apply sqrt_lt_R0; lra); split; nra).
  assert (B10 : branch Quadratic 10) by (cbn; lra).
  assert (HD : forall p phi0, Quadratic = DoubleWell p phi0 -> 1 <= p) by (intros; discriminate).
  pose proof (phi_end_branch root Quadratic 1 (sqrt 2) HR I I ltac:(lra) ltac:(discriminate) PE) as Be. destruct (phi_end_spec root Quadratic 1 (sqrt 2) HR I I ltac:(lra) PE) as [_ Ee].
  pose proof (Nfun_end root Quadratic 1 (sqrt 2) I I PE) as Ne.
  destruct (starts_T (potfun_of Quadratic 1) 10 1 0 0 0 quad_V10) as (ic & y1 & SI & SC).
  destruct (sr_start_T (potfun_of Quadratic 1) true 10 (Some 1) (Some 0) 0 0 ic _ y1 quad_V10 SI (eq_refl : List.length [Fin 0; Fin 0; Fin 0; Fin 0] = _) SC) as [E1 E2].
  destruct (sr_written_T (potfun_of Quadratic 1) true 10 (Some 1) (Some 0) 0 0 ic _ y1 quad_V10 SI (eq_refl : List.length [Fin 0; Fin 0; Fin 0; Fin 0] = _) SC) as [E3 L1].
  unfold potfun_of in E2. cbn [pV pdV] in E2.
  destruct (time_core_sr Quadratic 1 (sqrt 2) 0 1 true I I ltac:(lra) HD Be Ee Ne 10 y1 B10 ltac:(lra) E1 E2 E3 L1) as (y & a & b & tE & A1 & A2 & B & Ey & I3 & Z & FT & N1 & NB & _).
  assert (NMB : 10 * V Quadratic 1 10 / dV Quadratic 1 10 * sqrt (1 + eps1V Quadratic 10 / 3) <= 51).
  { rewrite quad_up. pose proof (branch_lam2 Quadratic 1 I I ltac:(lra) 10 B10) as W. replace ((dV Quadratic 1 10 / V Quadratic 1 10)^2) with (1/25) in W by (unfold V, dV, quad_V, quad_dV; field).
    replace (eps1V Quadratic 10) with (1/50) by lra.
    assert (sqrt (1 + 1 / 50 / 3) <= 51/50); [|lra]. rewrite <- (sqrt_pow2 (51/50)) by lra. apply sqrt_le_1_alt. lra. }
  assert (SR : sr_phi2N root Quadratic 1 10 = Ok (Nfun Quadratic (sqrt 2) 10)) by (apply Nfun_ok with (1 := PE)). rewrite (quad_Nsr root _ SR) in NB.
  assert (ND : NoDup (map (event_name fmt_e) events3)) by (cbn; nodup).
  assert (I5 : 0 <= T_inflating (potfun_of Quadratic 1) true 1 (y 1)) by (left; apply I3; lra).
  assert (I4 : forall t, 1 < t < tE -> 0 < T_inflating (potfun_of Quadratic 1) true t (y t)) by (intros t Ht; apply I3; lra).
  destruct (pivot_case_T fmt_e (potfun_of Quadratic 1) true y a b 1 ((1 + tE) / 2) tE (tE + 1) B ltac:(lra) ltac:(lra) A2 ltac:(lra) I5 I4 FT ND) as (NS & r & s & s' & w & RUN & SRT & ES & CAL).
  exists y, a, b, tE, (tE + 1), (T_N true y tE - T_N true y ((1 + tE) / 2)), r, s, s', w. cbv zeta. split; [exact B|]. split; [exact A1|]. split; [exact A2|]. split; [lra|]. split; [rewrite Ey; exact E1|]. split; [exact N1|]. split; [lra|]. split; [exact I5|]. split; [exact I4|].
  split; [exact FT|]. split; [exact ND|]. split; [exact RUN|]. split; [exact SRT|]. split; [exact ES|]. split; [exact exC_ok|]. split; [split; cbn; [lra|discriminate]|].
  split; [|exact CAL]. unfold method, pivot_args. cbn. destruct (Req_EM_T 0 0); [reflexivity|lra].
Qed.
