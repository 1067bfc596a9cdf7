(** A concrete case of C130: the quadratic potential from phi = 10, sampled at its start, its middle and its end. *)
From Coq Require Import Reals List String Lra Lia Classical ZArith Bool Sorted.
From Coquelicot Require Import Coquelicot.
From Verif Require Import Base Model.Potentials Model.SlowRoll Model.Equations Model.Background Model.Float Model.Solution Model.InitCond Model.Events Model.Interp
  Model.State Model.ApproxPower Model.Calibrate
  Spec.PotentialSpec Spec.SlowRollSpec Spec.BackgroundSpec Spec.SolutionSpec Spec.ExactRun Spec.CalibSpec Proofs.StateLemmas Proofs.InterpInverse Proofs.PhiEnd Proofs.SRN Proofs.Bracket Proofs.BackgroundT Proofs.BackgroundN Proofs.BackgroundTN
  Proofs.FloatLemmas Proofs.PostProc Proofs.SlowRollBound Proofs.Roll Proofs.RollEnd Proofs.FastRoll Proofs.StartCont Proofs.ShootRun Proofs.RunReports Proofs.RunFallsSR Proofs.PivotExit Proofs.CalibPure Proofs.CalibPure2 Proofs.CalibPure3 Proofs.CalibRun Proofs.PowerRun Proofs.CalibTotal Proofs.CalibResult
  Properties.InitProps Properties.UniqueProps Properties.SlowRollBoundProps Properties.InflationEndsProps Properties.StartEndsProps Properties.StartContProps Properties.CalibProps Properties.CalibProps5 Properties.PipelineProps
  Properties.EndNonvacuity Properties.StartEndsNonvacuity Proofs.SolLemmas Properties.EndNonvacuity Properties.ExactReportProps Properties.ExactReportNonvacuity Properties.PivotExitProps.
Import ListNotations.
Open Scope R_scope.
Open Scope string_scope.

Lemma three_samples K U tm te y a b N_i m E x_end : N_background K U tm te y a b -> a < N_i < m -> m < E -> E < b -> E <= x_end ->
  (forall n, N_i < n < E -> 0 < N_inflating K U tm te n (y n)) -> N_inflating K U tm te E (y E) = 0 ->
  exact_run K U tm te N_i x_end (y N_i) [Inflation 1 false 0 None; Inflation (-1) true 0 None; Collapse 0] (mkraw [N_i; m; E] [y N_i; y m; y E] [[]; [E]; []] [[]; [y E]; []]).
Proof.
  intros B A1 Am A2 XE I1 Z.
  assert (NI : forall t, N_i < t < E -> forall d, ~ passes d (fun s => N_inflating K U tm te s (y s) - 0) t).
  { intros t Ht d. pose proof (I1 t Ht) as X. intros [ (_ & Q & _) | (_ & Q & _) ]; lra. }
  exists y, a, b, E. split; [exact B|]. split; [lra|]. split; [lra|]. split; [reflexivity|]. split; [lra|]. split; [reflexivity|]. split; [reflexivity|]. split; [reflexivity|]. split; [reflexivity|]. split; [reflexivity|]. split.
  - intros [|[|[|[|i] ] ] ] ev ts N1 N2; cbn in N1, N2; try discriminate; injection N1 as <-; injection N2 as <-; cbn [event_call event_terminal event_direction]; cbn [e_inflating e_N e_H2 N_eqs].
    + split; [constructor|]. split; [intros t []|]. intros t Ht Q. destruct (NI t Ht _ Q).
    + split; [constructor; [intros []|constructor]|]. split; [intros t [<-|[] ]; split; [lra|]; split; [rewrite Z; ring|reflexivity]|]. intros t Ht Q. destruct (NI t Ht _ Q).
    + split; [constructor|]. split; [intros t []|]. intros t Ht Q. exfalso. destruct (proj2 B t ltac:(lra)) as (X & _). destruct Q as [ (_ & Q & _) | (_ & Q & _) ]; lra.
  - right. exists 1%nat, (Inflation (-1) true 0 None), [E]. split; [reflexivity|]. split; [reflexivity|]. split; [reflexivity|left; reflexivity].
Qed.

Definition pivot_args (ns : R) : calargs := mkargs None None None (Some ns) None None None None 100 None "CGS" (Some 3%Z) default_opts.

(** any exact evolution that inflates up to a sign change, sampled at its start, at m and at its end, can be calibrated with
    N_star = N_end - m *)
Lemma pivot_case fmt_e U tm te y a b N_i m E x_end : N_background 0 U tm te y a b -> a < N_i < m -> m < E -> E < b -> E < x_end ->
  0 <= N_inflating 0 U tm te N_i (y N_i) -> (forall n, N_i < n < E -> 0 < N_inflating 0 U tm te n (y n)) ->
  falls_through (fun n => N_inflating 0 U tm te n (y n)) E -> NoDup (map (event_name fmt_e) events3) ->
  exists r s s' w, exact_run 0 U tm te N_i x_end (y N_i) events3 r /\ StronglySorted Rlt (r_t r) /\
    solve fmt_e (N_eqs 0 U tm te) true events3 r = Ok (s, []) /\ calibrate_scale_factor exC exS (mkaeqs AN 0 U) (pivot_args (E - m)) s = (s', Ok w).
Proof.
  intros B A1 Am A2 XE I0 I1 F ND.
  assert (Z : N_inflating 0 U tm te E (y E) = 0) by (destruct F as (F0 & _); lra).
  set (r := mkraw [N_i; m; E] [y N_i; y m; y E] [[]; [E]; []] [[]; [y E]; []]).
  assert (RUN : exact_run 0 U tm te N_i x_end (y N_i) events3 r) by (apply (three_samples 0 U tm te y a b N_i m E x_end B A1 Am A2); [lra|exact I1|exact Z]).
  assert (SRT : StronglySorted Rlt (r_t r)) by (cbn; repeat constructor; lra).
  assert (EX : List.Forall only_recorded [Collapse 0]) by (constructor; [right; exists 0; split; [lra|reflexivity]|constructor]).
  destruct (run_reports 0 U tm te y a b N_i E x_end B ltac:(lra) A2 I0 I1 F [Collapse 0] r XE EX RUN fmt_e true ND) as (s & ES & _).
  destruct (exact_background fmt_e true U tm te y a b N_i E x_end [Collapse 0] r s [] B ltac:(lra) A2 XE I0 I1 F ND EX RUN SRT ES) as (BG & IV & ZN & ZH).
  assert (HF := C23_field_samples fmt_e (N_eqs 0 U tm te) true events3 r s [] ltac:(right; repeat eexists) ND IV ES).
  assert (SN : sane (pivot_args (E - m))) by (split; cbn; [lra|discriminate]).
  assert (EP : exists o, pure_first exC (pivot_args (E - m)) 0 (bg_of (N_eqs 0 U tm te) r N_i (y N_i) E (y E)) = Ok o).
  { unfold pure_first, pivot_args. destruct (Req_EM_T 0 0); [|lra]. cbn [ca_Omega_K0 ca_method bind String.eqb Ascii.eqb Bool.eqb].
    unfold pure_N_star. cbn [ca_N_star]. destruct (Rle_dec (E - m) 0); [lra|]. unfold maskedN, maskedL, logaH, bg_of.
    cbn [b_end b_beg b_N b_H b_mask]. rewrite ZN, ZH. change (e_N (N_eqs 0 U tm te) N_i (y N_i)) with N_i. change (e_N (N_eqs 0 U tm te) E (y E)) with E. destruct (Rlt_dec (E - N_i) (E - m)); [lra|]. cbn [r_t r map logaH_of].
    destruct (Rlt_dec N_i N_i); [lra|]. destruct (Rlt_dec N_i m); [|lra]. destruct (Rlt_dec m E); [|lra]. destruct (Rlt_dec N_i E); [|lra]. destruct (Rlt_dec E E); [lra|].
    cbn [select combine]. unfold interp1d. cbn [sort_x insert_x last fst snd]. replace (E - (E - m)) with m by ring.
    destruct (Rlt_dec m m); [lra|]. cbn [bind pure_N_star_reh ca_rho_reh_GeV ca_w_reh ca_DeltaN_reh fst snd]. eexists. reflexivity. }
  destruct EP as (o & EP).
  destruct (calibrate_succeeds exC exS (mkaeqs AN 0 U) (pivot_args (E - m)) s _ o _ _ 3%nat exC_ok SN BG eq_refl EP HF ltac:(cbn; lia) exS_ok eq_refl eq_refl ltac:(lia)) as (s' & w & CAL & _).
  exists r, s, s', w. split; [exact RUN|]. split; [exact SRT|]. split; [exact ES|exact CAL].
Qed.

(** the hypotheses of C130_pivot_exit together, for the quadratic potential: SlowRollIC at phi = 10, all clocks tracked,
    inflation lasting between 49/2 and 50 e-folds, calibrated half way *)
Theorem C130_nonvacuous : forall fmt_e, exists y a b N_end r s s' w, let U := potfun_of Quadratic 1 in
  N_background 0 U true true y a b /\ a < 0 < N_end /\ N_end < b /\ N_end < 100 /\ N_phi true true y 0 = 10 /\ 49/2 <= N_end <= 50 /\
  0 <= N_inflating 0 U true true 0 (y 0) /\ (forall n, 0 < n < N_end -> 0 < N_inflating 0 U true true n (y n)) /\
  falls_through (fun n => N_inflating 0 U true true n (y n)) N_end /\ NoDup (map (event_name fmt_e) events3) /\
  exact_run 0 U true true 0 100 (y 0) events3 r /\ StronglySorted Rlt (r_t r) /\ solve fmt_e (N_eqs 0 U true true) true events3 r = Ok (s, []) /\
  consts_ok exC /\ sane (pivot_args (N_end / 2)) /\ method 0 (pivot_args (N_end / 2)) = "N_star" /\
  calibrate_scale_factor exC exS (mkaeqs AN 0 U) (pivot_args (N_end / 2)) s = (s', Ok w).
Proof.
  intros fmt_e. destruct C125_nonvacuous as (root & HR & PE & _). pose proof sq2 as S2.
  assert (SB : 7/5 < sqrt 2 < 3/2) by (assert (sqrt 2 * sqrt 2 = 2) by (apply sqrt_sqrt; lra); assert (0 < sqrt 2) by (apply sqrt_lt_R0; lra); split; nra).
  assert (B10 : branch Quadratic 10) by (cbn; lra).
  assert (HD : forall p phi0, Quadratic = DoubleWell p phi0 -> 1 <= p) by (intros; discriminate).
  destruct (starts_N (potfun_of Quadratic 1) 10 1 0 100 0 quad_V10) as (ic & y1 & SI & SC).
  destruct (C120_efolds root Quadratic 1 true true 10 (Some 1) (Some 0) 100 0 (sqrt 2) ic _ y1 HR I I HD ltac:(discriminate) ltac:(lra) B10 PE ltac:(lra) SI (eq_refl : List.length [Fin 0; Fin 0; Fin 0; Fin 0] = _) SC)
    as (y & a & b & E & N_sr & A1 & A2 & B & Ey & I3 & Z & SR & UP). rewrite quad_up in UP. rewrite (quad_Nsr root N_sr SR) in UP.
  destruct (sr_start_N (potfun_of Quadratic 1) true true 10 (Some 1) (Some 0) 100 0 ic _ y1 quad_V10 SI (eq_refl : List.length [Fin 0; Fin 0; Fin 0; Fin 0] = _) SC) as [E1 E2].
  unfold potfun_of in E2. cbn [pV pdV] in E2.
  pose proof (phi_end_branch root Quadratic 1 (sqrt 2) HR I I ltac:(lra) ltac:(discriminate) PE) as Be. destruct (phi_end_spec root Quadratic 1 (sqrt 2) HR I I ltac:(lra) PE) as [_ Ee].
  destruct (branch_pos Quadratic 1 10 I I ltac:(lra) B10) as [V0 V1]. pose proof (Rdiv_lt_0_compat _ _ V1 V0) as LP.
  assert (VI : - (dV Quadratic 1 10 / V Quadratic 1 10) <= - dV Quadratic 1 10 / V Quadratic 1 10 < 0) by (split; [right; field; lra|unfold Rdiv in *; rewrite Ropp_mult_distr_l_reverse; lra]).
  assert (P1 : N_phi true true y 0 = 10) by (unfold N_phi; rewrite Ey; exact E1). assert (P2 : N_dphi true true y 0 = - dV Quadratic 1 10 / V Quadratic 1 10) by (unfold N_dphi; rewrite Ey; exact E2).
  destruct (sr_end Quadratic 1 (sqrt 2) true true I I ltac:(lra) HD Be Ee 10 _ 0 E y a b B10 VI B A1 A2 P1 P2 I3 Z) as (VE & LM & _).
  assert (I4 : forall n, 0 < n < E -> 0 < N_inflating 0 (potfun_of Quadratic 1) true true n (y n)) by (intros n Hn; apply I3; lra).
  pose proof (end_falls Quadratic 1 true true y a b 0 E B A1 A2 I4 Z VE LM) as FA.
  assert (ND : NoDup (map (event_name fmt_e) events3)) by (cbn; nodup).
  assert (I5 : 0 <= N_inflating 0 (potfun_of Quadratic 1) true true 0 (y 0)) by (left; apply I3; lra).
  destruct (pivot_case fmt_e (potfun_of Quadratic 1) true true y a b 0 (E / 2) E 100 B ltac:(lra) ltac:(lra) A2 ltac:(lra) I5 I4 FA ND) as (r & s & s' & w & RUN & SRT & ES & CAL).
  replace (E - E / 2) with (E / 2) in CAL by lra.
  exists y, a, b, E, r, s, s', w. cbv zeta. split; [exact B|]. split; [exact A1|]. split; [exact A2|]. split; [lra|]. split; [exact P1|]. split; [lra|]. split; [exact I5|]. split; [exact I4|].
  split; [exact FA|]. split; [exact ND|]. split; [exact RUN|]. split; [exact SRT|]. split; [exact ES|]. split; [exact exC_ok|]. split; [split; cbn; [lra|discriminate]|].
  split; [|exact CAL]. unfold method, pivot_args. cbn. destruct (Req_EM_T 0 0); [reflexivity|lra].
Qed.
