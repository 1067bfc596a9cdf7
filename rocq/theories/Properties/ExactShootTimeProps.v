(** C127 in cosmic time and C128: how long inflation takes, and the search for N_tot with the cosmic-time equations. *)
From Coq Require Import Reals List String Lra Lia Classical ZArith.
From Coquelicot Require Import Coquelicot.
From Verif Require Import Base Model.Potentials Model.SlowRoll Model.Equations Model.Background Model.Float Model.Solution Model.InitCond Model.Events
  Spec.PotentialSpec Spec.SlowRollSpec Spec.BackgroundSpec Spec.SolutionSpec Spec.ExactRun Spec.ExactRunT Proofs.PhiEnd Proofs.SRN Proofs.Bracket Proofs.BackgroundT Proofs.BackgroundN Proofs.BackgroundEx Proofs.FloatLemmas Proofs.Unique
  Proofs.SolLemmas Proofs.PostProc Proofs.SlowRollBound Proofs.Roll Proofs.RollEnd Proofs.FastRoll Proofs.StartCont Proofs.StartMono Proofs.ShootRun Proofs.ShootRunT Properties.BackgroundProps Properties.InitProps Properties.UniqueProps Properties.BracketProps Properties.EndNonvacuity
  Properties.StartEndsProps Properties.StartEndsNonvacuity Properties.StartContProps Properties.ExactShootProps.
Import ListNotations.
Open Scope R_scope.
Open Scope string_scope.

(** C128: from the start written by InflationStartIC above phi_end every evolution stops inflating, M e-folds and a
    cosmic time between M / H_i and phi V/V' * sqrt (3/V) * exp (1/2 + phi V/V') later, H_i = sqrt (V/2) *)
Theorem C128_duration : forall root P L te phi_i t_i eta_i x_end N_i e ic y0 ic' y1,
  let U := potfun_of P L in let V_i := V P L phi_i in let N_max := phi_i * (V_i / dV P L phi_i) in
  root_spec root -> featureless P -> valid P -> (forall p phi0, P = DoubleWell p phi0 -> 1 <= p) -> P <> DoubleWell 1 (sqrt 2) ->
  L <> 0 -> branch P phi_i -> phi_end root P L = Ok e -> e < phi_i ->
  is_init (IT 0 U te) phi_i (Some t_i) eta_i x_end (kw_of (InN N_i)) = Ok ic ->
  List.length y0 = List.length (T_idx te) -> is_call ic y0 = Ok (ic', map Fin y1) ->
  exists t_end M N_sr, t_i < t_end /\ sr_phi2N root P L phi_i = Ok N_sr /\
    N_sr - (sqrt 2 * (V_i / dV P L phi_i) - 1) / 2 <= M <= N_max /\
    M / sqrt (V_i / 2) <= t_end - t_i <= N_max * (sqrt (3 / V_i) * exp (1 / 2 + N_max)) /\
    (exists y a b, T_background 0 U te y a b /\ a < t_i /\ t_end < b /\ y t_i = y1) /\
    forall y a b, T_background 0 U te y a b -> a < t_i < b -> y t_i = y1 ->
      T_inflating U te t_i (y t_i) = 0 /\ (forall t, t_i < t < t_end -> t < b -> 0 < T_inflating U te t (y t)) /\
      (t_end < b -> T_inflating U te t_end (y t_end) = 0 /\ T_N te y t_end - T_N te y t_i = M).
Proof.
  intros root P L te phi_i t_i eta_i x_end N_i e ic y0 ic' y1 U V_i N_max HR HF HV HD HN HL HB HE LE SI LY SC.
  destruct (branch_pos P L phi_i HF HV HL HB) as [V0 V1].
  destruct (is_start_T U te phi_i (Some t_i) eta_i x_end N_i ic y0 ic' y1 V0 SI LY SC) as (E1 & E2 & E3 & L1).
  pose proof (phi_end_branch root P L e HR HF HV HL HN HE) as Be. destruct (phi_end_spec root P L e HR HF HV HL HE) as [_ Ee].
  pose proof (Nfun_end root P L e HF HV HE) as Ne.
  destruct (C125_time root P L te phi_i t_i eta_i x_end N_i e ic y0 ic' y1 HR HF HV HD HN HL HB HE LE SI LY SC) as (y & a & b & tq & N_sr & A1 & A2 & B & Ey & _ & _ & I3 & Z & NI & SR & NB).
  destruct (lasts_ex P L e N_i HF HV HL HD Be Ee phi_i Ne HB LE) as (M & DM).
  destruct (time_core P L e N_i t_i te HF HV HL HD Be Ee Ne phi_i M y1 HB LE DM E1 E2 E3 L1) as (z & c & d & tE & C1 & C2 & Bz & Ez & _ & J2 & J3 & JZ & _ & NI' & NE' & TB).
  change (potfun_of P L) with U in B, I3, Z, Bz, J2, J3, JZ.
  assert (EQT : tq = tE).
  { assert (EQ : forall t, a < t < b -> c < t < d -> y t = z t) by (apply (C110_time 0 U te y z a b c d t_i B Bz); try lra; congruence).
    destruct (Rtotal_order tq tE) as [X|[X|X] ]; [|exact X|]; exfalso.
    - pose proof (J3 tq ltac:(lra)) as Q. rewrite <- EQ in Q by lra. lra.
    - pose proof (I3 tE ltac:(lra)) as Q. rewrite EQ in Q by lra. lra. }
  subst tq. assert (EM : T_N te y tE - N_i = M).
  { unfold T_N. rewrite (C110_time 0 U te y z a b c d t_i B Bz) by (try lra; congruence). unfold T_N in NE'. lra. }
  exists tE, M, N_sr. split; [lra|]. split; [exact SR|]. split; [rewrite <- EM; exact NB|]. split; [exact TB|]. split; [exists y, a, b; repeat (split; [first [assumption|lra]|]); exact Ey|].
  intros x a' b' Bx Hx Ex. assert (EQ : forall t, t_i <= t <= tE -> a' < t < b' -> x t = z t) by (intros t Ht Ht'; apply (C110_time 0 U te x z a' b' c d t_i Bx Bz); try lra; congruence).
  split; [rewrite EQ by lra; exact J2|]. split; [intros t Ht Hb; rewrite EQ by lra; apply J3, Ht|].
  intros Hb. rewrite (EQ tE) by lra. split; [exact JZ|]. unfold T_N. rewrite (EQ tE), (EQ t_i) by lra. fold (T_N te z tE). fold (T_N te z t_i). lra.
Qed.

(** the cosmic time that is enough from every field between lo and hi *)
Lemma t_budget_mono P L e lo phi hi : featureless P -> valid P -> L <> 0 -> dw_ge1 P -> branch P e -> eps1V P e = 1 -> branch P lo -> branch P phi -> branch P hi -> e < lo -> lo <= phi <= hi ->
  t_budget P L phi phi <= t_budget P L lo hi.
Proof.
  intros HF HV HL HD Be Ee Bl Bp Bh LE Hp. unfold t_budget.
  destruct (branch_pos P L lo HF HV HL Bl) as [Vl _]. destruct (branch_pos P L phi HF HV HL Bp) as [Vp Dp]. destruct (branch_pos P L hi HF HV HL Bh) as [Vh Dh].
  pose proof (branch_gt0 P phi Bp) as Gp.
  assert (LM : V P L phi / dV P L phi <= V P L hi / dV P L hi).
  { assert (X : dV P L hi / V P L hi <= dV P L phi / V P L phi).
    { destruct (Req_dec phi hi) as [->|NE]; [lra|]. left.
      pose proof (eps1_decr P phi hi HF HV HD Bp Bh ltac:(lra)) as Q. pose proof (branch_lam2 P L HF HV HL phi Bp) as W1. pose proof (branch_lam2 P L HF HV HL hi Bh) as W2.
      pose proof (lam_pos P L HF HV HL phi Bp) as X1. pose proof (lam_pos P L HF HV HL hi Bh) as X2. set (u := dV P L phi / V P L phi) in *. set (v := dV P L hi / V P L hi) in *. clearbody u v. nra. }
    assert (X1 : 0 < dV P L phi / V P L phi) by (apply Rdiv_lt_0_compat; lra). assert (X2 : 0 < dV P L hi / V P L hi) by (apply Rdiv_lt_0_compat; lra).
    replace (V P L phi / dV P L phi) with (/ (dV P L phi / V P L phi)) by (field; lra). replace (V P L hi / dV P L hi) with (/ (dV P L hi / V P L hi)) by (field; lra).
    apply Rinv_le_contravar; [exact X2|exact X]. }
  assert (Q0 : 0 < V P L phi / dV P L phi) by (apply Rdiv_lt_0_compat; lra).
  set (m := phi * (V P L phi / dV P L phi)). set (M := hi * (V P L hi / dV P L hi)).
  assert (m0 : 0 < m) by (apply Rmult_lt_0_compat; lra). assert (mM : m <= M) by (apply Rmult_le_compat; lra).
  assert (VV : V P L lo <= V P L phi) by (apply (V_incr P L lo phi HF HV HL Bl Bp); lra).
  apply Rmult_le_compat; [lra| |exact mM|].
  - apply Rmult_le_pos; [apply sqrt_pos|left; apply exp_pos].
  - apply Rmult_le_compat; [apply sqrt_pos|left; apply exp_pos| |].
    + apply sqrt_le_1_alt. unfold Rdiv. apply Rmult_le_compat_l; [lra|]. apply Rinv_le_contravar; [exact Vl|exact VV].
    + destruct mM as [X|X]; [left; apply exp_increasing; lra|right; rewrite X; reflexivity].
Qed.

(** the integrator makes no error on the run the search starts from the field phi *)
Definition exact_from_T (ivp : integrator) (U : potfun) (te : bool) (t_i : R) (eta_i : option R) (x_end N_i N_wanted phi : R) : Prop :=
  forall ic ic' y1, is_init (IT 0 U te) phi (Some t_i) eta_i x_end (kw_of (InN N_i)) = Ok ic ->
    is_call ic (repeat (Fin 0) (List.length (T_idx te))) = Ok (ic', map Fin y1) ->
    exact_run_time 0 U te t_i x_end y1 (shoot_events (N_i + N_wanted + 10)) (fst (ivp (IT 0 U te) t_i x_end y1 (shoot_events (N_i + N_wanted + 10)))).

Section Obj.
Variables (P : pot) (L e N_i : R).
Let U := potfun_of P L.
Hypotheses (HF : featureless P) (HV : valid P) (HL : L <> 0) (HD : dw_ge1 P).
Hypotheses (Be : branch P e) (Ee : eps1V P e = 1) (Ne : Nfun P e e = 0).
Lemma objective_exact_T fmt_e ivp verbose te t_i eta_i x_end W phi M : branch P phi -> e < phi -> lasts P L N_i phi M ->
  0 < W -> t_budget P L phi phi < x_end - t_i -> ~ missing (IT 0 U te) (Some t_i) eta_i -> exact_from_T ivp U te t_i eta_i x_end N_i W phi ->
  exists v, phii2Ntot fmt_e ivp verbose (IT 0 U te) (Some t_i) eta_i x_end (InN N_i) W phi = Ok (Fin v) /\ (M < W + 10 -> v = M - W) /\ (W + 10 <= M -> 0 < v).
Proof.
  intros HB LE DM W0 XE NM EX. destruct (branch_pos P L phi HF HV HL HB) as [V0 V1].
  destruct (is_start_ok_T U te phi t_i eta_i x_end N_i V0 NM) as (ic & ic' & y1 & SI & ICN & SC & XI).
  pose proof (SC (repeat (Fin 0) (List.length (T_idx te))) (repeat_length _ _)) as SC0.
  destruct (is_start_T U te phi (Some t_i) eta_i x_end N_i ic _ ic' y1 V0 SI (repeat_length _ _) SC0) as (E1 & E2 & E3 & L1).
  destruct (time_core P L e N_i t_i te HF HV HL HD Be Ee Ne phi M y1 HB LE DM E1 E2 E3 L1) as (y & a & b & tE & A1 & A2 & B & Ey & _ & I2 & I3 & Z & FT & N1 & N2 & TB).
  change (potfun_of P L) with U in B, I2, I3, Z, FT.
  pose proof (EX ic ic' y1 SI SC0) as RUN. set (until := N_i + W + 10) in *. set (r := fst (ivp (IT 0 U te) t_i x_end y1 (shoot_events until))) in *.
  rewrite <- Ey in RUN.
  destruct (shoot_core_T U te t_i N_i M W x_end tE y a b A1 A2 B I3 FT N1 N2 W0 ltac:(lra) r RUN) as (CON & RC & HT & HY & OUT).
  fold until in CON, RC, OUT.
  destruct (C34_objective fmt_e ivp verbose (IT 0 U te) (Some t_i) eta_i x_end (InN N_i) W phi eq_refl W0) as [_ O].
  destruct (O ic N_i ic' y1 t_i SI ICN SC0 XI CON) as (s & ws & nt & ES & GT & C1 & C2 & _). fold until in ES, C2. fold r in ES, C2. clear O.
  assert (NT : nt = fsub (fst (fst (fst (N_end_of (T_eqs 0 U te) (shoot_events until) r)))) (fst (N_beg_of (T_eqs 0 U te) (shoot_events until) r))).
  { destruct (solve_ok fmt_e (eqs_ie (IT 0 U te)) verbose (shoot_events until) r) as [s' [ES' SO] ]; [left; repeat eexists|cbn; nodup|apply CON|].
    rewrite ES in ES'. injection ES' as <- _. destruct SO as [_ [_ [_ [_ [_ [_ [_ [_ [S9 _] ] ] ] ] ] ] ] ].
    unfold get_F, getattr in GT. rewrite S9 in GT. injection GT as <-. reflexivity. }
  assert (NB : fst (N_beg_of (T_eqs 0 U te) (shoot_events until) r) = Fin N_i).
  { unfold N_beg_of. rewrite RC. destruct (r_t r) as [|x0 tl]; [discriminate|]. cbn in HT. injection HT as ->. destruct (r_y r) as [|z0 yl]; [discriminate|]. cbn [hd_error] in HY. injection HY as ->.
    change (e_inflating (T_eqs 0 U te) t_i (y t_i)) with (T_inflating U te t_i (y t_i)). rewrite I2. rewrite (fle_true 0 0) by lra. cbn [orb fst].
    change (e_N (T_eqs 0 U te) t_i (y t_i)) with (T_N te y t_i). rewrite N1. reflexivity. }
  rewrite NB in NT.
  destruct OUT as [(RI & LEM)|(RI & RU & GEM)].
  - assert (NE : fst (fst (fst (N_end_of (T_eqs 0 U te) (shoot_events until) r))) = Fin (N_i + M)).
    { unfold N_end_of, end_record. rewrite RI. cbn [fst]. change (e_N (T_eqs 0 U te) tE (y tE)) with (T_N te y tE). rewrite N2. reflexivity. }
    rewrite NE in NT. cbn [fsub] in NT. exists (N_i + M - N_i - W). split; [apply C1; exact NT|]. split; intros; lra.
  - assert (NE : fst (fst (fst (N_end_of (T_eqs 0 U te) (shoot_events until) r))) = NaN).
    { unfold N_end_of, end_record. rewrite RI. replace (recorded (is_inflation (-1) false) (shoot_events until) r) with (@nil (R * list R)); [reflexivity|].
      unfold recorded, shoot_events. destruct (r_t_events r) as [|? [|? [|? [|? [|] ] ] ] ]; destruct (r_y_events r) as [|? [|? [|? [|? [|] ] ] ] ]; reflexivity. }
    rewrite NE in NT. cbn [fsub] in NT. assert (NF : isfinite nt = false) by (rewrite NT; reflexivity).
    destruct (C2 NF (or_introl RU)) as (v & Q1 & Q2). exists v. split; [exact Q1|]. split; intros; lra.
Qed.
End Obj.

(** C127 in cosmic time: what the search sees, when x_end leaves the time inflation takes at most *)
Theorem C127_time_objective : forall root P L e,
  let U := potfun_of P L in
  root_spec root -> featureless P -> valid P -> (forall p phi0, P = DoubleWell p phi0 -> 1 <= p) -> P <> DoubleWell 1 (sqrt 2) ->
  L <> 0 -> phi_end root P L = Ok e ->
  exists N_tot : R -> R,
    (forall phi tm te t_i eta_i x_end N_i, branch P phi -> e < phi -> inflates_for U tm te t_i eta_i x_end N_i phi (N_tot phi)) /\
    forall fmt_e ivp verbose te t_i eta_i x_end N_i N_wanted phi, branch P phi -> e < phi ->
      let N_max := phi * (V P L phi / dV P L phi) in
      0 < N_wanted -> N_max * (sqrt (3 / V P L phi) * exp (1 / 2 + N_max)) < x_end - t_i -> ~ missing (IT 0 U te) (Some t_i) eta_i ->
      exact_from_T ivp U te t_i eta_i x_end N_i N_wanted phi ->
      exists v, phii2Ntot fmt_e ivp verbose (IT 0 U te) (Some t_i) eta_i x_end (InN N_i) N_wanted phi = Ok (Fin v) /\
        (N_tot phi < N_wanted + 10 -> v = N_tot phi - N_wanted) /\ (N_wanted + 10 <= N_tot phi -> 0 < v).
Proof.
  intros root P L e U HR HF HV HD HN HL HE.
  pose proof (phi_end_branch root P L e HR HF HV HL HN HE) as Be. destruct (phi_end_spec root P L e HR HF HV HL HE) as [_ Ee].
  pose proof (Nfun_end root P L e HF HV HE) as Ne.
  assert (D : forall N_i phi, branch P phi -> e < phi -> lasts P L N_i phi (dur P L phi)).
  { intros N_i phi HB LE. destruct (lasts_ex P L e N_i HF HV HL HD Be Ee phi Ne HB LE) as (M & DM). rewrite (dur_ok P L N_i phi M DM). exact DM. }
  exists (dur P L). split.
  - intros phi tm te t_i eta_i x_end N_i HB LE. apply (lasts_inflates P L e N_i HF HV HL HD Be Ee Ne); [exact HB|exact LE|apply D; assumption].
  - intros fmt_e ivp verbose te t_i eta_i x_end N_i W phi HB LE N_max W0 XE NM EX.
    exact (objective_exact_T P L e N_i HF HV HL HD Be Ee Ne fmt_e ivp verbose te t_i eta_i x_end W phi _ HB LE (D N_i phi HB LE) W0 XE NM EX).
Qed.
(** C127 in cosmic time: the search succeeds *)
Theorem C127_time_shooting : forall root P L e lo hi N_wanted N_sr te t_i eta_i x_end N_i ivp verbose fmt_e,
  let U := potfun_of P L in let N_max := hi * (V P L hi / dV P L hi) in
  root_spec root -> featureless P -> valid P -> (forall p phi0, P = DoubleWell p phi0 -> 1 <= p) -> P <> DoubleWell 1 (sqrt 2) ->
  L <> 0 -> phi_end root P L = Ok e -> branch P lo -> branch P hi -> e < lo -> lo < hi ->
  0 < N_wanted -> N_max * (sqrt (3 / V P L lo) * exp (1 / 2 + N_max)) < x_end - t_i -> ~ missing (IT 0 U te) (Some t_i) eta_i ->
  lo * (V P L lo / dV P L lo) < N_wanted -> sr_phi2N root P L hi = Ok N_sr -> N_wanted < N_sr - (sqrt 2 * (V P L hi / dV P L hi) - 1) / 2 ->
  (forall phi, lo <= phi <= hi -> exact_from_T ivp U te t_i eta_i x_end N_i N_wanted phi) ->
  forall eps, 0 < eps -> exists delta, 0 < delta /\ forall tol find, 0 <= tol < delta -> brackets_to tol find ->
    exists ic, nt_init (IT 0 U te) [lo; hi] (Some t_i) eta_i x_end (kw_of (InN N_i)) = Ok ic /\
    forall y0, List.length y0 = List.length (T_idx te) ->
    exists ic' y1 phi M t_end, nt_call fmt_e ivp find verbose ic N_wanted [lo; hi] y0 = Ok (ic', map Fin y1, phi) /\
      lo <= phi <= hi /\ ic_phi ic' = phi /\ Rabs (M - N_wanted) < eps /\ (tol = 0 -> M = N_wanted) /\ t_i < t_end < x_end /\
      (exists y a b, T_background 0 U te y a b /\ a < t_i /\ t_end < b /\ y t_i = y1) /\
      forall y a b, T_background 0 U te y a b -> a < t_i < b -> y t_i = y1 ->
        T_inflating U te t_i (y t_i) = 0 /\
        (forall t, t_i < t < t_end -> t < b -> 0 < T_inflating U te t (y t)) /\
        (t_end < b -> T_inflating U te t_end (y t_end) = 0 /\ T_N te y t_end - T_N te y t_i = M).
Proof.
  intros root P L e lo hi W N_sr te t_i eta_i x_end N_i ivp verbose fmt_e U N_max HR HF HV HD HN HL HE Bl Bh LE LH W0 XE NM LO SR HI EX eps He.
  pose proof (phi_end_branch root P L e HR HF HV HL HN HE) as Be. destruct (phi_end_spec root P L e HR HF HV HL HE) as [_ Ee].
  pose proof (Nfun_end root P L e HF HV HE) as Ne.
  destruct (lasts_start root P L e lo hi W N_sr HR HF HV HD HN HL HE Bl Bh LE LH LO SR HI) as (x & Hx & DX). apply (lasts_shift P L 0 N_i) in DX.
  assert (BR : forall s, lo <= s <= hi -> branch P s) by (intros s Hs; apply (branch_between P lo hi s Bl Bh); rewrite Rmin_left, Rmax_right by lra; exact Hs).
  assert (BUD : forall s, lo <= s <= hi -> t_budget P L s s < x_end - t_i).
  { intros s Hs. eapply Rle_lt_trans; [apply (t_budget_mono P L e lo s hi HF HV HL HD Be Ee Bl (BR s Hs) Bh LE Hs)|exact XE]. }
  assert (D : forall phi, lo <= phi <= hi -> lasts P L N_i phi (dur P L phi)).
  { intros phi Hp. destruct (lasts_ex P L e N_i HF HV HL HD Be Ee phi Ne (BR phi Hp) ltac:(lra)) as (M & DM). rewrite (dur_ok P L N_i phi M DM). exact DM. }
  assert (DW : dur P L x = W) by (apply (dur_ok P L N_i x W DX)).
  destruct (lasts_cont P L e N_i HF HV HL HD Be Ee x W (BR x ltac:(lra)) ltac:(lra) DX eps He) as (delta & Hd & CT).
  exists delta. split; [exact Hd|]. intros tol find Ht FI.
  assert (HH : 0 < pV U hi) by (apply (branch_pos P L hi HF HV HL Bh)).
  destruct (is_start_ok_T U te hi t_i eta_i x_end N_i HH NM) as (ic & _ & _ & SI & _ & _). exists ic. split; [exact SI|].
  intros y0 LY.
  set (f := phii2Ntot fmt_e ivp verbose (IT 0 U te) (Some t_i) eta_i x_end (InN N_i) W).
  assert (OBJ : forall phi, lo <= phi <= hi -> exists v, f phi = Ok (Fin v) /\ (dur P L phi < W + 10 -> v = dur P L phi - W) /\ (W + 10 <= dur P L phi -> 0 < v)).
  { intros phi Hp. exact (objective_exact_T P L e N_i HF HV HL HD Be Ee Ne fmt_e ivp verbose te t_i eta_i x_end W phi _ (BR phi Hp) ltac:(lra) (D phi Hp) W0 (BUD phi Hp) NM (EX phi Hp)). }
  assert (LT : forall s t, lo <= s -> s < t -> t <= hi -> dur P L s < dur P L t).
  { intros s t A1 A2 A3. apply (lasts_mono P L e N_i HF HV HL HD Be Ee s t); try (apply BR; lra); try (apply D; lra); lra. }
  destruct (FI (IT 0 U te) f lo hi x Hx) as (phi & FR & Hp & TOL).
  - intros s Hs. destruct (OBJ s ltac:(lra)) as (v & F1 & F2 & _). exists v. split; [exact F1|]. pose proof (LT s x ltac:(lra) ltac:(lra) ltac:(lra)). rewrite F2 by lra. lra.
  - destruct (OBJ x ltac:(lra)) as (v & F1 & F2 & _). rewrite F1. do 2 f_equal. rewrite F2 by lra. lra.
  - intros s Hs. destruct (OBJ s ltac:(lra)) as (v & F1 & F2 & F3). exists v. split; [exact F1|]. pose proof (LT x s ltac:(lra) ltac:(lra) ltac:(lra)).
    destruct (Rlt_dec (dur P L s) (W + 10)) as [Q|Q]; [rewrite F2 by exact Q; lra|apply F3; lra].
  - assert (HVp : 0 < pV U phi) by (apply (branch_pos P L phi HF HV HL (BR phi Hp))).
    destruct (is_start_ok_T U te phi t_i eta_i x_end N_i HVp NM) as (ic0 & ic' & y1 & SI0 & _ & SC & _).
    destruct (is_start_T U te phi (Some t_i) eta_i x_end N_i ic0 y0 ic' y1 HVp SI0 LY (SC y0 LY)) as (E1 & E2 & E3 & L1).
    destruct (time_core P L e N_i t_i te HF HV HL HD Be Ee Ne phi (dur P L phi) y1 (BR phi Hp) ltac:(lra) (D phi Hp) E1 E2 E3 L1) as (z & c & d & tE & C1 & C2 & Bz & Ez & _ & J2 & J3 & JZ & _ & NI' & NE' & TB).
    change (potfun_of P L) with U in Bz, J2, J3, JZ.
    destruct (is_init_obj _ _ _ _ _ _ _ SI) as (inp & n & o & aH & H & EI & KI). assert (inp = InN N_i) by (destruct inp; cbn in KI; congruence). subst inp.
    exists ic', y1, phi, (dur P L phi), tE.
    assert (CALL : nt_call fmt_e ivp find verbose ic W [lo; hi] y0 = Ok (ic', map Fin y1, phi)).
    { unfold nt_call. rewrite EI. cbn [is_obj ic_eqs ic_t ic_eta ic_x_end ic_input]. fold f. rewrite FR. cbn [bind]. unfold shoot_finish. cbn [is_obj ic_eqs ic_t ic_eta ic_x_end ic_input]. rewrite SI0. cbn [bind]. rewrite SC by exact LY. reflexivity. }
    split; [exact CALL|]. split; [exact Hp|].
    split; [apply (C35_shooting fmt_e ivp find verbose (IT 0 U te) [lo; hi] (Some t_i) eta_i x_end (InN N_i) ic W y0 ic' (map Fin y1) phi SI CALL)|].
    split; [apply (CT phi); [lra|apply BR, Hp|lra|apply D, Hp]|]. split.
    { intros ->. assert (H0 : phi = x) by (pose proof (Rabs_pos (phi - x)) as Q; assert (Q2 : Rabs (phi - x) = 0) by lra; destruct (Req_dec (phi - x) 0) as [|Q3]; [lra|pose proof (Rabs_pos_lt _ Q3); lra]). rewrite H0. exact DW. }
    split; [pose proof (BUD phi Hp); lra|]. split; [exists z, c, d; repeat (split; [first [exact Bz|lra]|]); exact Ez|].
    intros w a' b' Bx Hw Ex. assert (EQ : forall t, t_i <= t <= tE -> a' < t < b' -> w t = z t) by (intros t Q1 Q2; apply (C110_time 0 U te w z a' b' c d t_i Bx Bz); try lra; congruence).
    split; [rewrite EQ by lra; exact J2|]. split; [intros t Q1 Q2; rewrite EQ by lra; apply J3, Q1|].
    intros Hb. rewrite (EQ tE) by lra. split; [exact JZ|]. unfold T_N. rewrite (EQ tE), (EQ t_i) by lra. fold (T_N te z tE). fold (T_N te z t_i). lra.
Qed.
