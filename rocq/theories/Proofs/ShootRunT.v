(** An exact run of the shooting problem of ISIC_Nt in a flat universe, cosmic time (used for C127, C128). *)
From Coq Require Import Reals List String Lra Lia Classical ZArith.
From Coquelicot Require Import Coquelicot.
From Verif Require Import Base Model.Potentials Model.SlowRoll Model.Equations Model.Background Model.Float Model.Solution Model.InitCond Model.Events
  Spec.PotentialSpec Spec.SlowRollSpec Spec.BackgroundSpec Spec.SolutionSpec Spec.ExactRun Spec.ExactRunT Proofs.PhiEnd Proofs.SRN Proofs.Bracket Proofs.BackgroundT Proofs.BackgroundN Proofs.BackgroundTN Proofs.BackgroundEx Proofs.FloatLemmas Proofs.Unique
  Proofs.PostProc Proofs.SlowRollBound Proofs.Roll Proofs.RollEnd Proofs.FastRoll Proofs.StartCont Proofs.StartMono Proofs.ShootRun Properties.BackgroundProps Properties.InitProps Properties.UniqueProps Properties.SlowRollBoundProps Properties.ExistenceProps Properties.InflationEndsProps
  Properties.StartEndsProps.
Import ListNotations.
Open Scope R_scope.

(** InflationStartIC starts in cosmic time, from the time t *)
Lemma is_start_ok_T U te phi t eta xe n : 0 < pV U phi -> ~ missing (IT 0 U te) (Some t) eta -> exists ic ic' y1,
  is_init (IT 0 U te) phi (Some t) eta xe (kw_of (InN n)) = Ok ic /\ ic_N ic = Fin n /\
  (forall y0, List.length y0 = List.length (T_idx te) -> is_call ic y0 = Ok (ic', map Fin y1)) /\ ic_x_ini ic' = Some (Some (Fin t)).
Proof.
  intros HV NM. pose proof (exp_pos (2 * n)) as EP. assert (HA : 0 < pV U phi / 2 * exp (2 * n) - 0) by (rewrite Rminus_0_r; apply Rmult_lt_0_compat; lra).
  pose proof (is_from_N (IT 0 U te) phi (Some t) eta xe n HA) as E.
  assert (Q : 0 < pV U phi / 2 - 0 * exp (-2 * n)) by lra. assert (S0 : 0 < sqrt (pV U phi / 2 - 0 * exp (-2 * n))) by (apply sqrt_lt_R0; exact Q).
  cbn [ie_U ie_K] in E.
  destruct (is_call_spec (IT 0 U te) phi (Some t) eta xe (InN n) (Fin n) (Fin (- 0 / (pV U phi / 2 * exp (2 * n) - 0))) (Fin (sqrt (pV U phi / 2 * exp (2 * n) - 0))) (Fin (sqrt (pV U phi / 2 - 0 * exp (-2 * n)))) eq_refl) as [_ C].
  destruct (C NM) as (yy & F & G). eexists. eexists.
  assert (Y : exists y1, yy = map Fin y1).
  { specialize (G (repeat (Fin 0) (List.length (T_idx te))) (repeat_length _ _)). unfold is_call, is_obj in G. cbn [ic_eqs ic_dphi ic_N ic_phi ic_eta ic_t ic_V ic_H ic_O ic_aH ic_input ic_x_end ie_te ie_idx ie_U ie_K] in G.
    rewrite (fsqrt_fin (pV U phi)) in G by lra. cbn [fneg] in G.
    destruct te, eta as [eta|]; try (exfalso; apply NM; cbn; auto; fail); cbn in G; injection G as _ <-;
      match goal with |- exists y1, ?l = _ => first [
        match l with [Fin ?a; Fin ?b; Fin ?c; Fin ?d] => exists [a; b; c; d]; reflexivity end |
        match l with [Fin ?a; Fin ?b; Fin ?c] => exists [a; b; c]; reflexivity end ] end. }
  destruct Y as (y1 & Y). exists y1. split; [exact E|]. split; [reflexivity|]. split; [intros y0 L; rewrite <- Y; apply G, L|reflexivity].
Qed.

(** the cosmic time inflation takes at most *)
Definition t_budget (P : pot) (L lo hi : R) : R :=
  let M0 := hi * (V P L hi / dV P L hi) in M0 * (sqrt (3 / V P L lo) * exp (1 / 2 + M0)).

Lemma time_bounds Vi h W q M M0 : 0 < Vi -> 0 < h -> 3 * h^2 = q^2 / 2 + W -> 0 <= W - q^2 -> Vi * exp (- (1 + 2 * M0)) <= W -> W <= Vi -> 0 < M -> M <= M0 ->
  M / sqrt (Vi / 2) <= 1 / h * M <= M0 * (sqrt (3 / Vi) * exp (1 / 2 + M0)).
Proof.
  intros HV Hh FR NI LO UP M0' ML. pose proof (pow2_ge_0 q) as Q2. split.
  - assert (SV : 0 < sqrt (Vi / 2)) by (apply sqrt_lt_R0; lra). assert (SQ : sqrt (Vi / 2) * sqrt (Vi / 2) = Vi / 2) by (apply sqrt_sqrt; lra).
    assert (HL : h <= sqrt (Vi / 2)) by (rewrite <- (sqrt_pow2 h) by lra; apply sqrt_le_1_alt; lra).
    unfold Rdiv. rewrite Rmult_1_l, Rmult_comm. apply Rmult_le_compat_r; [lra|]. apply Rinv_le_contravar; assumption.
  - set (s := sqrt (3 / Vi) * exp (1 / 2 + M0)). assert (V3 : 0 < 3 / Vi) by (apply Rdiv_lt_0_compat; lra).
    assert (S0 : 0 < s) by (apply Rmult_lt_0_compat; [apply sqrt_lt_R0; lra|apply exp_pos]).
    assert (S2 : s * s = 3 / Vi * exp (1 + 2 * M0)).
    { unfold s. replace (sqrt (3 / Vi) * exp (1 / 2 + M0) * (sqrt (3 / Vi) * exp (1 / 2 + M0))) with (sqrt (3 / Vi) * sqrt (3 / Vi) * (exp (1 / 2 + M0) * exp (1 / 2 + M0))) by ring.
      rewrite sqrt_sqrt by lra. rewrite <- exp_plus. do 2 f_equal. field. }
    assert (EE : exp (- (1 + 2 * M0)) * exp (1 + 2 * M0) = 1) by (rewrite <- exp_plus, Rplus_opp_l; apply exp_0).
    assert (H3 : Vi * exp (- (1 + 2 * M0)) / 3 <= h * h) by (replace (h * h) with (h^2) by ring; lra).
    assert (SH : 1 <= (s * h) * (s * h)).
    { replace ((s * h) * (s * h)) with ((s * s) * (h * h)) by ring. rewrite S2.
      apply Rle_trans with (3 / Vi * exp (1 + 2 * M0) * (Vi * exp (- (1 + 2 * M0)) / 3)).
      - right. replace (3 / Vi * exp (1 + 2 * M0) * (Vi * exp (- (1 + 2 * M0)) / 3)) with (exp (- (1 + 2 * M0)) * exp (1 + 2 * M0)) by (field; lra). symmetry. exact EE.
      - apply Rmult_le_compat_l; [|exact H3]. left. apply Rmult_lt_0_compat; [exact V3|apply exp_pos]. }
    assert (SP : 0 < s * h) by (apply Rmult_lt_0_compat; assumption).
    assert (S1 : 1 <= s * h) by nra.
    assert (IH : 1 / h <= s). { apply Rmult_le_reg_r with h; [exact Hh|]. replace (1 / h * h) with 1 by (field; lra). exact S1. }
    assert (IP : 0 < 1 / h) by (apply Rdiv_lt_0_compat; lra).
    rewrite Rmult_comm. apply Rmult_le_compat; lra.
Qed.

Section Core.
Variables (P : pot) (L e N_i t_i : R) (te : bool).
Let U := potfun_of P L.
Hypotheses (HF : featureless P) (HV : valid P) (HL : L <> 0) (HD : dw_ge1 P).
Hypotheses (Be : branch P e) (Ee : eps1V P e = 1) (Ne : Nfun P e e = 0).

Lemma time_core_end phi M y1 : branch P phi -> e < phi -> lasts P L N_i phi M ->
  var (T_idx te) "phi" y1 = phi -> var (T_idx te) "dphidt" y1 = - sqrt (pV U phi) -> var (T_idx te) "_N" y1 = N_i -> List.length y1 = List.length (T_idx te) ->
  exists y a b tE, a < t_i < tE /\ tE < b /\ T_background 0 U te y a b /\ y t_i = y1 /\
    (forall t, a < t < t_i -> T_inflating U te t (y t) < 0) /\ T_inflating U te t_i (y t_i) = 0 /\
    (forall t, t_i < t < tE -> 0 < T_inflating U te t (y t)) /\ T_inflating U te tE (y tE) = 0 /\
    falls_through (fun s => T_inflating U te s (y s)) tE /\ T_N te y t_i = N_i /\ T_N te y tE = N_i + M /\
    M / sqrt (V P L phi / 2) <= tE - t_i <= t_budget P L phi phi /\
    branch P (T_phi te y tE) /\ T_phi te y tE < e.
Proof.
  intros HB LE DM E1 E2 E3 L1.
  destruct (branch_pos P L phi HF HV HL HB) as [V0 V1]. pose proof (lam_lt P L HF HV HL HD phi e HB Be Ee LE) as LM.
  set (x1 := ([phi; - sqrt 2; t_i] ++ (if te then [var (T_idx te) "eta" y1] else []))%list).
  assert (X1 : var (N_idx true te) "phi" x1 = phi) by (unfold x1; destruct te; reflexivity).
  assert (X2 : var (N_idx true te) "dphidN" x1 = - sqrt 2) by (unfold x1; destruct te; reflexivity).
  assert (X3 : List.length x1 = List.length (N_idx true te)) by (unfold x1; destruct te; reflexivity).
  assert (X4 : var (N_idx true te) "t" x1 = t_i) by (unfold x1; destruct te; reflexivity).
  destruct (st_core P L true te HF HV HL HD phi N_i x1 HB X1 X2 LM e Be Ee Ne X3) as (z & a & b & N_end & A1 & A2 & B & Ez & I1 & I2 & I3 & Z & _ & UP).
  change (potfun_of P L) with U in B, I1, I2, I3, Z.
  assert (DM' : lasts P L N_i phi (N_end - N_i)).
  { split; [lra|]. exists (fun s => [N_phi true te z s; N_dphi true te z s]), a, b. replace (N_i + (N_end - N_i)) with N_end by ring.
    split; [exact (N_proj 0 U true te z a b B)|]. split; [lra|]. split; [exact A2|]. split; [unfold N_phi, N_dphi; rewrite Ez, X1, X2; reflexivity|]. split; [intros n Hn; exact (I3 n Hn)|exact Z]. }
  pose proof (lasts_uniq P L N_i phi M _ DM DM') as EM.
  destruct (to_time U te z a b N_i N_end B A1 A2) as (y & a' & b' & nu & O1 & O2 & BT & Q & MO & J1 & J2). set (tau := N_t true te z) in *.
  assert (TI : tau N_i = t_i) by (unfold tau, N_t; rewrite Ez; exact X4).
  assert (S2 : sqrt 2 * sqrt 2 = 2) by (apply sqrt_sqrt; lra). assert (SS : (- sqrt 2)^2 = 2) by (replace ((- sqrt 2)^2) with (sqrt 2 * sqrt 2) by ring; exact S2).
  (* how long it takes *)
  assert (LONG : M / sqrt (V P L phi / 2) <= tau N_end - tau N_i <= t_budget P L phi phi).
  { destruct (MVT_cor2 tau (fun n => 1 / N_Hub 0 U true te z n) N_i N_end ltac:(lra)) as (c & EQ & Hc).
    { intros c Hc. apply is_derive_Reals. destruct (N_comps 0 U true te z a b B c ltac:(lra)) as [_ [_ [D _] ] ]. exact (D eq_refl). }
    rewrite EQ. clear EQ. rewrite <- EM.
    destruct (st_stay P L true te HF HV HL HD phi N_i x1 HB X1 X2 LM z a b B ltac:(lra) Ez c ltac:(lra) ltac:(intros s Hs; apply I3; lra)) as (_ & PH & _ & VL).
    destruct (st_flow P L true te N_i z a b B ltac:(lra) c ltac:(lra)) as (_ & _ & _ & _ & FR & HP & _). cbv beta in FR. change (potfun_of P L) with U in FR, HP.
    assert (NI : 0 <= V P L (N_phi true te z c) - (N_Hub 0 U true te z c * N_dphi true te z c)^2).
    { pose proof (run_infl P L true te z a b B c ltac:(lra)) as RI. cbv beta in RI. change (potfun_of P L) with U in RI. pose proof (I3 c ltac:(lra)) as X. rewrite RI in X. left. exact X. }
    assert (EB : N_i + M = N_end) by lra.
    assert (MM : phi / (dV P L phi / V P L phi) = phi * (V P L phi / dV P L phi)) by (field; lra). rewrite MM in VL, UP.
    assert (BC : branch P (N_phi true te z c)).
    { destruct (branch_room P HF HV HD phi HB) as (rm & Hrm & RM). apply RM. lra. }
    assert (VI : V P L (N_phi true te z c) <= V P L phi) by (apply (V_incr P L _ _ HF HV HL BC HB); lra).
    apply (time_bounds (V P L phi) (N_Hub 0 U true te z c) (V P L (N_phi true te z c)) (N_Hub 0 U true te z c * N_dphi true te z c)); try assumption; lra. }
  rewrite TI in *. set (tE := tau N_end) in *.
  assert (Y1 : y t_i = y1).
  { destruct (Q t_i ltac:(lra)) as (_ & -> & _). rewrite J1, Ez. unfold state_N2T. rewrite X1, X2.
    replace (- sqrt 2 * sqrt (N_H2 0 U true te N_i x1)) with (var (T_idx te) "dphidt" y1).
    2: { rewrite E2. unfold N_H2, N_get_H2. rewrite X1, X2, SS. replace (2 * pV U phi - 6 * 0 * exp (-2 * N_i)) with (2 * pV U phi) by ring.
         replace (2 * pV U phi / (6 - 2)) with (pV U phi / 2) by field. rewrite Ropp_mult_distr_l_reverse, <- sqrt_mult by (unfold U; cbn; lra). do 2 f_equal. field. }
    rewrite <- E3, <- E1. destruct te; cbn in L1.
    - destruct (len4 y1 L1) as (u & p & n & et & ->). reflexivity.
    - destruct (len3 y1 L1) as (u & p & n & ->). reflexivity. }
  assert (F1 : N_phi true te z N_i = phi) by (unfold N_phi; rewrite Ez; exact X1). assert (F2 : N_dphi true te z N_i = - sqrt 2) by (unfold N_dphi; rewrite Ez; exact X2).
  assert (EB : N_i + M = N_end) by lra.
  assert (FT : falls_through (fun s => T_inflating U te s (y s)) tE).
  { pose proof (run_falls P L e N_i true te HF HV HL HD Be Ee phi M z a b HB LE ltac:(lra) B ltac:(lra) ltac:(lra) F1 F2 ltac:(intros n Hn; apply I3; lra) ltac:(rewrite EB; exact Z)) as FN.
    rewrite EB in FN. change (potfun_of P L) with U in FN. destruct FN as (FN0 & d & Hd & FN). cbv beta in FN0, FN.
    split; [cbv beta; destruct (Q tE ltac:(lra)) as (_ & _ & -> & _); rewrite J2; exact FN0|].
    assert (CN : continuity_pt (T_N te y) tE).
    { apply derivable_continuous_pt. exists (T_Hub 0 U te y tE). apply is_derive_Reals. apply (T_comps 0 U te y a' b' BT tE ltac:(lra)). }
    destruct (CN d Hd) as (d1 & Hd1 & CN1). cbn in CN1. unfold R_dist in CN1.
    exists (Rmin d1 (Rmin (tE - t_i) (b' - tE))). pose proof (Rmin_l d1 (Rmin (tE - t_i) (b' - tE))). pose proof (Rmin_r d1 (Rmin (tE - t_i) (b' - tE))).
    pose proof (Rmin_l (tE - t_i) (b' - tE)). pose proof (Rmin_r (tE - t_i) (b' - tE)).
    split; [repeat apply Rmin_glb_lt; lra|].
    assert (NEAR : forall s, tE - Rmin d1 (Rmin (tE - t_i) (b' - tE)) < s < tE + Rmin d1 (Rmin (tE - t_i) (b' - tE)) -> s <> tE -> a' < s < b' /\ Rabs (nu s - N_end) < d).
    { intros s Hs NEs. assert (Hs' : a' < s < b') by lra. split; [exact Hs'|]. destruct (Q s Hs') as (_ & _ & _ & <-). destruct (Q tE ltac:(lra)) as (_ & _ & _ & QE). rewrite J2 in QE. rewrite <- QE.
      apply CN1. split; [split; [exact I|lra]|]. apply Rabs_def1; lra. }
    intros s. split; intros Hs; (destruct (NEAR s ltac:(lra) ltac:(lra)) as (Hs' & NR)); apply Rabs_def2 in NR; destruct (Q s Hs') as (_ & _ & -> & _).
    - pose proof (MO s tE ltac:(lra) ltac:(lra) ltac:(lra)) as X. rewrite J2 in X. apply (FN (nu s)). lra.
    - pose proof (MO tE s ltac:(lra) ltac:(lra) ltac:(lra)) as X. rewrite J2 in X. apply (FN (nu s)). lra. }
  exists y, a', b', tE. split; [lra|]. split; [exact O2|]. split; [exact BT|]. split; [exact Y1|].
  split; [intros t Ht; destruct (Q t ltac:(lra)) as (Q1 & _ & -> & _); pose proof (MO t t_i ltac:(lra) ltac:(lra) ltac:(lra)); apply I1; lra|].
  split; [destruct (Q t_i ltac:(lra)) as (_ & _ & -> & _); rewrite J1; exact I2|].
  split; [intros t Ht; destruct (Q t ltac:(lra)) as (Q1 & _ & -> & _); pose proof (MO t_i t ltac:(lra) ltac:(lra) ltac:(lra)); pose proof (MO t tE ltac:(lra) ltac:(lra) ltac:(lra)); apply I3; lra|].
  split; [destruct (Q tE ltac:(lra)) as (_ & _ & -> & _); rewrite J2; exact Z|]. split; [exact FT|].
  split; [destruct (Q t_i ltac:(lra)) as (_ & _ & _ & ->); exact J1|]. split; [destruct (Q tE ltac:(lra)) as (_ & _ & _ & ->); rewrite J2; lra|]. split; [exact LONG|].
  assert (PT : T_phi te y tE = N_phi true te z N_end).
  { destruct (Q tE ltac:(lra)) as (_ & QY & _). rewrite J2 in QY. unfold T_phi. rewrite QY. destruct te; reflexivity. }
  rewrite PT.
  destruct (ld_end P L e N_i HF HV HL HD Be Ee phi M (fun s => [N_phi true te z s; N_dphi true te z s]) a b HB LE ltac:(lra) (N_proj 0 U true te z a b B) ltac:(lra) ltac:(lra)
    ltac:(cbv beta; rewrite F1, F2; reflexivity) ltac:(intros n Hn; apply I3; lra) ltac:(rewrite EB; exact Z)) as (_ & _ & PE).
  destruct (ld_stay P L e N_i HF HV HL HD Be Ee phi M (fun s => [N_phi true te z s; N_dphi true te z s]) a b HB LE ltac:(lra) (N_proj 0 U true te z a b B) ltac:(lra) ltac:(lra)
    ltac:(cbv beta; rewrite F1, F2; reflexivity) ltac:(intros n Hn; apply I3; lra) N_end ltac:(lra)) as (BE & _).
  rewrite EB in PE. split; [exact BE|exact PE].

Qed.
Lemma time_core phi M y1 : branch P phi -> e < phi -> lasts P L N_i phi M ->
  var (T_idx te) "phi" y1 = phi -> var (T_idx te) "dphidt" y1 = - sqrt (pV U phi) -> var (T_idx te) "_N" y1 = N_i -> List.length y1 = List.length (T_idx te) ->
  exists y a b tE, a < t_i < tE /\ tE < b /\ T_background 0 U te y a b /\ y t_i = y1 /\
    (forall t, a < t < t_i -> T_inflating U te t (y t) < 0) /\ T_inflating U te t_i (y t_i) = 0 /\
    (forall t, t_i < t < tE -> 0 < T_inflating U te t (y t)) /\ T_inflating U te tE (y tE) = 0 /\
    falls_through (fun s => T_inflating U te s (y s)) tE /\ T_N te y t_i = N_i /\ T_N te y tE = N_i + M /\
    M / sqrt (V P L phi / 2) <= tE - t_i <= t_budget P L phi phi.
Proof.
  intros HB LE DM E1 E2 E3 L1.
  destruct (time_core_end phi M y1 HB LE DM E1 E2 E3 L1) as (y & a & b & tE & Q1 & Q2 & Q3 & Q4 & Q5 & Q6 & Q7 & Q8 & Q9 & Q10 & Q11 & Q12 & _).
  exists y, a, b, tE. repeat (split; [assumption|]). exact Q12.
Qed.
End Core.

(** ** the exact run *)
Lemma T_N_lt U te y a b s t : T_background 0 U te y a b -> a < s -> s < t -> t < b -> T_N te y s < T_N te y t.
Proof.
  intros B H1 H2 H3. destruct (MVT_cor2 (T_N te y) (T_Hub 0 U te y) s t H2) as (c & EQ & Hc).
  - intros c Hc. apply is_derive_Reals. apply (T_comps 0 U te y a b B c ltac:(lra)).
  - destruct (T_pos 0 U te y a b B c ltac:(lra)) as [HP _]. assert (0 < T_Hub 0 U te y c * (t - s)) by (apply Rmult_lt_0_compat; lra). lra.
Qed.

Section RunT.
Variables (U : potfun) (te : bool) (t_i N_i M W x_end tE : R) (y : R -> list R) (a b : R).
Hypotheses (M0 : 0 < M) (A1 : a < t_i < tE) (A2 : tE < b) (B : T_background 0 U te y a b)
  (I1 : forall t, t_i < t < tE -> 0 < T_inflating U te t (y t)) (FT : falls_through (fun s => T_inflating U te s (y s)) tE)
  (N1 : T_N te y t_i = N_i) (N2 : T_N te y tE = N_i + M).
Hypotheses (W0 : 0 < W) (XE : tE < x_end).
Variable r : raw_sol.
Let until := N_i + W + 10.
Hypothesis RUN : exact_run_time 0 U te t_i x_end (y t_i) (shoot_events until) r.
Let q := IT 0 U te.

Lemma shoot_core_T : shoot_contract q until r /\ recorded is_collapse (shoot_events until) r = [] /\
  hd_error (r_t r) = Some t_i /\ hd_error (r_y r) = Some (y t_i) /\
  ((recorded (is_inflation (-1) true) (shoot_events until) r = [(tE, y tE)] /\ M <= W + 10) \/
   (recorded (is_inflation (-1) true) (shoot_events until) r = [] /\ recorded is_untilN (shoot_events until) r <> [] /\ W + 10 <= M)).
Proof.
  destruct RUN as (z & a' & b' & T & Bz & A1' & A2' & Ez & HT & HH & HLt & RY & LEN & RE & EV & STOP).
  destruct (r_t_events r) as [|t0 [|t1 [|t2 [|t3 [|] ] ] ] ] eqn:TE; try discriminate LEN. clear LEN.
  destruct (EV 1%nat _ _ eq_refl eq_refl) as (ND1 & S1 & C1). destruct (EV 2%nat _ _ eq_refl eq_refl) as (ND2 & S2 & C2). destruct (EV 3%nat _ _ eq_refl eq_refl) as (ND3 & S3 & C3).
  cbn [event_call event_terminal event_direction] in S1, C1, S2, C2, S3, C3. cbn [e_inflating e_N e_H2 T_eqs] in S1, C1, S2, C2, S3, C3.
  assert (EQ2 : forall s, a < s -> a' < s -> s < b -> s < b' -> z s = y s).
  { intros s Q1 Q2 Q3 Q4. symmetry. apply (C110_time 0 U te y z a b a' b' t_i B Bz); try lra. symmetry; exact Ez. }
  (* no collapse *)
  assert (T3 : t3 = []).
  { destruct t3 as [|t t3]; [reflexivity|]. exfalso. destruct (S3 t (or_introl eq_refl)) as (X1 & X2 & _). destruct (proj2 Bz t ltac:(lra)) as (X3 & _). lra. }
  subst t3.
  (* the run does not go past the end of inflation *)
  assert (TE1 : T <= tE).
  { apply Rnot_lt_le. intros X. assert (IN1 : In tE t1).
    { apply C1; [lra|]. right. split; [lia|]. destruct FT as (F0 & d & Hd & F). split; [rewrite Rminus_0_r, EQ2 by lra; exact F0|].
      exists (Rmin d (Rmin (tE - t_i) (Rmin (b - tE) (b' - tE)))).
      pose proof (Rmin_l d (Rmin (tE - t_i) (Rmin (b - tE) (b' - tE)))). pose proof (Rmin_r d (Rmin (tE - t_i) (Rmin (b - tE) (b' - tE)))). pose proof (Rmin_l (tE - t_i) (Rmin (b - tE) (b' - tE))). pose proof (Rmin_r (tE - t_i) (Rmin (b - tE) (b' - tE))).
      pose proof (Rmin_l (b - tE) (b' - tE)). pose proof (Rmin_r (b - tE) (b' - tE)).
      split; [repeat apply Rmin_glb_lt; lra|]. intros s.
      split; intros Hs; rewrite Rminus_0_r; (rewrite EQ2 by lra); apply (F s); lra. }
    destruct (S1 tE IN1) as (_ & _ & Q). specialize (Q eq_refl). lra. }
  (* nor past the e-fold number at which the shooting gives up *)
  assert (NZ : T_N te z t_i = N_i) by (unfold T_N; rewrite Ez; exact N1).
  assert (NTOP : T_N te z T <= N_i + M).
  { assert (X : z T = y T) by (apply EQ2; lra). unfold T_N at 1. rewrite X. change (T_N te y T <= N_i + M). rewrite <- N2.
    destruct (Req_dec T tE) as [->|NE]; [lra|]. left. apply (T_N_lt U te y a b T tE B); lra. }
  assert (TU : T_N te z T <= until).
  { apply Rnot_lt_le. intros X. destruct (ivt (T_N te z) t_i T until ltac:(lra)) as (u & Hu & NU).
    - apply (deriv_cont _ (T_Hub 0 U te z)). intros s Hs. apply (T_comps 0 U te z a' b' Bz s ltac:(lra)).
    - rewrite Rmin_left, Rmax_right by (unfold until in *; lra). unfold until in *; lra.
    - assert (Hu1 : t_i < u < T) by (split; apply Rnot_le_lt; intros Y; [assert (u = t_i) by lra|assert (u = T) by lra]; subst u; unfold until in *; lra).
      assert (IN2 : In u t2).
      { apply C2; [exact Hu1|]. left. split; [lia|]. change (rises_through (fun s => T_N te z s - until) u). split; [rewrite NU; ring|]. exists (Rmin (u - a') (b' - u)).
        pose proof (Rmin_l (u - a') (b' - u)). pose proof (Rmin_r (u - a') (b' - u)). split; [apply Rmin_glb_lt; lra|].
        intros s. split; intros Hs; [pose proof (T_N_lt U te z a' b' s u Bz ltac:(lra) ltac:(lra) ltac:(lra))|pose proof (T_N_lt U te z a' b' u s Bz ltac:(lra) ltac:(lra) ltac:(lra))]; lra. }
      destruct (S2 u IN2) as (_ & _ & Q). specialize (Q eq_refl). lra. }
  assert (G0 : forall t, t_i < t <= T -> T_inflating U te t (z t) - 0 = 0 -> t = tE).
  { intros t Ht Q. destruct (Req_dec t tE) as [|NE]; [assumption|]. exfalso. pose proof (I1 t ltac:(lra)) as X. rewrite EQ2 in Q by lra. lra. }
  assert (R1 : forall t, In t t1 -> t = T) by (intros t Ht; destruct (S1 t Ht) as (_ & _ & Q); exact (Q eq_refl)).
  assert (R2 : forall t, In t t2 -> t = T) by (intros t Ht; destruct (S2 t Ht) as (_ & _ & Q); exact (Q eq_refl)).
  destruct (all_same t1 T ND1 R1) as [X1|X1]; destruct (all_same t2 T ND2 R2) as [X2|X2].
  { exfalso. destruct STOP as [STOP|(i & ev & ts & P1 & P2 & P3 & P4)]; [lra|].
    destruct i as [|[|[|[|i] ] ] ]; cbn in P1, P2; try discriminate; try (destruct i; discriminate); injection P1 as <-; injection P2 as <-; [discriminate P3|rewrite X1 in P4; exact P4|rewrite X2 in P4; exact P4|exact P4]. }
  all: assert (NE : r_t r <> []) by (intros Q; rewrite Q in HH; discriminate).
  all: assert (IV : ivp_ok (List.length (ie_idx q)) 4 r) by (split; [exact NE|]; split; [rewrite RY, map_length; reflexivity|]; rewrite TE, RE; split; [reflexivity|]; split; [reflexivity|];
    intros [|[|[|[|[|j] ] ] ] ] ta ya Q1 Q2; cbn in Q1, Q2; try discriminate; injection Q1 as <-; injection Q2 as <-; rewrite ?map_length; reflexivity).
  all: assert (NL : N_last q r = T_N te z T) by (unfold N_last, efolds; cbn [eqs_ie q]; change (e_N (T_eqs 0 U te)) with (fun (x : R) (y : list R) => var (T_idx te) "_N"%string y); rewrite RY;
    replace (zipw (fun (_ : R) (y : list R) => var (T_idx te) "_N"%string y) (r_t r) (map z (r_t r))) with (map (T_N te z) (r_t r)) by (clear; induction (r_t r) as [|x l IH]; [reflexivity|cbn; rewrite <- IH; reflexivity]);
    rewrite (last_map_nn (T_N te z) (r_t r) t_i 0 NE), HLt; reflexivity).
  all: assert (HY : hd_error (r_y r) = Some (y t_i)) by (rewrite RY; destruct (r_t r) as [|x l]; [discriminate|]; cbn in HH |- *; injection HH as ->; rewrite Ez; reflexivity).
  all: assert (RC : recorded is_collapse (shoot_events until) r = []) by (unfold recorded; rewrite TE, RE; reflexivity).
  all: assert (RU : recorded is_untilN (shoot_events until) r = combine t2 (map z t2)) by (unfold recorded; rewrite TE, RE; reflexivity).
  all: assert (RI : recorded (is_inflation (-1) true) (shoot_events until) r = combine t1 (map z t1)) by (unfold recorded; rewrite TE, RE; reflexivity).
  all: rewrite RI, RU, X1, X2; cbn [map combine].
  all: split; [split; [exact IV|]; split; [rewrite RU, X2; cbn [map combine]; intros Q; first [exfalso; apply Q; reflexivity|rewrite NL; destruct (S2 T) as (_ & Q2 & _); [rewrite X2; left; reflexivity|unfold T_N; lra] ]|rewrite RI, X1; cbn; lia] |].
  all: split; [exact RC|]; split; [exact HH|]; split; [exact HY|].
  - right. split; [reflexivity|]. split; [discriminate|]. destruct (S2 T) as (_ & Q2 & _); [rewrite X2; left; reflexivity|]. change (T_N te z T - until = 0) in Q2. unfold until in *; lra.
  - left. destruct (S1 T) as (_ & Q1 & _); [rewrite X1; left; reflexivity|]. pose proof (G0 T ltac:(lra) Q1) as TE2. split; [rewrite <- TE2, (EQ2 T) by lra; reflexivity|].
    assert (QN : T_N te z T = N_i + M) by (unfold T_N; rewrite EQ2, TE2 by lra; exact N2). unfold until in *; lra.
  - left. destruct (S1 T) as (_ & Q1 & _); [rewrite X1; left; reflexivity|]. pose proof (G0 T ltac:(lra) Q1) as TE2. split; [rewrite <- TE2, (EQ2 T) by lra; reflexivity|].
    assert (QN : T_N te z T = N_i + M) by (unfold T_N; rewrite EQ2, TE2 by lra; exact N2). unfold until in *; lra.
Qed.
End RunT.
