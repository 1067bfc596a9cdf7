(** The slow-roll start (SlowRollIC) in cosmic time: when and where inflation ends (used for C128, C129). *)
From Coq Require Import Reals List String Lra Lia Classical ZArith.
From Coquelicot Require Import Coquelicot.
From Verif Require Import Base Model.Potentials Model.SlowRoll Model.Equations Model.Background Model.Float Model.Solution Model.InitCond Model.Events
  Spec.PotentialSpec Spec.SlowRollSpec Spec.BackgroundSpec Spec.SolutionSpec Spec.ExactRun Spec.ExactRunT Proofs.PhiEnd Proofs.SRN Proofs.Bracket Proofs.BackgroundT Proofs.BackgroundN Proofs.BackgroundTN Proofs.BackgroundEx Proofs.FloatLemmas Proofs.Unique
  Proofs.PostProc Proofs.SlowRollBound Proofs.Roll Proofs.RollEnd Proofs.FastRoll Proofs.StartCont Proofs.StartMono Proofs.ShootRun Proofs.ShootRunT Proofs.RunFallsSR Properties.BackgroundProps Properties.InitProps Properties.UniqueProps Properties.SlowRollBoundProps Properties.ExistenceProps Properties.InflationEndsProps
  Properties.StartEndsProps.
Import ListNotations.
Open Scope R_scope.

(** the components SlowRollIC writes in cosmic time (see also sr_start_T) *)
Lemma sr_written_T U te phi t_i eta_i x_end N_i ic y0 y1 : 0 < pV U phi -> sr_init (IT 0 U te) phi t_i eta_i x_end (kw_of (InN N_i)) = Ok ic ->
  List.length y0 = List.length (T_idx te) -> sr_call ic y0 = Ok (map Fin y1) -> var (T_idx te) "_N" y1 = N_i /\ List.length y1 = List.length (T_idx te).
Proof.
  intros V0 SI LY SC.
  assert (HP : 0 < pV U phi / 3 * exp (2 * N_i) - 0) by (pose proof (exp_pos (2 * N_i)); rewrite Rminus_0_r; apply Rmult_lt_0_compat; lra).
  rewrite (sr_from_N (IT 0 U te) phi t_i eta_i x_end N_i HP) in SI. injection SI as <-.
  unfold sr_call, sr_obj in SC. cbn [ic_eqs ic_dphi ic_N ic_phi ic_eta ie_te ie_idx ie_U ie_K attr_of bind] in SC.
  assert (BA : forall {A B D} (x : res A) (f : A -> res B) (g : B -> res D), bind (bind x f) g = bind x (fun u => bind (f u) g)) by (intros A B D [u|u] f g; reflexivity).
  rewrite BA in SC. destruct (wrote_T (K := 0) (U := U) LY SC) as (A1 & _ & _ & A3 & _). injection A3 as A3. split; [symmetry; exact A3|exact A1].
Qed.

(** a sign change of the inflation indicator is a sign change in cosmic time *)
Lemma falls_time U te z y a' b' nu tE N_end : T_background 0 U te y a' b' -> a' < tE < b' ->
  (forall t, a' < t < b' -> T_inflating U te t (y t) = N_inflating 0 U true te (nu t) (z (nu t)) /\ T_N te y t = nu t) ->
  (forall s t, a' < s -> s < t -> t < b' -> nu s < nu t) -> nu tE = N_end ->
  falls_through (fun n => N_inflating 0 U true te n (z n)) N_end -> falls_through (fun s => T_inflating U te s (y s)) tE.
Proof.
  intros BT HtE Q MO J2 FN.
  destruct FN as (FN0 & d & Hd & FN). cbv beta in FN0, FN.
  split; [cbv beta; destruct (Q tE ltac:(lra)) as (-> & _); rewrite J2; exact FN0|].
  assert (CN : continuity_pt (T_N te y) tE).
  { apply derivable_continuous_pt. exists (T_Hub 0 U te y tE). apply is_derive_Reals. apply (T_comps 0 U te y a' b' BT tE ltac:(lra)). }
  destruct (CN d Hd) as (d1 & Hd1 & CN1). cbn in CN1. unfold R_dist in CN1.
  exists (Rmin d1 (Rmin (tE - a') (b' - tE))). pose proof (Rmin_l d1 (Rmin (tE - a') (b' - tE))). pose proof (Rmin_r d1 (Rmin (tE - a') (b' - tE))).
  pose proof (Rmin_l (tE - a') (b' - tE)). pose proof (Rmin_r (tE - a') (b' - tE)).
  split; [repeat apply Rmin_glb_lt; lra|].
  assert (NEAR : forall s, tE - Rmin d1 (Rmin (tE - a') (b' - tE)) < s < tE + Rmin d1 (Rmin (tE - a') (b' - tE)) -> s <> tE -> a' < s < b' /\ Rabs (nu s - N_end) < d).
  { intros s Hs NEs. assert (Hs' : a' < s < b') by lra. split; [exact Hs'|]. destruct (Q s Hs') as (_ & <-). destruct (Q tE ltac:(lra)) as (_ & QE). rewrite J2 in QE. rewrite <- QE.
    apply CN1. split; [split; [exact I|lra]|]. apply Rabs_def1; lra. }
  intros s. split; intros Hs; (destruct (NEAR s ltac:(lra) ltac:(lra)) as (Hs' & NR)); apply Rabs_def2 in NR; destruct (Q s Hs') as (-> & _).
  - pose proof (MO s tE ltac:(lra) ltac:(lra) ltac:(lra)) as X. rewrite J2 in X. apply (FN (nu s)). lra.
  - pose proof (MO tE s ltac:(lra) ltac:(lra) ltac:(lra)) as X. rewrite J2 in X. apply (FN (nu s)). lra.
Qed.

Section Core.
Variables (P : pot) (L e N_i t_i : R) (te : bool).
Let U := potfun_of P L.
Hypotheses (HF : featureless P) (HV : valid P) (HL : L <> 0) (HD : dw_ge1 P).
Hypotheses (Be : branch P e) (Ee : eps1V P e = 1) (Ne : Nfun P e e = 0).

Lemma time_core_sr phi y1 : branch P phi -> e < phi ->
  var (T_idx te) "phi" y1 = phi -> var (T_idx te) "dphidt" y1 = - dV P L phi / (3 * sqrt (V P L phi / 3)) -> var (T_idx te) "_N" y1 = N_i -> List.length y1 = List.length (T_idx te) ->
  let M0 := phi * V P L phi / dV P L phi * sqrt (1 + eps1V P phi / 3) in
  exists y a b tE, a < t_i < tE /\ tE < b /\ T_background 0 U te y a b /\ y t_i = y1 /\
    (forall t, t_i <= t < tE -> 0 < T_inflating U te t (y t)) /\ T_inflating U te tE (y tE) = 0 /\
    falls_through (fun s => T_inflating U te s (y s)) tE /\ T_N te y t_i = N_i /\
    Nfun P e phi <= T_N te y tE - N_i <= M0 /\
    (T_N te y tE - N_i) / sqrt (V P L phi / 2) <= tE - t_i <= M0 * (sqrt (3 / V P L phi) * exp (1 / 2 + M0)) /\
    branch P (T_phi te y tE) /\ T_phi te y tE < e.
Proof.
  intros HB LE E1 E2 E3 L1 M0.
  destruct (branch_pos P L phi HF HV HL HB) as [V0 V1]. pose proof (Rdiv_lt_0_compat _ _ V1 V0) as LP. pose proof (branch_gt0 P phi HB) as PG.
  set (v := V P L phi) in *. set (v1 := dV P L phi) in *. set (r := sqrt (v / 3)) in *.
  assert (R0 : 0 < r) by (apply sqrt_lt_R0; lra). assert (R2 : r * r = v / 3) by (apply sqrt_sqrt; lra).
  set (w := sqrt (1 + eps1V P phi / 3)) in *.
  assert (EP : eps1V P phi = (v1 / v)^2 / 2) by (pose proof (branch_lam2 P L HF HV HL phi HB) as W; fold v v1 in W; lra).
  assert (E0 : 0 <= eps1V P phi) by (rewrite EP; pose proof (pow2_ge_0 (v1 / v)); lra).
  assert (W2 : w * w = 1 + eps1V P phi / 3) by (apply sqrt_sqrt; lra). assert (W0 : 0 < w) by (apply sqrt_lt_R0; lra). assert (W1 : 1 <= w) by nra.
  set (v_i := - (v1 / v) / w).
  assert (VI : - (dV P L phi / V P L phi) <= v_i < 0).
  { fold v v1. unfold v_i. assert (X : 0 < v1 / v / w) by (apply Rdiv_lt_0_compat; assumption).
    assert (Y : v1 / v / w <= v1 / v). { apply Rmult_le_reg_r with w; [exact W0|]. replace (v1 / v / w * w) with (v1 / v) by (field; lra). nra. }
    replace (- (v1 / v) / w) with (- (v1 / v / w)) by (field; lra). lra. }
  assert (EM0 : phi / - v_i = M0) by (unfold M0, v_i; field; lra).
  set (x1 := ([phi; v_i; t_i] ++ (if te then [var (T_idx te) "eta" y1] else []))%list).
  assert (X1 : var (N_idx true te) "phi" x1 = phi) by (unfold x1; destruct te; reflexivity).
  assert (X2 : var (N_idx true te) "dphidN" x1 = v_i) by (unfold x1; destruct te; reflexivity).
  assert (X3 : List.length x1 = List.length (N_idx true te)) by (unfold x1; destruct te; reflexivity).
  assert (X4 : var (N_idx true te) "t" x1 = t_i) by (unfold x1; destruct te; reflexivity).
  destruct (run_core P L true te HF HV HL HD phi v_i N_i x1 HB X1 X2 VI e Be Ee Ne LE X3) as (z & a & b & N_end & A1 & A2 & B & Ez & J & Z & LO & UP).
  change (potfun_of P L) with U in B, J, Z. rewrite EM0 in UP.
  assert (HHI : N_H2 0 U true te N_i x1 = (r * w)^2).
  { unfold N_H2, N_get_H2. rewrite X1, X2. unfold U, potfun_of. cbn [pV]. fold v.
    replace ((r * w)^2) with (r * r * (w * w)) by ring. rewrite R2. unfold v_i. replace ((- (v1 / v) / w)^2) with ((v1 / v)^2 / (w * w)) by (field; lra).
    replace ((v1 / v)^2) with (2 * eps1V P phi) by lra. rewrite W2. field. lra. }
  assert (F1 : N_phi true te z N_i = phi) by (unfold N_phi; rewrite Ez; exact X1). assert (F2 : N_dphi true te z N_i = v_i) by (unfold N_dphi; rewrite Ez; exact X2).
  destruct (sr_stay P L true te HF HV HL HD phi v_i N_i N_end z a b HB VI B A1 A2 F1 F2 J N_end ltac:(lra)) as (BE & _).
  destruct (sr_end P L e true te HF HV HL HD Be Ee phi v_i N_i N_end z a b HB VI B A1 A2 F1 F2 J Z) as (VE & LM & PE).
  pose proof (end_falls P L true te z a b N_i N_end B A1 A2 ltac:(intros n Hn; apply J; lra) Z VE LM) as FN. change (potfun_of P L) with U in FN.
  destruct (to_time U te z a b N_i N_end B A1 A2) as (y & a' & b' & nu & O1 & O2 & BT & Q & MO & J1 & J2). set (tau := N_t true te z) in *.
  assert (TI : tau N_i = t_i) by (unfold tau, N_t; rewrite Ez; exact X4).
  (* how long it takes *)
  assert (LONG : (N_end - N_i) / sqrt (v / 2) <= tau N_end - tau N_i <= M0 * (sqrt (3 / v) * exp (1 / 2 + M0))).
  { destruct (MVT_cor2 tau (fun n => 1 / N_Hub 0 U true te z n) N_i N_end ltac:(lra)) as (c & EQ & Hc).
    { intros c Hc. apply is_derive_Reals. destruct (N_comps 0 U true te z a b B c ltac:(lra)) as [_ [_ [D _] ] ]. exact (D eq_refl). }
    rewrite EQ. clear EQ.
    assert (BE' : N_background 0 U true te z a N_end) by (apply (N_restrict 0 U true te z a b); [exact B|lra|lra]).
    destruct (run_stay P L true te HF HV HL HD phi v_i N_i x1 HB X1 X2 VI z a N_end BE' ltac:(lra) Ez J c ltac:(lra)) as (_ & PH & _ & VL).
    rewrite EM0 in VL. fold v in VL.
    destruct (N_flow P L true te z a b B c ltac:(lra)) as (_ & _ & _ & _ & FR & HP & _). cbv beta in FR. change (potfun_of P L) with U in FR, HP.
    assert (NI : 0 <= V P L (N_phi true te z c) - (N_Hub 0 U true te z c * N_dphi true te z c)^2).
    { pose proof (InflationEndsProps.run_infl P L true te z a b B c ltac:(lra)) as RI. cbv beta in RI. change (potfun_of P L) with U in RI. pose proof (J c ltac:(lra)) as X. rewrite RI in X. left. exact X. }
    assert (BC : branch P (N_phi true te z c)).
    { destruct (branch_room P HF HV HD phi HB) as (rm & Hrm & RM). apply RM. lra. }
    assert (VJ : V P L (N_phi true te z c) <= v) by (apply (V_incr P L _ _ HF HV HL BC HB); lra).
    apply (time_bounds v (N_Hub 0 U true te z c) (V P L (N_phi true te z c)) (N_Hub 0 U true te z c * N_dphi true te z c)); try assumption; lra. }
  rewrite TI in *. set (tE := tau N_end) in *.
  assert (Y1 : y t_i = y1).
  { destruct (Q t_i ltac:(lra)) as (_ & -> & _). rewrite J1, Ez. unfold state_N2T. rewrite X1, X2, HHI. rewrite sqrt_pow2 by (apply Rmult_le_pos; lra).
    replace (v_i * (r * w)) with (var (T_idx te) "dphidt" y1).
    2: { rewrite E2. unfold v_i. replace v with (3 * (r * r)) by lra. field. lra. }
    rewrite <- E3, <- E1. destruct te; cbn in L1.
    - destruct (len4 y1 L1) as (u & p & n & et & ->). reflexivity.
    - destruct (len3 y1 L1) as (u & p & n & ->). reflexivity. }
  assert (NT1 : T_N te y t_i = N_i) by (destruct (Q t_i ltac:(lra)) as (_ & _ & _ & ->); exact J1).
  assert (NT2 : T_N te y tE = N_end) by (destruct (Q tE ltac:(lra)) as (_ & _ & _ & ->); exact J2).
  assert (PT : T_phi te y tE = N_phi true te z N_end).
  { destruct (Q tE ltac:(lra)) as (_ & QY & _). rewrite J2 in QY. unfold T_phi. rewrite QY. destruct te; reflexivity. }
  exists y, a', b', tE. split; [lra|]. split; [exact O2|]. split; [exact BT|]. split; [exact Y1|].
  split.
  { intros t Ht. destruct (Q t ltac:(lra)) as (Q1 & _ & -> & _). apply J. pose proof (MO t tE ltac:(lra) ltac:(lra) ltac:(lra)).
    destruct (Req_dec t t_i) as [->|NE]; [lra|]. pose proof (MO t_i t ltac:(lra) ltac:(lra) ltac:(lra)). lra. }
  split; [destruct (Q tE ltac:(lra)) as (_ & _ & -> & _); rewrite J2; exact Z|].
  split.
  { apply (falls_time U te z y a' b' nu tE N_end BT ltac:(lra)); [intros t Ht; destruct (Q t Ht) as (_ & _ & X & Y); split; [exact X|exact Y]|exact MO|exact J2|exact FN]. }
  split; [exact NT1|]. rewrite NT2, PT. split; [split; [exact LO|exact UP]|]. split; [exact LONG|]. split; [exact BE|exact PE].
Qed.
End Core.
