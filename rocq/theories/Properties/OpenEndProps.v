(** C120 in open universes (K <= 0): inflation started by SlowRollIC happens, and ends. *)
From Coq Require Import Reals Ranalysis5 List String Lra Lia Classical.
From Coquelicot Require Import Coquelicot.
From Verif Require Import Base Model.Potentials Model.SlowRoll Model.Equations Model.Background Model.Float Model.Solution Model.InitCond
  Spec.PotentialSpec Spec.SlowRollSpec Spec.BackgroundSpec Proofs.PhiEnd Proofs.SRN Proofs.Bracket Proofs.BackgroundT Proofs.BackgroundN Proofs.BackgroundEx Proofs.FloatLemmas Proofs.Unique
  Proofs.SlowRollBound Proofs.Roll Proofs.RollEnd Proofs.OpenFlow Properties.BackgroundProps Properties.UniqueProps Properties.InitProps Properties.SlowRollBoundProps Properties.ExistenceProps
  Properties.InflationEndsProps Properties.OpenRollProps.
Import ListNotations.
Open Scope R_scope.

(** what V > (dphi/dt)^2 says about the rate v = dphi/dN, with k = -K/a^2 *)
Lemma infl_point h v k w : 0 < h -> 0 <= k -> w = 3 * h^2 - (h * v)^2 / 2 - 3 * k -> 0 < w - (h * v)^2 ->
  (h * v)^2 < 2 * (h^2 - k) /\ v^2 < 2 /\ 2 * (h^2 - k) < w /\ k < h^2.
Proof.
  intros Hh Hk Hw I. rewrite Rpow_mult_distr in *. assert (H2 : 0 < h^2) by (apply pow_lt; exact Hh). pose proof (pow2_ge_0 v) as V2.
  assert (A : h^2 * v^2 < 2 * (h^2 - k)) by lra. assert (0 <= h^2 * v^2) by (apply Rmult_le_pos; lra).
  split; [exact A|]. split; [|lra]. apply Rmult_lt_reg_l with (h^2); [exact H2|lra].
Qed.
(** the speed cannot drop below a fixed rate *)
Lemma rate_rises h v k w1 w lm li ki d : 0 < h -> 0 <= k <= ki * h^2 -> ki < 1 -> w = 3 * h^2 - (h * v)^2 / 2 - 3 * k -> 0 < w - (h * v)^2 ->
  w1 = lm * w -> 0 < li <= lm -> 0 < d <= li * (1 - ki) / 2 -> - d <= v <= 0 ->
  0 <= (- (v^2 / 2 + k / h^2) + 3) * v + w1 / h^2.
Proof.
  intros Hh [K0 K1] KI Hw I Hw1 HLI HD Hv. assert (H2 : 0 < h^2) by (apply pow_lt; exact Hh).
  destruct (infl_point h v k w Hh K0 Hw I) as (_ & V2 & WB & KH).
  set (kp := k / h^2). assert (KP : 0 <= kp <= ki). { unfold kp. split; [apply Rmult_le_pos; [lra|left; apply Rinv_0_lt_compat, H2]|]. apply Rmult_le_reg_r with (h^2); [exact H2|]. replace (k / h^2 * h^2) with k by (field; lra). exact K1. }
  assert (WH : 2 * (1 - kp) <= w / h^2). { unfold kp. apply Rmult_le_reg_r with (h^2); [exact H2|]. replace (w / h^2 * h^2) with w by (field; lra). replace (2 * (1 - k / h^2) * h^2) with (2 * (h^2 - k)) by (field; lra). lra. }
  replace (w1 / h^2) with (lm * (w / h^2)) by (rewrite Hw1; field; lra). set (W := w / h^2) in *. clearbody W kp.
  assert (A : 2 * (1 - ki) <= W) by lra. assert (B : li * (2 * (1 - ki)) <= lm * W) by (apply Rmult_le_compat; lra).
  pose proof (pow2_ge_0 v). assert (C : - 3 * d <= (- (v^2 / 2 + kp) + 3) * v).
  { assert (0 <= - v * (v^2 / 2 + kp)) by (apply Rmult_le_pos; lra). replace ((- (v ^ 2 / 2 + kp) + 3) * v) with (- v * (v^2 / 2 + kp) + 3 * v) by ring. lra. }
  lra.
Qed.

Section Run.
Variables (P : pot) (L K : R) (tm te : bool).
Let U := potfun_of P L.
Hypotheses (HF : featureless P) (HV : valid P) (HL : L <> 0) (HD : dw_ge1 P) (HK : K <= 0).
Variables (phi_i v_i N_i : R) (y1 : list R).
Hypothesis HB : branch P phi_i.
Hypothesis E1 : var (N_idx tm te) "phi" y1 = phi_i.
Hypothesis E2 : var (N_idx tm te) "dphidN" y1 = v_i.
Let lam := dV P L phi_i / V P L phi_i.
Hypothesis VI : - lam <= v_i < 0.
Hypothesis L2 : v_i^2 < 2.
Let h2 := N_H2 K U tm te N_i y1.
Let k (s : R) := - K * exp (-2 * s).
Let ki := k N_i / h2.
Let dl := Rmin (- v_i) (lam * (1 - ki) / 2).
Let M0 := phi_i / dl.
Lemma ok_k s : 0 <= k s.
Proof. unfold k. pose proof (exp_pos (-2 * s)). apply Rmult_le_pos; lra. Qed.
Lemma ok_h2 : 0 < h2 /\ (6 - v_i^2) * h2 = 2 * V P L phi_i + 6 * k N_i /\ 0 <= ki < 1.
Proof.
  destruct (branch_pos P L phi_i HF HV HL HB) as [V0 V1]. pose proof (ok_k N_i) as KP.
  assert (F : (6 - v_i^2) * h2 = 2 * V P L phi_i + 6 * k N_i).
  { unfold h2, N_H2, N_get_H2, k. rewrite E1, E2. unfold U, potfun_of. cbn [pV]. field. lra. }
  assert (H0 : 0 < h2) by (apply Rmult_lt_reg_l with (6 - v_i^2); [lra|rewrite F; lra]).
  split; [exact H0|]. split; [exact F|]. unfold ki. split; [apply Rmult_le_pos; [lra|left; apply Rinv_0_lt_compat, H0]|].
  apply Rmult_lt_reg_r with h2; [exact H0|]. replace (k N_i / h2 * h2) with (k N_i) by (field; lra). pose proof (pow2_ge_0 v_i). nra.
Qed.
Lemma ok_dl : 0 < lam /\ 0 < dl /\ dl <= - v_i /\ dl <= lam * (1 - ki) / 2.
Proof.
  destruct (branch_pos P L phi_i HF HV HL HB) as [V0 V1]. destruct ok_h2 as (_ & _ & KI).
  assert (LP : 0 < lam) by (apply Rdiv_lt_0_compat; assumption).
  assert (0 < lam * (1 - ki)) by (apply Rmult_lt_0_compat; lra).
  unfold dl, Rmin. destruct (Rle_dec _ _); lra.
Qed.
Lemma ok_M0 : 0 < M0.
Proof. pose proof (branch_gt0 P phi_i HB) as G. pose proof ok_dl. unfold M0. apply Rdiv_lt_0_compat; [exact G|lra]. Qed.
Section One.
Variables (y : R -> list R) (a b : R).
Hypothesis B : N_background K U tm te y a b.
Hypothesis HT : a < N_i < b.
Hypothesis Ey : y N_i = y1.
Let Hf := N_Hub K U tm te y.
Let q (s : R) := Hf s * N_dphi tm te y s.
Lemma orun_infl s : a < s < b -> N_inflating K U tm te s (y s) = V P L (N_phi tm te y s) - (q s)^2.
Proof.
  intros Hs. unfold N_inflating, q. rewrite Rpow_mult_distr. unfold Hf, N_Hub. rewrite pow2_sqrt; [reflexivity|].
  destruct B as [_ Q]. left. apply (Q s Hs).
Qed.
Lemma orun_cont c : c < b -> cont_in (fun s => V P L (N_phi tm te y s) - (q s)^2) N_i c.
Proof.
  intros Hc s Hs. destruct (NK_flow P L K tm te y a b HK B s ltac:(lra)) as (D1 & D2 & _). destruct B as [_ Q]. destruct (Q s ltac:(lra)) as (_ & _ & SM & _).
  cbn [U potfun_of pV pdV] in SM.
  apply (ex_derive_continuous (fun s => V P L (N_phi tm te y s) - (q s)^2)). fold Hf in D1, D2. fold q in D1, D2.
  auto_derive. repeat split; try (eexists; eassumption).
Qed.
Lemma orun_V s : a < s < b -> V P L (N_phi tm te y s) = 3 * (Hf s)^2 - (Hf s * N_dphi tm te y s)^2 / 2 - 3 * k s.
Proof.
  intros Hs. pose proof (N_V K U tm te y a b B s Hs) as X. change (pV U (N_phi tm te y s)) with (V P L (N_phi tm te y s)) in X.
  rewrite X. fold Hf. unfold k. ring.
Qed.
Lemma orun_h : Hf N_i ^ 2 = h2.
Proof. unfold Hf, N_Hub. rewrite Ey. fold h2. apply pow2_sqrt. left. apply ok_h2. Qed.
Lemma orun_phi_i : N_phi tm te y N_i = phi_i.
Proof. unfold N_phi. rewrite Ey. exact E1. Qed.
Lemma orun_v_i : N_dphi tm te y N_i = v_i.
Proof. unfold N_dphi. rewrite Ey. exact E2. Qed.
Lemma orun_q0 : q N_i < 0.
Proof.
  unfold q. rewrite orun_v_i. destruct (N_pos K U tm te y a b B N_i HT) as (HP & _). fold Hf in HP. nra.
Qed.
Section Upto.
Variable n : R.
Hypothesis Hn : N_i <= n < b.
Hypothesis INF : forall s, N_i <= s <= n -> 0 < V P L (N_phi tm te y s) - (q s)^2.
Lemma ost_pos s : N_i <= s <= n -> 0 < N_phi tm te y s.
Proof.
  intros Hs. destruct (Rlt_dec 0 (N_phi tm te y s)) as [|A]; [assumption|]. exfalso. pose proof (branch_gt0 _ _ HB) as G.
  assert (CO : cont_in (N_phi tm te y) N_i s).
  { intros r Hr. apply (ex_derive_continuous (N_phi tm te y)). destruct (N_comps K U tm te y a b B r ltac:(lra)) as (D & _). eexists. exact D. }
  destruct (first_hit (N_phi tm te y) N_i s 0 ltac:(lra) CO ltac:(rewrite orun_phi_i; lra) ltac:(lra)) as (r & Hr & Er & _).
  pose proof (INF r ltac:(lra)) as I0. rewrite Er, (V_at_0 P L HF HV HD) in I0. pose proof (pow2_ge_0 (q r)). lra.
Qed.
Lemma ost_branch s : N_i <= s <= n -> N_phi tm te y s <= phi_i /\ branch P (N_phi tm te y s).
Proof.
  intros Hs. rewrite <- orun_phi_i.
  apply (oroll_branch P L HF HV HL HD (N_phi tm te y) q (fun x => x) Hf (fun s => / Hf s) N_i b) with (t1 := n); try assumption.
  - intros r Hr. apply (NK_flow P L K tm te y a b HK B r). lra.
  - rewrite orun_phi_i. exact HB.
  - left. exact orun_q0.
  - exact ost_pos.
Qed.
Lemma ost_v0 s : N_i <= s <= n -> N_dphi tm te y s <= 0.
Proof.
  intros Hs. destruct (N_pos K U tm te y a b B s ltac:(lra)) as (HP & _). fold Hf in HP.
  assert (X : q s <= 0).
  { apply (ofl_falls_le (N_phi tm te y) q (fun x => x) Hf (fun s => / Hf s) (V P L) (dV P L) N_i s); [| |left; exact orun_q0|lra].
    - intros r Hr. apply (NK_flow P L K tm te y a b HK B r). lra.
    - intros r Hr. apply branch_pos; try assumption. apply ost_branch. lra. }
  unfold q in X. destruct (Rle_dec (N_dphi tm te y s) 0) as [|Y]; [assumption|]. exfalso. nra.
Qed.
Lemma ost_aH s : N_i <= s <= n -> exp N_i * Hf N_i <= exp s * Hf s.
Proof.
  intros Hs. apply (mono_up (fun u => exp u * Hf u) (fun u => exp u * (Hf u + N_dH K U tm te y u))); [| |lra].
  - intros u Hu. pose proof (N_H_derive K U tm te y a b B u ltac:(lra)) as D. fold Hf in D. evar_last; [auto_derive; [repeat split; exd|reflexivity]|]. undd. toR. ring.
  - intros u Hu. apply Rmult_le_pos; [left; apply exp_pos|]. destruct (N_pos K U tm te y a b B u ltac:(lra)) as (HP & _). fold Hf in HP.
    assert (DH : N_dH K U tm te y u = - Hf u * (N_dphi tm te y u)^2 / 2 - k u / Hf u) by (unfold N_dH, N_get_dH, k; fold Hf; field; lra).
    destruct (infl_point (Hf u) (N_dphi tm te y u) (k u) _ HP (ok_k u) (orun_V u ltac:(lra)) (INF u ltac:(lra))) as (A & _).
    rewrite DH. apply Rmult_le_reg_l with (Hf u); [exact HP|]. rewrite Rmult_0_r.
    replace (Hf u * (Hf u + (- Hf u * N_dphi tm te y u ^ 2 / 2 - k u / Hf u))) with (Hf u ^ 2 - k u - (Hf u * N_dphi tm te y u)^2 / 2) by (field; lra). lra.
Qed.
Lemma ost_H2 s : N_i <= s <= n -> exp (2 * N_i) * h2 <= exp (2 * s) * (Hf s)^2.
Proof.
  intros Hs. pose proof (ost_aH s Hs) as X. destruct (N_pos K U tm te y a b B N_i HT) as (HP & _). fold Hf in HP.
  pose proof (exp_pos N_i) as E0. assert (Z : 0 <= exp N_i * Hf N_i) by (apply Rmult_le_pos; lra).
  rewrite <- orun_h. replace (exp (2 * N_i)) with (exp N_i * exp N_i) by (rewrite <- exp_plus; f_equal; ring). replace (exp (2 * s)) with (exp s * exp s) by (rewrite <- exp_plus; f_equal; ring).
  pose proof (Rmult_le_compat _ _ _ _ Z Z X X) as Y.
  replace (exp N_i * exp N_i * Hf N_i ^ 2) with (exp N_i * Hf N_i * (exp N_i * Hf N_i)) by ring. replace (exp s * exp s * Hf s ^ 2) with (exp s * Hf s * (exp s * Hf s)) by ring. exact Y.
Qed.
Lemma ost_k s : N_i <= s <= n -> 0 <= k s <= ki * (Hf s)^2.
Proof.
  intros Hs. split; [apply ok_k|]. destruct ok_h2 as (H0 & _ & K0 & _).
  pose proof (Rmult_le_compat_l ki _ _ K0 (ost_H2 s Hs)) as X.
  assert (EX : forall u, exp (-2 * u) * exp (2 * u) = 1) by (intros u; rewrite <- exp_plus; replace (-2 * u + 2 * u) with 0 by ring; apply exp_0).
  replace (ki * (exp (2 * N_i) * h2)) with (- K) in X.
  2: { unfold ki, k. replace (- K * exp (-2 * N_i) / h2 * (exp (2 * N_i) * h2)) with (- K * (exp (-2 * N_i) * exp (2 * N_i))) by (field; lra). rewrite EX. ring. }
  unfold k. pose proof (exp_pos (-2 * s)) as E0. apply (Rmult_le_compat_r (exp (-2 * s))) in X; [|lra].
  replace (ki * (exp (2 * s) * Hf s ^ 2) * exp (-2 * s)) with (ki * Hf s ^ 2 * (exp (-2 * s) * exp (2 * s))) in X by ring. rewrite EX in X. lra.
Qed.
Lemma ost_lam s : N_i <= s <= n -> lam <= dV P L (N_phi tm te y s) / V P L (N_phi tm te y s).
Proof.
  intros Hs. destruct (ost_branch s Hs) as [LE Bs]. destruct (branch_pos P L _ HF HV HL Bs) as [V0 V1]. pose proof (Rdiv_lt_0_compat _ _ V1 V0) as LP.
  destruct (Req_dec (N_phi tm te y s) phi_i) as [X|X]; [rewrite X; unfold lam; lra|].
  pose proof (eps1_decr P _ _ HF HV HD Bs HB ltac:(lra)) as EE.
  pose proof (branch_lam2 P L HF HV HL _ Bs) as A1. pose proof (branch_lam2 P L HF HV HL _ HB) as A2. fold lam in A2. pose proof ok_dl as (LP' & _).
  set (l2 := dV P L (N_phi tm te y s) / V P L (N_phi tm te y s)) in *. clearbody l2. apply Rnot_lt_le. intros Y. nra.
Qed.
Lemma ost_rate s : N_i <= s <= n -> N_dphi tm te y s <= - dl.
Proof.
  intros Hs. destruct ok_dl as (LP & D0 & D1 & D2). destruct ok_h2 as (_ & _ & KI).
  assert (X : 0 <= - N_dphi tm te y s - dl); [|lra].
  apply (stays_nonneg (fun u => - N_dphi tm te y u - dl) (fun u => - N_d2phi K U tm te y u) 0 N_i s); [lra| | |cbv beta; rewrite orun_v_i; lra].
  - intros u Hu. destruct (N_comps K U tm te y a b B u ltac:(lra)) as (_ & D & _). evar_last; [auto_derive; [repeat split; exd|reflexivity]|]. undd. toR. ring.
  - intros u Hu G. rewrite Rmult_0_l. rewrite (N_d2phi_eq K U tm te y a b B u) by lra. fold Hf.
    destruct (N_pos K U tm te y a b B u ltac:(lra)) as (HP & _). fold Hf in HP.
    destruct (ost_branch u ltac:(lra)) as [_ Bu]. destruct (branch_pos P L _ HF HV HL Bu) as [V0 V1].
    assert (DH : N_dH K U tm te y u / Hf u = - ((N_dphi tm te y u)^2 / 2 + k u / (Hf u)^2)) by (unfold N_dH, N_get_dH, k; fold Hf; field; lra).
    rewrite DH. change (pdV U (N_phi tm te y u)) with (dV P L (N_phi tm te y u)).
    pose proof (rate_rises (Hf u) (N_dphi tm te y u) (k u) (dV P L (N_phi tm te y u)) (V P L (N_phi tm te y u)) (dV P L (N_phi tm te y u) / V P L (N_phi tm te y u)) lam ki dl HP (ost_k u ltac:(lra)) (proj2 KI) (orun_V u ltac:(lra)) (INF u ltac:(lra)) ltac:(field; lra)) as R.
    assert (G' : - dl <= N_dphi tm te y u) by lra.
    assert (R' := R (conj LP (ost_lam u ltac:(lra))) (conj D0 D2) (conj G' (ost_v0 u ltac:(lra)))).
    lra.
Qed.
Lemma ost_count : n - N_i < M0.
Proof.
  destruct ok_dl as (LP & D0 & _). pose proof (ost_pos n ltac:(lra)) as PN.
  assert (X : N_phi tm te y n + dl * n <= N_phi tm te y N_i + dl * N_i).
  { apply (mono_dn (fun u => N_phi tm te y u + dl * u) (fun u => N_dphi tm te y u + dl)); [| |lra].
    - intros u Hu. destruct (N_comps K U tm te y a b B u ltac:(lra)) as (D & _). evar_last; [auto_derive; [repeat split; exd|reflexivity]|]. undd. toR. ring.
    - intros u Hu. pose proof (ost_rate u Hu). lra. }
  rewrite orun_phi_i in X. unfold M0. apply Rmult_lt_reg_r with dl; [exact D0|]. replace (phi_i / dl * dl) with phi_i by (field; lra). lra.
Qed.
Lemma ost_Vlow : 2 * (1 - ki) * h2 * exp (-2 * M0) <= V P L (N_phi tm te y n).
Proof.
  destruct (N_pos K U tm te y a b B n ltac:(lra)) as (HP & _). fold Hf in HP. destruct ok_h2 as (H0 & _ & KI).
  destruct (infl_point (Hf n) (N_dphi tm te y n) (k n) _ HP (ok_k n) (orun_V n ltac:(lra)) (INF n ltac:(lra))) as (_ & _ & A & _).
  pose proof (ost_k n ltac:(lra)) as KN. pose proof (ost_H2 n ltac:(lra)) as X. pose proof ost_count as CN.
  assert (Y : h2 * exp (-2 * M0) <= (Hf n)^2).
  { apply (Rmult_le_compat_l (exp (-2 * n))) in X; [|left; apply exp_pos]. rewrite <- !Rmult_assoc, <- !exp_plus in X.
    replace (-2 * n + 2 * n) with 0 in X by ring. rewrite exp_0, Rmult_1_l in X. eapply Rle_trans; [|exact X]. rewrite Rmult_comm. apply Rmult_le_compat_r; [lra|]. left. apply exp_increasing. lra. }
  assert (Z : 2 * (1 - ki) * (h2 * exp (-2 * M0)) <= 2 * (1 - ki) * (Hf n)^2) by (apply Rmult_le_compat_l; lra). lra.
Qed.
Lemma ost_v2 : - sqrt 2 <= N_dphi tm te y n.
Proof.
  destruct (N_pos K U tm te y a b B n ltac:(lra)) as (HP & _). fold Hf in HP.
  destruct (infl_point (Hf n) (N_dphi tm te y n) (k n) _ HP (ok_k n) (orun_V n ltac:(lra)) (INF n ltac:(lra))) as (_ & A & _).
  assert (S2 : sqrt 2 * sqrt 2 = 2) by (apply sqrt_sqrt; lra). assert (S0 : 0 < sqrt 2) by (apply sqrt_lt_R0; lra). pose proof (ost_v0 n ltac:(lra)).
  apply Rnot_lt_le. intros X. nra.
Qed.
End Upto.
Hypothesis INF : forall s, N_i <= s < b -> 0 < N_inflating K U tm te s (y s).
Lemma orun_stay n : N_i <= n < b ->
  n - N_i < M0 /\ 0 < N_phi tm te y n <= phi_i /\ - sqrt 2 <= N_dphi tm te y n <= 0 /\ 2 * (1 - ki) * h2 * exp (-2 * M0) <= V P L (N_phi tm te y n).
Proof.
  intros Hn. assert (I : forall s, N_i <= s <= n -> 0 < V P L (N_phi tm te y s) - (q s)^2) by (intros s Hs; rewrite <- orun_infl by lra; apply INF; lra).
  split; [exact (ost_count n Hn I)|]. split; [split; [apply (ost_pos n Hn I); lra|apply (ost_branch n Hn I); lra]|].
  split; [split; [apply (ost_v2 n Hn I)|apply (ost_v0 n Hn I); lra]|exact (ost_Vlow n Hn I)].
Qed.
End One.

Lemma orun_more : exists d, 0 < d /\ forall y a b, N_background K U tm te y a b -> a < N_i < b -> y N_i = y1 ->
  (forall s, N_i <= s < b -> 0 < N_inflating K U tm te s (y s)) ->
  b <= N_i + M0 /\ exists z, N_background K U tm te z a (b + d) /\ z N_i = y1.
Proof.
  pose proof (branch_gt0 P phi_i HB) as G. pose proof ok_M0 as PM. destruct ok_h2 as (H0 & _ & KI).
  set (eta := 2 * (1 - ki) * h2 * exp (-2 * M0)). assert (HE : 0 < eta) by (apply Rmult_lt_0_compat; [apply Rmult_lt_0_compat; [lra|exact H0]|apply exp_pos]).
  destruct (V_small P L eta HF HV HD HL HE) as (d0 & Hd0 & SMALL).
  destruct (branch_room P HF HV HD phi_i HB) as (rm & Hrm & RM).
  set (dd := Rmin d0 phi_i). assert (DD : 0 < dd /\ dd <= d0 /\ dd <= phi_i) by (unfold dd, Rmin; destruct (Rle_dec _ _); lra).
  set (r := Rmin (dd / 2) (Rmin rm (1/4))). assert (RR : 0 < r /\ r <= dd / 2 /\ r <= rm /\ r <= 1/4) by (unfold r, Rmin; repeat destruct (Rle_dec _ _); lra).
  set (m := dd - r). assert (Bm : branch P m) by (apply RM; unfold m; lra).
  destruct (branch_pos P L m HF HV HL Bm) as [Vm _].
  assert (S2 : sqrt 2 * sqrt 2 = 2) by (apply sqrt_sqrt; lra). assert (S0 : 0 < sqrt 2) by (apply sqrt_lt_R0; lra). assert (S1 : sqrt 2 < 3/2) by nra.
  assert (V6 : forall v, - sqrt 2 - r <= v <= r -> 2 <= 6 - v^2) by (intros v Hv; nra).
  destruct (C119_efolds_continues K U tm te m (phi_i + r) (- sqrt 2 - r) r (N_i - r) (N_i + M0 + r) (V P L m / 3) 2 r) as (d & Hd & EX); try lra.
  - intros x Hx. apply potfun_smooth, branch_in_domain; try assumption. apply RM. unfold m in *. lra.
  - intros v Hv. pose proof (V6 v Hv). rewrite Rabs_right; lra.
  - intros x v n Hx Hv Hn. pose proof (V6 v Hv). pose proof (pow2_ge_0 v). pose proof (ok_k n) as KN. unfold N_get_H2, U, potfun_of. cbn [pV].
    assert (Bx : branch P x) by (apply RM; unfold m in *; lra). pose proof (V_incr P L m x HF HV HL Bm Bx ltac:(lra)) as VJ.
    apply Rmult_le_reg_r with (6 - v^2); [lra|]. replace ((2 * V P L x - 6 * K * exp (-2 * n)) / (6 - v^2) * (6 - v^2)) with (2 * V P L x + 6 * k n) by (unfold k; field; lra). nra.
  - exists d. split; [exact Hd|]. intros y a b B HT Ey INF.
    pose proof (orun_stay y a b B HT Ey INF) as ST.
    assert (LB : b <= N_i + M0).
    { destruct (Rle_dec b (N_i + M0)) as [|X]; [assumption|]. exfalso. destruct (ST (N_i + M0) ltac:(lra)) as (Y & _). lra. }
    split; [exact LB|].
    destruct (EX y a b N_i B HT ltac:(lra) ltac:(lra)) as (z & Bz & Ez).
    + intros n Hn. destruct (ST n Hn) as (_ & F & Vv & VV). fold eta in VV. split; [|lra].
      assert (d0 <= N_phi tm te y n).
      { destruct (Rle_dec d0 (N_phi tm te y n)) as [|X]; [assumption|]. exfalso. pose proof (SMALL (N_phi tm te y n) ltac:(lra)). lra. }
      unfold m. lra.
    + exists z. split; [exact Bz|]. rewrite Ez by lra. exact Ey.
Qed.
Lemma orun_end : List.length y1 = List.length (N_idx tm te) ->
  exists y a b n, N_background K U tm te y a b /\ a < N_i < b /\ y N_i = y1 /\ N_i <= n < b /\ N_inflating K U tm te n (y n) <= 0.
Proof.
  intros LY. destruct ok_h2 as (HP & _). destruct (branch_room P HF HV HD phi_i HB) as (rm & Hrm & RM). pose proof (branch_gt0 P phi_i HB) as G.
  set (r := Rmin rm (phi_i / 2)). assert (RR : 0 < r /\ r <= rm /\ r <= phi_i / 2) by (unfold r, Rmin; destruct (Rle_dec _ _); lra).
  destruct (C119_efolds_state K U tm te N_i y1 r LY) as (y0 & a & b0 & HT & B0 & Ey0); [lra| |exact HP| |].
  { intros x Hx. rewrite E1 in Hx. apply Rabs_le_between in Hx. apply potfun_smooth, branch_in_domain; try assumption. apply RM. lra. }
  { rewrite E2. lra. }
  destruct orun_more as (d & Hd & MORE). apply NNPP. intros NO.
  assert (ALL : forall y b, N_background K U tm te y a b -> N_i < b -> y N_i = y1 -> forall s, N_i <= s < b -> 0 < N_inflating K U tm te s (y s)).
  { intros y b By Hb Ey s Hs. apply Rnot_le_lt. intros X. apply NO. exists y, a, b, s. split; [exact By|]; split; [lra|]; split; [exact Ey|]; split; [lra|exact X]. }
  assert (GO : forall k, exists y b, N_background K U tm te y a b /\ b0 + INR k * d <= b /\ y N_i = y1).
  { induction k0 as [|j (y & b & By & Hb & Ey)]; [exists y0, b0; split; [exact B0|]; split; [cbn; lra|exact Ey0]|].
    pose proof (pos_INR j) as PK. assert (0 <= INR j * d) by (apply Rmult_le_pos; lra).
    destruct (MORE y a b By ltac:(lra) Ey (ALL y b By ltac:(lra) Ey)) as (_ & z & Bz & Ez). exists z, (b + d). split; [exact Bz|]. split; [rewrite S_INR; lra|exact Ez]. }
  destruct (archimed_cor1 (d / (M0 + 1))) as (j & Hk & K0); [apply Rdiv_lt_0_compat; [exact Hd|pose proof ok_M0; lra]|].
  assert (KP : 0 < INR j) by (apply lt_0_INR; exact K0). pose proof ok_M0 as PM.
  assert (KD : M0 + 1 < INR j * d).
  { apply (Rmult_lt_compat_r (INR j * (M0 + 1))) in Hk; [|apply Rmult_lt_0_compat; lra].
    replace (/ INR j * (INR j * (M0 + 1))) with (M0 + 1) in Hk by (field; lra).
    replace (d / (M0 + 1) * (INR j * (M0 + 1))) with (INR j * d) in Hk by (field; lra). exact Hk. }
  destruct (GO j) as (y & b & By & Hb & Ey). destruct (MORE y a b By ltac:(lra) Ey (ALL y b By ltac:(lra) Ey)) as (X & _). lra.
Qed.
Lemma orun_core e : branch P e -> eps1V P e = 1 -> Nfun P e e = 0 -> e < phi_i -> List.length y1 = List.length (N_idx tm te) ->
  - sqrt (((sqrt h2 * v_i)^2 / 2 + V P L phi_i) / 3) * lam <= sqrt h2 * v_i ->
  exists y a b N_end, a < N_i < N_end /\ N_end < b /\ N_background K U tm te y a b /\ y N_i = y1 /\
    (forall n, N_i <= n < N_end -> 0 < N_inflating K U tm te n (y n)) /\ N_inflating K U tm te N_end (y N_end) = 0 /\
    Nfun P e phi_i <= N_end - N_i <= M0.
Proof.
  intros Be Ee Ne LE L1 START.
  destruct (orun_end L1) as (y & a & b & n & B & HT & Ey & Hn & END).
  pose proof (orun_phi_i y Ey) as F1. pose proof (orun_v_i y Ey) as F2. pose proof (orun_q0 y a b B HT Ey) as Q0.
  assert (FL : forall s, N_i <= s < b -> _) by (intros s Hs; exact (NK_flow P L K tm te y a b HK B s ltac:(lra))).
  pose proof (orun_infl y a b B) as RI. pose proof (orun_cont y a b B HT n ltac:(lra)) as CO.
  pose proof (ost_count y a b B HT Ey) as CNT.
  change (potfun_of P L) with U in FL. set (Hf := N_Hub K U tm te y) in *. set (q := fun s => Hf s * N_dphi tm te y s) in *.
  change (Hf N_i * N_dphi tm te y N_i) with (q N_i) in *.
  assert (HH : Hf N_i = sqrt h2) by (unfold Hf, N_Hub; rewrite Ey; reflexivity).
  assert (B0 : branch P (N_phi tm te y N_i)) by (rewrite F1; exact HB).
  assert (ST : - sqrt (((q N_i)^2 / 2 + V P L (N_phi tm te y N_i)) / 3) * (dV P L (N_phi tm te y N_i) / V P L (N_phi tm te y N_i)) <= q N_i).
  { unfold q. rewrite F1, F2, HH. exact START. }
  assert (AB : forall s, N_i <= s <= N_i -> e <= N_phi tm te y s) by (intros s Hs; replace s with N_i by lra; rewrite F1; lra).
  pose proof (oroll_accel P L HF HV HL HD (N_phi tm te y) q (fun x => x) Hf (fun s => / Hf s) N_i b FL B0 (Rlt_le _ _ Q0) ST N_i e ltac:(lra) Be Ee AB ltac:(rewrite F1; exact LE)) as I0.
  rewrite RI in END by lra.
  destruct (first_zero _ N_i n 0 ltac:(lra) CO I0 END) as (N_end & HN & Z & BEF). cbv beta in Z, BEF.
  exists y, a, b, N_end. split; [lra|]. split; [lra|]. split; [exact B|]. split; [exact Ey|].
  split; [intros s Hs; rewrite RI by lra; apply BEF, Hs|]. split; [rewrite RI by lra; exact Z|]. split.
  - rewrite <- F1. apply (oroll_lower P L HF HV HL HD (N_phi tm te y) q (fun x => x) Hf (fun s => / Hf s) N_i b FL B0 (Rlt_le _ _ Q0) ST N_end e); try assumption; [lra|rewrite F1; lra|].
    cbv beta. change (V P L (N_phi tm te y N_end) - (q N_end)^2 <= 0). lra.
  - destruct (Rle_dec (N_end - N_i) M0) as [|X]; [assumption|]. exfalso. pose proof ok_M0 as PM.
    pose proof (CNT (N_i + M0) ltac:(lra) ltac:(intros s Hs; apply BEF; lra)) as Y. lra.
Qed.
End Run.

(** C120 in flat and open universes: the start written by SlowRollIC above phi_end has an evolution which inflates from
    the very start and stops inflating after a finite number of e-folds, no fewer than the slow-roll count. *)
Theorem C120_open_efolds : forall root P L K tm te phi_i t_i eta_i x_end N_i e ic y0 y1,
  let U := potfun_of P L in
  root_spec root -> featureless P -> valid P -> (forall p phi0, P = DoubleWell p phi0 -> 1 <= p) -> P <> DoubleWell 1 (sqrt 2) ->
  L <> 0 -> K <= 0 -> branch P phi_i -> phi_end root P L = Ok e -> e < phi_i ->
  sr_init (IN K U tm te) phi_i t_i eta_i x_end (kw_of (InN N_i)) = Ok ic ->
  List.length y0 = List.length (N_idx tm te) -> sr_call ic y0 = Ok (map Fin y1) ->
  exists y a b N_end N_sr, a < N_i < N_end /\ N_end < b /\ N_background K U tm te y a b /\ y N_i = y1 /\
    (forall n, N_i <= n < N_end -> 0 < N_inflating K U tm te n (y n)) /\ N_inflating K U tm te N_end (y N_end) = 0 /\
    sr_phi2N root P L phi_i = Ok N_sr /\ N_sr <= N_end - N_i.
Proof.
  intros root P L K tm te phi_i t_i eta_i x_end N_i e ic y0 y1 U HR HF HV HD HN HL HK HB HE LE SI LY SC.
  destruct (branch_pos P L phi_i HF HV HL HB) as [V0 V1].
  destruct (srK_start_N K U tm te phi_i t_i eta_i x_end N_i ic y0 y1 V0 HK SI LY SC) as (E1 & E2 & L1).
  unfold U, potfun_of in E2. cbn [pV pdV] in E2.
  pose proof (phi_end_branch root P L e HR HF HV HL HN HE) as Be. destruct (phi_end_spec root P L e HR HF HV HL HE) as [_ Ee].
  pose proof (Nfun_end root P L e HF HV HE) as Ne. pose proof (Rdiv_lt_0_compat _ _ V1 V0) as LP.
  assert (KP : 0 <= - K * exp (-2 * N_i)) by (pose proof (exp_pos (-2 * N_i)); apply Rmult_le_pos; lra).
  set (v_i := - dV P L phi_i / (3 * (V P L phi_i / 3 - K * exp (-2 * N_i)))) in *.
  set (kk := - K * exp (-2 * N_i)) in *.
  assert (VE : v_i = - dV P L phi_i / (3 * (V P L phi_i / 3 + kk))) by (unfold v_i, kk; do 2 f_equal; ring).
  assert (VI : - (dV P L phi_i / V P L phi_i) <= v_i < 0).
  { rewrite VE. set (w := 3 * (V P L phi_i / 3 + kk)). assert (W : V P L phi_i <= w) by (unfold w; lra).
    assert (X : 0 < dV P L phi_i / w) by (apply Rdiv_lt_0_compat; lra).
    assert (Y : dV P L phi_i / w <= dV P L phi_i / V P L phi_i) by (apply Rmult_le_compat_l; [lra|apply Rinv_le_contravar; lra]).
    replace (- dV P L phi_i / w) with (- (dV P L phi_i / w)) by (field; lra). lra. }
  assert (LM : (dV P L phi_i / V P L phi_i)^2 < 2) by (rewrite (branch_lam2 P L HF HV HL phi_i HB); pose proof (eps1_decr P e phi_i HF HV HD Be HB LE); lra).
  assert (L2 : v_i^2 < 2) by (set (lm := dV P L phi_i / V P L phi_i) in *; nra).
  destruct (ok_h2 P L K tm te HF HV HL HK phi_i v_i N_i y1 HB E1 E2 L2) as (H0 & F & _). fold kk in F.
  destruct (open_start_N (V P L phi_i) (dV P L phi_i) kk v_i _ V0 V1 KP VE H0 F) as ((ST & _) & _).
  destruct (orun_core P L K tm te HF HV HL HD HK phi_i v_i N_i y1 HB E1 E2 VI L2 e Be Ee Ne LE L1 ST) as (y & a & b & N_end & A1 & A2 & B & Ey & I & Z & LO & _).
  exists y, a, b, N_end, (Nfun P e phi_i). repeat (split; [first [assumption|apply Nfun_ok with (1 := HE)]|]). exact LO.
Qed.
(** ... and that is when every evolution from this start stops inflating *)
Theorem C120_open_every_evolution : forall root P L K tm te phi_i t_i eta_i x_end N_i e ic y0 y1,
  let U := potfun_of P L in
  root_spec root -> featureless P -> valid P -> (forall p phi0, P = DoubleWell p phi0 -> 1 <= p) -> P <> DoubleWell 1 (sqrt 2) ->
  L <> 0 -> K <= 0 -> branch P phi_i -> phi_end root P L = Ok e -> e < phi_i ->
  sr_init (IN K U tm te) phi_i t_i eta_i x_end (kw_of (InN N_i)) = Ok ic ->
  List.length y0 = List.length (N_idx tm te) -> sr_call ic y0 = Ok (map Fin y1) ->
  exists N_end, N_i < N_end /\ forall z a b, N_background K U tm te z a b -> a < N_i < b -> z N_i = y1 ->
    (forall n, N_i <= n < N_end -> n < b -> 0 < N_inflating K U tm te n (z n)) /\ (N_end < b -> N_inflating K U tm te N_end (z N_end) = 0).
Proof.
  intros root P L K tm te phi_i t_i eta_i x_end N_i e ic y0 y1 U HR HF HV HD HN HL HK HB HE LE SI LY SC.
  destruct (C120_open_efolds root P L K tm te phi_i t_i eta_i x_end N_i e ic y0 y1 HR HF HV HD HN HL HK HB HE LE SI LY SC) as (y & a & b & N_end & N_sr & A1 & A2 & B & Ey & I & Z & _).
  exists N_end. split; [lra|]. intros z a' b' Bz Hz Ez.
  assert (EQ : forall n, N_i <= n <= N_end -> n < b' -> z n = y n).
  { intros n Hn Hb. symmetry. apply (C110_efolds K U tm te y z a b a' b' N_i B Bz); try lra. congruence. }
  split; [intros n Hn Hb; rewrite EQ by lra; apply I, Hn|intros Hb; rewrite EQ by lra; exact Z].
Qed.

(** re-reading an e-fold evolution that inflates and stops as a cosmic-time one *)
Lemma end_in_time K U te z a b N_i N_end x1 t_i : N_background K U true te z a b -> a < N_i < N_end -> N_end < b -> z N_i = x1 -> var (N_idx true te) "t" x1 = t_i ->
  (forall n, N_i <= n < N_end -> 0 < N_inflating K U true te n (z n)) -> N_inflating K U true te N_end (z N_end) = 0 ->
  exists y a' b' t_end, a' < t_i < t_end /\ t_end < b' /\ T_background K U te y a' b' /\ y t_i = state_N2T K U true te N_i x1 /\
    (forall t, t_i <= t < t_end -> 0 < T_inflating U te t (y t)) /\ T_inflating U te t_end (y t_end) = 0 /\
    T_N te y t_end - T_N te y t_i = N_end - N_i.
Proof.
  intros B A1 A2 Ez X4 I Z.
  set (n0 := (a + N_i) / 2). set (n1 := (N_end + b) / 2).
  destruct (inv_clock (N_t true te z) (fun n => 1 / N_Hub K U true te z n) n0 n1) as (MO & nu & NU); [unfold n0, n1; lra| |].
  { intros n Hn. assert (Hn' : a < n < b) by (unfold n0, n1 in Hn; lra). destruct (N_comps K U true te z a b B n Hn') as [_ [_ [D _] ] ]. split; [exact (D eq_refl)|].
    apply Rdiv_lt_0_compat; [lra|apply (N_pos K U true te z a b B n Hn')]. }
  set (tau := N_t true te z) in *.
  assert (TI : tau N_i = t_i) by (unfold tau, N_t; rewrite Ez; exact X4).
  assert (O1 : tau n0 < t_i) by (rewrite <- TI; apply MO; unfold n0, n1; lra).
  assert (O2 : t_i < tau N_end) by (rewrite <- TI; apply MO; unfold n0, n1; lra).
  assert (O3 : tau N_end < tau n1) by (apply MO; unfold n0, n1; lra).
  assert (INJ : forall n, n0 < n < n1 -> nu (tau n) = n).
  { intros n Hn. assert (T0 : tau n0 < tau n < tau n1) by (split; apply MO; lra). destruct (NU (tau n) T0) as [B1 B2].
    destruct (Rtotal_order (nu (tau n)) n) as [X|[X|X] ]; [|exact X|].
    - pose proof (MO (nu (tau n)) n ltac:(lra) X ltac:(lra)). lra.
    - pose proof (MO n (nu (tau n)) ltac:(lra) X ltac:(lra)). lra. }
  assert (IB : forall n, n0 < n < n1 -> a < n < b) by (intros n Hn; unfold n0, n1 in Hn; lra).
  assert (NI : n0 < N_i < n1) by (unfold n0, n1; lra). assert (NE : n0 < N_end < n1) by (unfold n0, n1; lra).
  pose proof (C17_tracked_time_is_time K U te z a b nu (tau n0) (tau n1) B ltac:(intros t Ht; destruct (NU t Ht) as [Q1 Q2]; split; [apply IB; exact Q1|exact Q2])) as BT.
  set (y := fun t => state_N2T K U true te (nu t) (z (nu t))) in *.
  assert (INFL : forall t, tau n0 < t < tau n1 -> T_inflating U te t (y t) = N_inflating K U true te (nu t) (z (nu t))).
  { intros t Ht. destruct (NU t Ht) as [Q1 _]. destruct B as [_ Q]. destruct (Q (nu t) (IB _ Q1)) as (HP & _).
    assert (S2 : sqrt (N_H2 K U true te (nu t) (z (nu t))) ^ 2 = N_H2 K U true te (nu t) (z (nu t))) by (apply pow2_sqrt; lra).
    unfold T_inflating, N_inflating, y, state_N2T.
    replace (var (T_idx te) "phi" _) with (var (N_idx true te) "phi" (z (nu t))) by (destruct te; reflexivity).
    replace (var (T_idx te) "dphidt" _) with (var (N_idx true te) "dphidN" (z (nu t)) * sqrt (N_H2 K U true te (nu t) (z (nu t)))) by (destruct te; reflexivity).
    rewrite Rpow_mult_distr, S2. ring. }
  exists y, (tau n0), (tau n1), (tau N_end).
  split; [lra|]. split; [exact O3|]. split; [exact BT|]. split; [unfold y; rewrite <- TI, (INJ N_i NI), Ez; reflexivity|]. split.
  { intros t Ht. assert (Ht' : tau n0 < t < tau n1) by lra. rewrite INFL by exact Ht'. destruct (NU t Ht') as [Q1 Q2]. apply I. split.
    - destruct (Rle_dec N_i (nu t)) as [|X]; [assumption|]. exfalso. pose proof (MO (nu t) N_i ltac:(lra) ltac:(lra) ltac:(lra)). lra.
    - destruct (Rlt_dec (nu t) N_end) as [|X]; [assumption|]. exfalso. destruct (Req_dec (nu t) N_end) as [Y|Y]; [rewrite Y in Q2; lra|].
      pose proof (MO N_end (nu t) ltac:(lra) ltac:(lra) ltac:(lra)). lra. }
  split; [rewrite INFL by lra; rewrite (INJ N_end NE); exact Z|].
  assert (TN : forall t, T_N te y t = nu t) by (intros t; unfold T_N, y, state_N2T; destruct te; reflexivity).
  rewrite !TN, (INJ N_end NE). rewrite <- TI. rewrite (INJ N_i NI). reflexivity.
Qed.
Theorem C120_open_time : forall root P L K te phi_i t_i eta_i x_end N_i e ic y0 y1,
  let U := potfun_of P L in
  root_spec root -> featureless P -> valid P -> (forall p phi0, P = DoubleWell p phi0 -> 1 <= p) -> P <> DoubleWell 1 (sqrt 2) ->
  L <> 0 -> K <= 0 -> branch P phi_i -> phi_end root P L = Ok e -> e < phi_i ->
  sr_init (IT K U te) phi_i (Some t_i) eta_i x_end (kw_of (InN N_i)) = Ok ic ->
  List.length y0 = List.length (T_idx te) -> sr_call ic y0 = Ok (map Fin y1) ->
  exists y a b t_end N_sr, a < t_i < t_end /\ t_end < b /\ T_background K U te y a b /\ y t_i = y1 /\
    (forall t, t_i <= t < t_end -> 0 < T_inflating U te t (y t)) /\ T_inflating U te t_end (y t_end) = 0 /\
    sr_phi2N root P L phi_i = Ok N_sr /\ N_sr <= T_N te y t_end - T_N te y t_i.
Proof.
  intros root P L K te phi_i t_i eta_i x_end N_i e ic y0 y1 U HR HF HV HD HN HL HK HB HE LE SI LY SC.
  destruct (branch_pos P L phi_i HF HV HL HB) as [V0 V1].
  destruct (srK_start_T K U te phi_i (Some t_i) eta_i x_end N_i ic y0 y1 V0 HK SI LY SC) as (E1 & E2 & E3 & L1). unfold U, potfun_of in E2. cbn [pV pdV] in E2.
  pose proof (phi_end_branch root P L e HR HF HV HL HN HE) as Be. destruct (phi_end_spec root P L e HR HF HV HL HE) as [_ Ee].
  pose proof (Nfun_end root P L e HF HV HE) as Ne. pose proof (Rdiv_lt_0_compat _ _ V1 V0) as LP.
  assert (KP : 0 <= - K * exp (-2 * N_i)) by (pose proof (exp_pos (-2 * N_i)); apply Rmult_le_pos; lra).
  assert (LM : (dV P L phi_i / V P L phi_i)^2 < 2) by (rewrite (branch_lam2 P L HF HV HL phi_i HB); pose proof (eps1_decr P e phi_i HF HV HD Be HB LE); lra).
  set (kk := - K * exp (-2 * N_i)) in *. set (v := V P L phi_i) in *. set (v1 := dV P L phi_i) in *.
  replace (v / 3 - K * exp (-2 * N_i)) with (v / 3 + kk) in E2 by (unfold kk; ring). set (r := sqrt (v / 3 + kk)) in *.
  assert (R0 : 0 < r) by (apply sqrt_lt_R0; lra). assert (R2 : r * r = v / 3 + kk) by (apply sqrt_sqrt; lra).
  set (d := var (T_idx te) "dphidt" y1) in *.
  destruct (open_start_T v v1 kk d r V0 V1 KP eq_refl E2) as [[ST _] D0].
  set (hh := (d^2 / 2 + v) / 3 + kk). pose proof (pow2_ge_0 d) as DD. assert (H0 : 0 < hh) by (unfold hh; lra).
  set (h := sqrt hh). assert (HP : 0 < h) by (apply sqrt_lt_R0; exact H0). assert (HH : h * h = hh) by (apply sqrt_sqrt; lra).
  set (v_i := d / h).
  assert (RH : r * r <= h * h) by (rewrite R2, HH; unfold hh; lra). assert (RH' : r <= h) by nra.
  assert (VI : - (v1 / v) <= v_i < 0).
  { unfold v_i. rewrite E2. assert (A : 0 < v1 / (3 * (r * h))) by (apply Rdiv_lt_0_compat; [exact V1|nra]).
    assert (W : v <= 3 * (r * h)) by nra.
    assert (Y : v1 / (3 * (r * h)) <= v1 / v) by (apply Rmult_le_compat_l; [lra|apply Rinv_le_contravar; lra]).
    replace (- v1 / (3 * r) / h) with (- (v1 / (3 * (r * h)))) by (field; lra). lra. }
  assert (L2 : v_i^2 < 2) by (set (lm := v1 / v) in *; nra).
  set (x1 := ([phi_i; v_i; t_i] ++ (if te then [var (T_idx te) "eta" y1] else []))%list).
  assert (X1 : var (N_idx true te) "phi" x1 = phi_i) by (unfold x1; destruct te; reflexivity).
  assert (X2 : var (N_idx true te) "dphidN" x1 = v_i) by (unfold x1; destruct te; reflexivity).
  assert (X3 : List.length x1 = List.length (N_idx true te)) by (unfold x1; destruct te; reflexivity).
  assert (X4 : var (N_idx true te) "t" x1 = t_i) by (unfold x1; destruct te; reflexivity).
  assert (H2 : N_H2 K U true te N_i x1 = hh).
  { destruct (ok_h2 P L K true te HF HV HL HK phi_i v_i N_i x1 HB X1 X2 L2) as (_ & F & _). change (potfun_of P L) with U in F. fold kk v in F.
    apply Rmult_eq_reg_l with (6 - v_i^2); [|lra]. rewrite F. rewrite <- HH. unfold v_i. replace ((6 - (d / h)^2) * (h * h)) with (6 * (h * h) - d^2) by (field; lra). rewrite HH. unfold hh. field. }
  assert (QE : sqrt (N_H2 K U true te N_i x1) * v_i = d) by (rewrite H2; fold h; unfold v_i; field; lra).
  assert (ST' : - sqrt (((sqrt (N_H2 K U true te N_i x1) * v_i)^2 / 2 + V P L phi_i) / 3) * (dV P L phi_i / V P L phi_i) <= sqrt (N_H2 K U true te N_i x1) * v_i) by (rewrite QE; exact ST).
  destruct (orun_core P L K true te HF HV HL HD HK phi_i v_i N_i x1 HB X1 X2 VI L2 e Be Ee Ne LE X3 ST') as (z & a & b & N_end & A1 & A2 & B & Ez & I & Z & LO & _).
  destruct (end_in_time K U te z a b N_i N_end x1 t_i B A1 A2 Ez X4 I Z) as (y & a' & b' & t_end & O1 & O2 & BT & Ey & IT & ZT & CN).
  exists y, a', b', t_end, (Nfun P e phi_i). split; [exact O1|]. split; [exact O2|]. split; [exact BT|]. split.
  { rewrite Ey. unfold state_N2T. rewrite X1, X2. rewrite (Rmult_comm v_i), QE. rewrite <- E3, <- E1. unfold d. destruct te; cbn in L1.
    - destruct (len4 y1 L1) as (u & p & n & et & ->). reflexivity.
    - destruct (len3 y1 L1) as (u & p & n & ->). reflexivity. }
  split; [exact IT|]. split; [exact ZT|]. split; [apply Nfun_ok with (1 := HE)|]. rewrite CN. exact LO.
Qed.
