(** C120: inflation started by SlowRollIC in a flat universe happens, and ends. *)
From Coq Require Import Reals Ranalysis5 List String Lra Lia Classical.
From Coquelicot Require Import Coquelicot.
From Verif Require Import Base Model.Potentials Model.SlowRoll Model.Equations Model.Background Model.Float Model.Solution Model.InitCond
  Spec.PotentialSpec Spec.SlowRollSpec Spec.BackgroundSpec Proofs.PhiEnd Proofs.SRN Proofs.Bracket Proofs.BackgroundT Proofs.BackgroundN Proofs.BackgroundEx Proofs.FloatLemmas Proofs.Unique
  Proofs.SlowRollBound Proofs.Roll Proofs.RollEnd Properties.BackgroundProps Properties.UniqueProps Properties.InitProps Properties.SlowRollBoundProps Properties.ExistenceProps.
Import ListNotations.
Open Scope R_scope.

Lemma sr_start_len U tm te phi t eta xe n ic y0 y : 0 < pV U phi -> sr_init (IN 0 U tm te) phi t eta xe (kw_of (InN n)) = Ok ic ->
  List.length y0 = List.length (N_idx tm te) -> sr_call ic y0 = Ok (map Fin y) -> List.length y = List.length (N_idx tm te).
Proof.
  intros HV E L C. assert (HP : 0 < pV U phi / 3 * exp (2 * n) - 0) by (pose proof (exp_pos (2 * n)); rewrite Rminus_0_r; apply Rmult_lt_0_compat; lra).
  rewrite (sr_from_N (IN 0 U tm te) phi t eta xe n HP) in E. injection E as <-.
  unfold sr_call, sr_obj in C. cbn [ic_eqs ic_dphi ic_N ic_phi ic_eta ic_t ie_te ie_idx ie_U ie_K attr_of bind] in C.
  rewrite <- (map_length Fin y).
  destruct tm, te; cbn in L; lenn L; try destruct t; try destruct eta; cbn in C; try discriminate; injection C as C; rewrite <- C; reflexivity.
Qed.

Section Run.
Variables (P : pot) (L : R) (tm te : bool).
Let U := potfun_of P L.
Hypotheses (HF : featureless P) (HV : valid P) (HL : L <> 0) (HD : dw_ge1 P).
Variables (phi_i v_i N_i : R) (y1 : list R).
Hypothesis HB : branch P phi_i.
Hypothesis E1 : var (N_idx tm te) "phi" y1 = phi_i.
Hypothesis E2 : var (N_idx tm te) "dphidN" y1 = v_i.
Hypothesis VI : - (dV P L phi_i / V P L phi_i) <= v_i < 0.
Let M0 := phi_i / - v_i.

Lemma run_M0 : 0 < M0.
Proof.
  pose proof (branch_gt0 P phi_i HB) as G. unfold M0. apply Rdiv_lt_0_compat; [exact G|lra].
Qed.
Section One.
Variables (y : R -> list R) (a b : R).
Hypothesis B : N_background 0 U tm te y a b.
Hypothesis HT : a < N_i < b.
Hypothesis Ey : y N_i = y1.
Let Hf := N_Hub 0 U tm te y.
Let q (s : R) := Hf s * N_dphi tm te y s.
Lemma run_infl s : a < s < b -> N_inflating 0 U tm te s (y s) = V P L (N_phi tm te y s) - (q s)^2.
Proof.
  intros Hs. unfold N_inflating, q. rewrite Rpow_mult_distr. unfold Hf, N_Hub. rewrite pow2_sqrt; [reflexivity|].
  destruct B as [_ Q]. left. apply (Q s Hs).
Qed.
Lemma run_cont_infl c : c < b -> cont_in (fun s => V P L (N_phi tm te y s) - (q s)^2) N_i c.
Proof.
  intros Hc s Hs. destruct (N_flow P L tm te y a b B s ltac:(lra)) as (D1 & D2 & _). destruct B as [_ Q]. destruct (Q s ltac:(lra)) as (_ & _ & SM & _).
  cbn [U potfun_of pV pdV] in SM.
  apply (ex_derive_continuous (fun s => V P L (N_phi tm te y s) - (q s)^2)). fold Hf in D1, D2. fold q in D1, D2.
  auto_derive. repeat split; try (eexists; eassumption).
Qed.
Hypothesis INF : forall s, N_i <= s < b -> 0 < N_inflating 0 U tm te s (y s).
Lemma run_start : branch P (N_phi tm te y N_i) /\ - Hf N_i * (dV P L (N_phi tm te y N_i) / V P L (N_phi tm te y N_i)) <= q N_i <= 0 /\ q N_i < 0.
Proof.
  assert (F1 : N_phi tm te y N_i = phi_i) by (unfold N_phi; rewrite Ey; exact E1).
  assert (F2 : N_dphi tm te y N_i = v_i) by (unfold N_dphi; rewrite Ey; exact E2).
  destruct (branch_pos P L phi_i HF HV HL HB) as [V0 V1].
  destruct (N_flow P L tm te y a b B N_i HT) as (_ & _ & _ & _ & _ & HP & _). fold U in HP. fold Hf in HP.
  assert (QE : q N_i = Hf N_i * v_i) by (unfold q; rewrite F2; reflexivity).
  rewrite F1. split; [exact HB|]. rewrite QE. assert (X : Hf N_i * v_i < 0) by nra. split; [|exact X]. split; [|lra].
  rewrite Ropp_mult_distr_l_reverse, Ropp_mult_distr_r. apply Rmult_le_compat_l; lra.
Qed.
Lemma run_stay n : N_i <= n < b ->
  n - N_i < M0 /\ 0 < N_phi tm te y n <= phi_i /\ - sqrt 2 <= N_dphi tm te y n <= 0 /\
  V P L phi_i * exp (- (1 + 2 * M0)) <= V P L (N_phi tm te y n).
Proof.
  intros Hn. destruct run_start as (B0 & ST & Q0).
  assert (F1 : N_phi tm te y N_i = phi_i) by (unfold N_phi; rewrite Ey; exact E1).
  assert (FL : forall s, N_i <= s < b -> _) by (intros s Hs; exact (N_flow P L tm te y a b B s ltac:(lra))).
  fold U in FL. fold Hf in FL. fold q in FL.
  assert (I : forall s, N_i <= s <= n -> 0 < V P L (N_phi tm te y s) - (q s)^2) by (intros s Hs; rewrite <- run_infl by lra; apply INF; lra).
  pose proof (roll_upper P L HF HV HL HD (N_phi tm te y) q (fun x => x) Hf (fun s => / Hf s) N_i b FL B0 ST n Hn Q0 I) as X. cbv beta in X.
  pose proof (roll_pos P L HF HV HD (N_phi tm te y) q (fun x => x) Hf (fun s => / Hf s) N_i b FL B0 n Hn I) as POS.
  pose proof (roll_branch P L HF HV HL HD (N_phi tm te y) q (fun x => x) Hf (fun s => / Hf s) N_i b FL B0 ST n Hn POS) as BR.
  pose proof (end_v P L HF HV HL HD (N_phi tm te y) q (fun x => x) Hf (fun s => / Hf s) N_i b FL B0 ST n Hn I n ltac:(lra)) as EV.
  pose proof (end_V P L HF HV HL HD (N_phi tm te y) q (fun x => x) Hf (fun s => / Hf s) N_i b FL B0 ST n Hn I) as EE. cbv beta in EE.
  destruct (branch_pos P L phi_i HF HV HL HB) as [V0 V1].
  assert (F2 : N_dphi tm te y N_i = v_i) by (unfold N_dphi; rewrite Ey; exact E2).
  destruct (FL N_i ltac:(lra)) as (_ & _ & _ & _ & _ & HP & _). destruct (FL n ltac:(lra)) as (_ & _ & _ & _ & _ & HP' & _).
  assert (X' : n - N_i < M0).
  { eapply Rlt_le_trans; [exact X|]. right. rewrite F1. unfold q, M0. rewrite F2. field. lra. }
  split; [exact X'|]. destruct (BR n ltac:(lra)) as [LE _]. rewrite F1 in LE, EE.
  split; [split; [apply POS; lra|exact LE]|]. split.
  - replace (N_dphi tm te y n) with (q n / Hf n) by (unfold q; field; lra). exact EV.
  - eapply Rle_trans; [|exact EE]. apply Rmult_le_compat_l; [lra|]. left. apply exp_increasing. lra.
Qed.
End One.

(** every evolution from the start that inflates throughout can be continued by a fixed amount *)
Lemma run_more : exists d, 0 < d /\ forall y a b, N_background 0 U tm te y a b -> a < N_i < b -> y N_i = y1 ->
  (forall s, N_i <= s < b -> 0 < N_inflating 0 U tm te s (y s)) ->
  b <= N_i + M0 /\ exists z, N_background 0 U tm te z a (b + d) /\ z N_i = y1.
Proof.
  destruct (branch_pos P L phi_i HF HV HL HB) as [V0 V1]. pose proof (branch_gt0 P phi_i HB) as G. pose proof run_M0 as PM.
  set (eta := V P L phi_i * exp (- (1 + 2 * M0))). assert (HE : 0 < eta) by (apply Rmult_lt_0_compat; [exact V0|apply exp_pos]).
  destruct (V_small P L eta HF HV HD HL HE) as (d0 & Hd0 & SMALL).
  destruct (branch_room P HF HV HD phi_i HB) as (rm & Hrm & RM).
  set (dd := Rmin d0 phi_i). assert (DD : 0 < dd /\ dd <= d0 /\ dd <= phi_i) by (unfold dd, Rmin; destruct (Rle_dec _ _); lra).
  set (r := Rmin (dd / 2) (Rmin rm (1/4))). assert (RR : 0 < r /\ r <= dd / 2 /\ r <= rm /\ r <= 1/4) by (unfold r, Rmin; repeat destruct (Rle_dec _ _); lra).
  set (m := dd - r). assert (Bm : branch P m) by (apply RM; unfold m; lra).
  destruct (branch_pos P L m HF HV HL Bm) as [Vm _].
  assert (S2 : sqrt 2 * sqrt 2 = 2) by (apply sqrt_sqrt; lra). assert (S0 : 0 < sqrt 2) by (apply sqrt_lt_R0; lra). assert (S1 : sqrt 2 < 3/2) by nra.
  assert (V6 : forall v, - sqrt 2 - r <= v <= r -> 2 <= 6 - v^2) by (intros v Hv; nra).
  destruct (C119_efolds_continues 0 U tm te m (phi_i + r) (- sqrt 2 - r) r (N_i - r) (N_i + M0 + r) (V P L m / 3) 2 r) as (d & Hd & EX); try lra.
  - intros x Hx. apply potfun_smooth, branch_in_domain; try assumption. apply RM. unfold m in *. lra.
  - intros v Hv. pose proof (V6 v Hv). rewrite Rabs_right; lra.
  - intros x v n Hx Hv Hn. pose proof (V6 v Hv). pose proof (pow2_ge_0 v). unfold N_get_H2, U, potfun_of. cbn [pV].
    assert (Bx : branch P x) by (apply RM; unfold m in *; lra). pose proof (V_incr P L m x HF HV HL Bm Bx ltac:(lra)) as VJ.
    apply Rmult_le_reg_r with (6 - v^2); [lra|]. replace ((2 * V P L x - 6 * 0 * exp (-2 * n)) / (6 - v^2) * (6 - v^2)) with (2 * V P L x) by (field; lra). nra.
  - exists d. split; [exact Hd|]. intros y a b B HT Ey INF.
    pose proof (run_stay y a b B HT Ey INF) as ST.
    assert (LB : b <= N_i + M0).
    { destruct (Rle_dec b (N_i + M0)) as [|X]; [assumption|]. exfalso. destruct (ST (N_i + M0) ltac:(lra)) as (Y & _). lra. }
    split; [exact LB|].
    destruct (EX y a b N_i B HT ltac:(lra) ltac:(lra)) as (z & Bz & Ez).
    + intros n Hn. destruct (ST n Hn) as (_ & F & Vv & VV). fold eta in VV. split; [|lra].
      assert (d0 <= N_phi tm te y n).
      { destruct (Rle_dec d0 (N_phi tm te y n)) as [|X]; [assumption|]. exfalso. pose proof (SMALL (N_phi tm te y n) ltac:(lra)). lra. }
      unfold m. lra.
    + exists z. split; [exact Bz|]. rewrite Ez by lra. exact Ey.
Qed.
(** so some evolution from the start comes to a state that does not inflate *)
Lemma run_end : 0 < N_H2 0 U tm te N_i y1 -> List.length y1 = List.length (N_idx tm te) -> v_i^2 < 2 ->
  exists y a b n, N_background 0 U tm te y a b /\ a < N_i < b /\ y N_i = y1 /\ N_i <= n < b /\ N_inflating 0 U tm te n (y n) <= 0.
Proof.
  intros HP LY L2. destruct (branch_room P HF HV HD phi_i HB) as (rm & Hrm & RM). pose proof (branch_gt0 P phi_i HB) as G.
  set (r := Rmin rm (phi_i / 2)). assert (RR : 0 < r /\ r <= rm /\ r <= phi_i / 2) by (unfold r, Rmin; destruct (Rle_dec _ _); lra).
  destruct (C119_efolds_state 0 U tm te N_i y1 r LY) as (y0 & a & b0 & HT & B0 & Ey0); [lra| |exact HP| |].
  { intros x Hx. rewrite E1 in Hx. apply Rabs_le_between in Hx. apply potfun_smooth, branch_in_domain; try assumption. apply RM. lra. }
  { rewrite E2. lra. }
  destruct run_more as (d & Hd & MORE). apply NNPP. intros NO.
  assert (ALL : forall y b, N_background 0 U tm te y a b -> N_i < b -> y N_i = y1 -> forall s, N_i <= s < b -> 0 < N_inflating 0 U tm te s (y s)).
  { intros y b By Hb Ey s Hs. apply Rnot_le_lt. intros X. apply NO. exists y, a, b, s. split; [exact By|]; split; [lra|]; split; [exact Ey|]; split; [lra|exact X]. }
  assert (GO : forall k, exists y b, N_background 0 U tm te y a b /\ b0 + INR k * d <= b /\ y N_i = y1).
  { induction k as [|k (y & b & By & Hb & Ey)]; [exists y0, b0; split; [exact B0|]; split; [cbn; lra|exact Ey0]|].
    pose proof (pos_INR k) as PK. assert (0 <= INR k * d) by (apply Rmult_le_pos; lra).
    destruct (MORE y a b By ltac:(lra) Ey (ALL y b By ltac:(lra) Ey)) as (_ & z & Bz & Ez). exists z, (b + d). split; [exact Bz|]. split; [rewrite S_INR; lra|exact Ez]. }
  destruct (archimed_cor1 (d / (M0 + 1))) as (k & Hk & K0); [apply Rdiv_lt_0_compat; [exact Hd|pose proof run_M0; lra]|].
  assert (KP : 0 < INR k) by (apply lt_0_INR; exact K0). pose proof run_M0 as PM.
  assert (KD : M0 + 1 < INR k * d).
  { apply (Rmult_lt_compat_r (INR k * (M0 + 1))) in Hk; [|apply Rmult_lt_0_compat; lra].
    replace (/ INR k * (INR k * (M0 + 1))) with (M0 + 1) in Hk by (field; lra).
    replace (d / (M0 + 1) * (INR k * (M0 + 1))) with (INR k * d) in Hk by (field; lra). exact Hk. }
  destruct (GO k) as (y & b & By & Hb & Ey). destruct (MORE y a b By ltac:(lra) Ey (ALL y b By ltac:(lra) Ey)) as (X & _). lra.
Qed.

Lemma run_core e : branch P e -> eps1V P e = 1 -> Nfun P e e = 0 -> e < phi_i -> List.length y1 = List.length (N_idx tm te) ->
  exists y a b N_end, a < N_i < N_end /\ N_end < b /\ N_background 0 U tm te y a b /\ y N_i = y1 /\
    (forall n, N_i <= n < N_end -> 0 < N_inflating 0 U tm te n (y n)) /\ N_inflating 0 U tm te N_end (y N_end) = 0 /\
    Nfun P e phi_i <= N_end - N_i <= M0.
Proof.
  intros Be Ee Ne LE L1. destruct (branch_pos P L phi_i HF HV HL HB) as [V0 V1].
  assert (L2 : v_i^2 < 2).
  { assert (X : (dV P L phi_i / V P L phi_i)^2 < 2) by (rewrite (branch_lam2 P L HF HV HL phi_i HB); pose proof (eps1_decr P e phi_i HF HV HD Be HB LE); lra).
    set (lm := dV P L phi_i / V P L phi_i) in *. nra. }
  assert (HP : 0 < N_H2 0 U tm te N_i y1).
  { unfold N_H2, N_get_H2. rewrite E1, E2. unfold U, potfun_of. cbn [pV]. apply Rdiv_lt_0_compat; lra. }
  destruct (run_end HP L1 L2) as (y & a & b & n & B & HT & Ey & Hn & END).
  pose proof (run_start y a b B HT Ey) as (B0 & ST & Q0).
  assert (F1 : N_phi tm te y N_i = phi_i) by (unfold N_phi; rewrite Ey; exact E1).
  assert (FL : forall s, N_i <= s < b -> _) by (intros s Hs; exact (N_flow P L tm te y a b B s ltac:(lra))).
  pose proof (run_infl y a b B) as RI. pose proof (run_cont_infl y a b B HT n ltac:(lra)) as CO.
  change (potfun_of P L) with U in FL. set (Hf := N_Hub 0 U tm te y) in *. set (q := fun s => Hf s * N_dphi tm te y s) in *.
  change (Hf N_i * N_dphi tm te y N_i) with (q N_i) in *.
  assert (POS : forall s, N_i <= s <= N_i -> 0 < N_phi tm te y s) by (intros s Hs; replace s with N_i by lra; rewrite F1; apply branch_gt0 with (1 := HB)).
  pose proof (roll_accel P L HF HV HL HD (N_phi tm te y) q (fun x => x) Hf (fun s => / Hf s) N_i b FL B0 ST N_i e ltac:(lra) POS Be Ee ltac:(rewrite F1; exact LE)) as I0.
  rewrite RI in END by lra.
  destruct (first_zero _ N_i n 0 ltac:(lra) CO I0 END) as (N_end & HN & Z & BEF). cbv beta in Z, BEF.
  exists y, a, b, N_end. split; [lra|]. split; [lra|]. split; [exact B|]. split; [exact Ey|].
  split; [intros s Hs; rewrite RI by lra; apply BEF, Hs|]. split; [rewrite RI by lra; exact Z|]. split.
  - rewrite <- F1. apply (roll_lower P L HF HV HL HD (N_phi tm te y) q (fun x => x) Hf (fun s => / Hf s) N_i b FL B0 ST N_end e); try assumption; [lra|rewrite F1; lra|lra].
  - destruct (Rle_dec (N_end - N_i) M0) as [|X]; [assumption|]. exfalso. pose proof run_M0 as PM.
    assert (N1 : N_i <= N_i + M0 < N_end) by lra.
    pose proof (roll_upper P L HF HV HL HD (N_phi tm te y) q (fun x => x) Hf (fun s => / Hf s) N_i b FL B0 ST (N_i + M0) ltac:(lra) Q0 ltac:(intros s Hs; apply BEF; lra)) as Y.
    cbv beta in Y. assert (F2 : N_dphi tm te y N_i = v_i) by (unfold N_dphi; rewrite Ey; exact E2).
    destruct (FL N_i ltac:(lra)) as (_ & _ & _ & _ & _ & HP0 & _).
    replace (N_phi tm te y N_i * (Hf N_i / - q N_i)) with M0 in Y; [lra|]. rewrite F1. unfold q, M0. rewrite F2. field. lra.
Qed.
End Run.

(** C120: the start written by SlowRollIC above phi_end has an evolution which inflates from the very start,
    stops inflating after a finite number of e-folds, and that number lies between the slow-roll count and phi V/V'. *)
Theorem C120_efolds : forall root P L tm te phi_i t_i eta_i x_end N_i e ic y0 y1,
  let U := potfun_of P L in
  root_spec root -> featureless P -> valid P -> (forall p phi0, P = DoubleWell p phi0 -> 1 <= p) -> P <> DoubleWell 1 (sqrt 2) ->
  L <> 0 -> branch P phi_i -> phi_end root P L = Ok e -> e < phi_i ->
  sr_init (IN 0 U tm te) phi_i t_i eta_i x_end (kw_of (InN N_i)) = Ok ic ->
  List.length y0 = List.length (N_idx tm te) -> sr_call ic y0 = Ok (map Fin y1) ->
  exists y a b N_end N_sr, a < N_i < N_end /\ N_end < b /\ N_background 0 U tm te y a b /\ y N_i = y1 /\
    (forall n, N_i <= n < N_end -> 0 < N_inflating 0 U tm te n (y n)) /\ N_inflating 0 U tm te N_end (y N_end) = 0 /\
    sr_phi2N root P L phi_i = Ok N_sr /\ N_sr <= N_end - N_i <= phi_i * V P L phi_i / dV P L phi_i.
Proof.
  intros root P L tm te phi_i t_i eta_i x_end N_i e ic y0 y1 U HR HF HV HD HN HL HB HE LE SI LY SC.
  destruct (branch_pos P L phi_i HF HV HL HB) as [V0 V1].
  destruct (sr_start_N U tm te phi_i t_i eta_i x_end N_i ic y0 y1 V0 SI LY SC) as [E1 E2].
  pose proof (sr_start_len U tm te phi_i t_i eta_i x_end N_i ic y0 y1 V0 SI LY SC) as L1.
  unfold U, potfun_of in E2. cbn [pV pdV] in E2.
  pose proof (phi_end_branch root P L e HR HF HV HL HN HE) as Be. destruct (phi_end_spec root P L e HR HF HV HL HE) as [_ Ee].
  pose proof (Nfun_end root P L e HF HV HE) as Ne. pose proof (Rdiv_lt_0_compat _ _ V1 V0) as LP.
  destruct (run_core P L tm te HF HV HL HD phi_i _ N_i y1 HB E1 E2 ltac:(split; [right; field; lra|unfold Rdiv in *; rewrite Ropp_mult_distr_l_reverse; lra]) e Be Ee Ne LE L1) as (y & a & b & N_end & A1 & A2 & B & Ey & I & Z & LO & UP).
  exists y, a, b, N_end, (Nfun P e phi_i). repeat (split; [first [assumption|apply Nfun_ok with (1 := HE)]|]).
  eapply Rle_trans; [exact UP|]. right. field. lra.
Qed.
(** ... and that is when every evolution from this start stops inflating *)
Theorem C120_every_evolution : forall root P L tm te phi_i t_i eta_i x_end N_i e ic y0 y1,
  let U := potfun_of P L in
  root_spec root -> featureless P -> valid P -> (forall p phi0, P = DoubleWell p phi0 -> 1 <= p) -> P <> DoubleWell 1 (sqrt 2) ->
  L <> 0 -> branch P phi_i -> phi_end root P L = Ok e -> e < phi_i ->
  sr_init (IN 0 U tm te) phi_i t_i eta_i x_end (kw_of (InN N_i)) = Ok ic ->
  List.length y0 = List.length (N_idx tm te) -> sr_call ic y0 = Ok (map Fin y1) ->
  exists N_end, N_i < N_end /\ forall z a b, N_background 0 U tm te z a b -> a < N_i < b -> z N_i = y1 ->
    (forall n, N_i <= n < N_end -> n < b -> 0 < N_inflating 0 U tm te n (z n)) /\ (N_end < b -> N_inflating 0 U tm te N_end (z N_end) = 0).
Proof.
  intros root P L tm te phi_i t_i eta_i x_end N_i e ic y0 y1 U HR HF HV HD HN HL HB HE LE SI LY SC.
  destruct (C120_efolds root P L tm te phi_i t_i eta_i x_end N_i e ic y0 y1 HR HF HV HD HN HL HB HE LE SI LY SC) as (y & a & b & N_end & N_sr & A1 & A2 & B & Ey & I & Z & _).
  exists N_end. split; [lra|]. intros z a' b' Bz Hz Ez.
  assert (EQ : forall n, N_i <= n <= N_end -> n < b' -> z n = y n).
  { intros n Hn Hb. symmetry. apply (C110_efolds 0 U tm te y z a b a' b' N_i B Bz); try lra. congruence. }
  split; [intros n Hn Hb; rewrite EQ by lra; apply I, Hn|intros Hb; rewrite EQ by lra; exact Z].
Qed.

(** C120 in cosmic time *)
Lemma inv_clock (f df : R -> R) a b : a < b -> (forall s, a <= s <= b -> is_derive f s (df s) /\ 0 < df s) ->
  (forall x z, a <= x -> x < z -> z <= b -> f x < f z) /\ exists nu, forall t, f a < t < f b -> a < nu t < b /\ f (nu t) = t.
Proof.
  intros L D. assert (CT : forall x, a <= x <= b -> continuity_pt f x).
  { intros x Hx. apply continuity_pt_filterlim. apply (ex_derive_continuous (V := R_NormedModule)). exists (df x). apply D, Hx. }
  assert (MO : forall x z, a <= x -> x < z -> z <= b -> f x < f z).
  { intros x z Hx Hxz Hz. pose proof (mono_dn_strict (fun s => - f s) (fun s => - df s) x z) as M. cbv beta in M.
    assert (- f z < - f x); [|lra]. apply M; [| |exact Hxz]; intros s Hs; destruct (D s ltac:(lra)) as [D1 D2]; [|lra].
    apply (is_derive_opp f s (df s) D1). }
  split; [exact MO|].
  exists (fun t => match Rle_dec (f a) t with
                   | left H1 => match Rle_dec t (f b) with
                                | left H2 => proj1_sig (f_interv_is_interv f a b t L (conj H1 H2) CT)
                                | right _ => 0 end
                   | right _ => 0 end).
  intros t Ht. destruct (Rle_dec (f a) t); [|lra]. destruct (Rle_dec t (f b)); [|lra].
  destruct (f_interv_is_interv _ _ _ _ _ _ _) as [x [Hx Ex]]. cbn [proj1_sig]. split; [|exact Ex].
  assert (x <> a) by (intros ->; lra). assert (x <> b) by (intros ->; lra). lra.
Qed.
Theorem C120_time : forall root P L te phi_i t_i eta_i x_end N_i e ic y0 y1,
  let U := potfun_of P L in
  root_spec root -> featureless P -> valid P -> (forall p phi0, P = DoubleWell p phi0 -> 1 <= p) -> P <> DoubleWell 1 (sqrt 2) ->
  L <> 0 -> branch P phi_i -> phi_end root P L = Ok e -> e < phi_i ->
  sr_init (IT 0 U te) phi_i (Some t_i) eta_i x_end (kw_of (InN N_i)) = Ok ic ->
  List.length y0 = List.length (T_idx te) -> sr_call ic y0 = Ok (map Fin y1) ->
  exists y a b t_end N_sr, a < t_i < t_end /\ t_end < b /\ T_background 0 U te y a b /\ y t_i = y1 /\
    (forall t, t_i <= t < t_end -> 0 < T_inflating U te t (y t)) /\ T_inflating U te t_end (y t_end) = 0 /\
    sr_phi2N root P L phi_i = Ok N_sr /\
    N_sr <= T_N te y t_end - T_N te y t_i <= phi_i * V P L phi_i / dV P L phi_i * sqrt (1 + eps1V P phi_i / 3).
Proof.
  intros root P L te phi_i t_i eta_i x_end N_i e ic y0 y1 U HR HF HV HD HN HL HB HE LE SI LY SC.
  destruct (branch_pos P L phi_i HF HV HL HB) as [V0 V1].
  destruct (sr_start_T U te phi_i (Some t_i) eta_i x_end N_i ic y0 y1 V0 SI LY SC) as [E1 E2]. unfold U, potfun_of in E2. cbn [pV pdV] in E2.
  assert (E3 : var (T_idx te) "_N" y1 = N_i /\ List.length y1 = List.length (T_idx te)).
  { assert (HP : 0 < pV U phi_i / 3 * exp (2 * N_i) - 0) by (pose proof (exp_pos (2 * N_i)); rewrite Rminus_0_r; apply Rmult_lt_0_compat; [unfold U; cbn; lra|lra]).
    rewrite (sr_from_N (IT 0 U te) phi_i (Some t_i) eta_i x_end N_i HP) in SI. injection SI as <-.
    unfold sr_call, sr_obj in SC. cbn [ic_eqs ic_dphi ic_N ic_phi ic_eta ie_te ie_idx ie_U ie_K attr_of bind] in SC.
    assert (BA : forall {A B D} (x : res A) (f : A -> res B) (g : B -> res D), bind (bind x f) g = bind x (fun u => bind (f u) g)) by (intros A B D [u|u] f g; reflexivity).
    rewrite BA in SC. destruct (wrote_T (K := 0) (U := U) LY SC) as (A1 & _ & _ & A3 & _). injection A3 as A3. split; [symmetry; exact A3|exact A1]. }
  destruct E3 as [E3 L1].
  pose proof (phi_end_branch root P L e HR HF HV HL HN HE) as Be. destruct (phi_end_spec root P L e HR HF HV HL HE) as [_ Ee].
  pose proof (Nfun_end root P L e HF HV HE) as Ne. pose proof (Rdiv_lt_0_compat _ _ V1 V0) as LP.
  set (v := V P L phi_i) in *. set (v1 := dV P L phi_i) in *. set (r := sqrt (v / 3)) in *.
  assert (R0 : 0 < r) by (apply sqrt_lt_R0; lra). assert (R2 : r * r = v / 3) by (apply sqrt_sqrt; lra).
  set (w := sqrt (1 + eps1V P phi_i / 3)).
  assert (EP : eps1V P phi_i = (v1 / v)^2 / 2) by (pose proof (branch_lam2 P L HF HV HL phi_i HB) as W; fold v v1 in W; lra).
  assert (E0 : 0 <= eps1V P phi_i) by (rewrite EP; pose proof (pow2_ge_0 (v1 / v)); lra).
  assert (W2 : w * w = 1 + eps1V P phi_i / 3) by (apply sqrt_sqrt; lra). assert (W0 : 0 < w) by (apply sqrt_lt_R0; lra). assert (W1 : 1 <= w) by nra.
  set (v_i := - (v1 / v) / w).
  assert (VI : - (dV P L phi_i / V P L phi_i) <= v_i < 0).
  { fold v v1. unfold v_i. assert (X : 0 < v1 / v / w) by (apply Rdiv_lt_0_compat; assumption).
    assert (Y : v1 / v / w <= v1 / v). { apply Rmult_le_reg_r with w; [exact W0|]. replace (v1 / v / w * w) with (v1 / v) by (field; lra). nra. }
    replace (- (v1 / v) / w) with (- (v1 / v / w)) by (field; lra). lra. }
  set (x1 := ([phi_i; v_i; t_i] ++ (if te then [var (T_idx te) "eta" y1] else []))%list).
  assert (X1 : var (N_idx true te) "phi" x1 = phi_i) by (unfold x1; destruct te; reflexivity).
  assert (X2 : var (N_idx true te) "dphidN" x1 = v_i) by (unfold x1; destruct te; reflexivity).
  assert (X3 : List.length x1 = List.length (N_idx true te)) by (unfold x1; destruct te; reflexivity).
  assert (X4 : var (N_idx true te) "t" x1 = t_i) by (unfold x1; destruct te; reflexivity).
  destruct (run_core P L true te HF HV HL HD phi_i v_i N_i x1 HB X1 X2 VI e Be Ee Ne LE X3) as (z & a & b & N_end & A1 & A2 & B & Ez & I & Z & LO & UP).
  change (potfun_of P L) with U in B, I, Z.
  assert (H2 : N_H2 0 U true te N_i x1 = (r * w)^2).
  { unfold N_H2, N_get_H2. rewrite X1, X2. unfold U, potfun_of. cbn [pV]. fold v.
    replace ((r * w)^2) with (r * r * (w * w)) by ring. rewrite R2. unfold v_i. replace ((- (v1 / v) / w)^2) with ((v1 / v)^2 / (w * w)) by (field; lra).
    replace ((v1 / v)^2) with (2 * eps1V P phi_i) by lra. rewrite W2. field. lra. }
  set (n0 := (a + N_i) / 2). set (n1 := (N_end + b) / 2).
  destruct (inv_clock (N_t true te z) (fun n => 1 / N_Hub 0 U true te z n) n0 n1) as (MO & nu & NU); [unfold n0, n1; lra| |].
  { intros n Hn. assert (Hn' : a < n < b) by (unfold n0, n1 in Hn; lra). destruct (N_comps 0 U true te z a b B n Hn') as [_ [_ [D _] ] ]. split; [exact (D eq_refl)|].
    apply Rdiv_lt_0_compat; [lra|apply (N_pos 0 U true te z a b B n Hn')]. }
  set (tau := N_t true te z) in *.
  assert (TI : tau N_i = t_i) by (unfold tau, N_t; rewrite Ez; exact X4).
  assert (O1 : tau n0 < t_i) by (rewrite <- TI; apply MO; unfold n0, n1; lra).
  assert (O2 : t_i < tau N_end) by (rewrite <- TI; apply MO; unfold n0, n1; lra).
  assert (O3 : tau N_end < tau n1) by (apply MO; unfold n0, n1; lra).
  assert (INJ : forall n, n0 < n < n1 -> nu (tau n) = n).
  { intros n Hn. assert (T0 : tau n0 < tau n < tau n1) by (split; apply MO; lra). destruct (NU (tau n) T0) as [B1 B2].
    destruct (Rtotal_order (nu (tau n)) n) as [X|[X|X] ]; [|exact X|].
    - pose proof (MO (nu (tau n)) n ltac:(lra) X ltac:(lra)). lra.
    - pose proof (MO n (nu (tau n)) ltac:(lra) X ltac:(lra)). lra. }
  assert (IB : forall n, n0 < n < n1 -> a < n < b) by (intros n Hn; unfold n0, n1 in Hn; lra).
  assert (NI : n0 < N_i < n1) by (unfold n0, n1; lra). assert (NE : n0 < N_end < n1) by (unfold n0, n1; lra).
  pose proof (C17_tracked_time_is_time 0 U te z a b nu (tau n0) (tau n1) B ltac:(intros t Ht; destruct (NU t Ht) as [Q1 Q2]; split; [apply IB; exact Q1|exact Q2])) as BT.
  set (y := fun t => state_N2T 0 U true te (nu t) (z (nu t))) in *.
  assert (INFL : forall t, tau n0 < t < tau n1 -> T_inflating U te t (y t) = N_inflating 0 U true te (nu t) (z (nu t))).
  { intros t Ht. destruct (NU t Ht) as [Q1 _]. destruct B as [_ Q]. destruct (Q (nu t) (IB _ Q1)) as (HP & _).
    assert (S2 : sqrt (N_H2 0 U true te (nu t) (z (nu t))) ^ 2 = N_H2 0 U true te (nu t) (z (nu t))) by (apply pow2_sqrt; lra).
    unfold T_inflating, N_inflating, y, state_N2T.
    replace (var (T_idx te) "phi" _) with (var (N_idx true te) "phi" (z (nu t))) by (destruct te; reflexivity).
    replace (var (T_idx te) "dphidt" _) with (var (N_idx true te) "dphidN" (z (nu t)) * sqrt (N_H2 0 U true te (nu t) (z (nu t)))) by (destruct te; reflexivity).
    rewrite Rpow_mult_distr, S2. ring. }
  exists y, (tau n0), (tau n1), (tau N_end), (Nfun P e phi_i).
  split; [lra|]. split; [exact O3|]. split; [exact BT|]. split.
  { unfold y. rewrite <- TI, (INJ N_i NI), Ez. unfold state_N2T. rewrite X1, X2, H2. rewrite sqrt_pow2 by (apply Rmult_le_pos; lra).
    replace (v_i * (r * w)) with (var (T_idx te) "dphidt" y1).
    2: { rewrite E2. unfold v_i. replace v with (3 * (r * r)) by lra. field. lra. }
    rewrite <- E3, <- E1. destruct te; cbn in L1.
    - destruct (len4 y1 L1) as (u & p & n & et & ->). reflexivity.
    - destruct (len3 y1 L1) as (u & p & n & ->). reflexivity. }
  split.
  { intros t Ht. assert (Ht' : tau n0 < t < tau n1) by lra. rewrite INFL by exact Ht'. destruct (NU t Ht') as [Q1 Q2]. apply I. split.
    - destruct (Rle_dec N_i (nu t)) as [|X]; [assumption|]. exfalso. pose proof (MO (nu t) N_i ltac:(lra) ltac:(lra) ltac:(lra)). lra.
    - destruct (Rlt_dec (nu t) N_end) as [|X]; [assumption|]. exfalso. destruct (Req_dec (nu t) N_end) as [Y|Y]; [rewrite Y in Q2; lra|].
      pose proof (MO N_end (nu t) ltac:(lra) ltac:(lra) ltac:(lra)). lra. }
  split; [rewrite INFL by lra; rewrite (INJ N_end NE); exact Z|].
  split; [apply Nfun_ok with (1 := HE)|].
  assert (TN : forall t, T_N te y t = nu t) by (intros t; unfold T_N, y, state_N2T; destruct te; reflexivity).
  rewrite !TN, (INJ N_end NE). rewrite <- TI at 1 2. rewrite (INJ N_i NI). split; [exact LO|]. eapply Rle_trans; [exact UP|]. right. unfold v_i. field. lra.
Qed.
