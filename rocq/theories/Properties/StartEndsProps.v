(** C125: inflation started by InflationStartIC in a flat universe begins there, happens and ends. *)
From Coq Require Import Reals List String Lra Lia Classical.
From Coquelicot Require Import Coquelicot.
From Verif Require Import Base Model.Potentials Model.SlowRoll Model.Equations Model.Background Model.Float Model.Solution Model.InitCond
  Spec.PotentialSpec Spec.SlowRollSpec Spec.BackgroundSpec Proofs.PhiEnd Proofs.SRN Proofs.Bracket Proofs.BackgroundT Proofs.BackgroundN Proofs.BackgroundEx Proofs.FloatLemmas Proofs.Unique
  Proofs.SlowRollBound Proofs.Roll Proofs.RollEnd Proofs.FastRoll Properties.BackgroundProps Properties.InitProps Properties.UniqueProps Properties.SlowRollBoundProps Properties.ExistenceProps Properties.InflationEndsProps.
Import ListNotations.
Open Scope R_scope.
Open Scope string_scope.

(** what InflationStartIC writes in a flat universe *)
Lemma is_start_N U tm te phi t eta xe n ic y0 ic' y : 0 < pV U phi -> is_init (IN 0 U tm te) phi t eta xe (kw_of (InN n)) = Ok ic ->
  List.length y0 = List.length (N_idx tm te) -> is_call ic y0 = Ok (ic', map Fin y) ->
  var (N_idx tm te) "phi" y = phi /\ var (N_idx tm te) "dphidN" y = - sqrt 2 /\ List.length y = List.length (N_idx tm te).
Proof.
  intros HV E L C. pose proof (exp_pos (2 * n)) as EP.
  assert (HA : 0 < pV U phi / 2 * exp (2 * n) - 0) by (rewrite Rminus_0_r; apply Rmult_lt_0_compat; lra).
  assert (D : exists o aH, ic = mkic (IN 0 U tm te) phi t eta xe (InN n) (pV U phi) (Fin n) o aH (Fin (sqrt (pV U phi / 2))) None None).
  { unfold is_init in E. cbn [kw_of kw_N kw_O ie_U ie_K] in E. rewrite fdiv_fin in E by lra. cbn [fmul fexp fsub] in E.
    destruct (flt (Fin (pV U phi / 2 * exp (2 * n) - 0)) (Fin 0)) eqn:F; [apply flt_iff in F; lra|]. cbn [bind] in E.
    assert (HE : fsqrt (Fin (pV U phi / 2 - 0 * exp (-2 * n))) = Fin (sqrt (pV U phi / 2))).
    { replace (pV U phi / 2 - 0 * exp (-2 * n)) with (pV U phi / 2) by ring. rewrite fsqrt_fin by lra. reflexivity. }
    match type of E with context [mkic _ _ _ _ _ _ _ _ _ _ ?h _ _] => change h with (fsqrt (Fin (pV U phi / 2 - 0 * exp (-2 * n)))) in E end.
    rewrite HE in E. injection E as <-. eexists. eexists. reflexivity. }
  destruct D as (o & aH & ->).
  assert (S0 : 0 < sqrt (pV U phi / 2)) by (apply sqrt_lt_R0; lra).
  assert (D : fdiv (fneg (fsqrt (Fin (pV U phi)))) (Fin (sqrt (pV U phi / 2))) = Fin (- sqrt 2)).
  { rewrite fsqrt_fin by lra. cbn [fneg]. rewrite fdiv_fin by lra. f_equal.
    replace (pV U phi) with (2 * (pV U phi / 2)) at 1 by field. rewrite sqrt_mult by lra. field. lra. }
  unfold is_call in C. cbn [ic_eqs ic_dphi ic_N ic_phi ic_eta ic_t ic_V ic_H ic_O ic_aH ic_input ic_x_end ie_te ie_idx ie_U ie_K bind] in C. rewrite D in C. set (d := - sqrt 2) in *. clearbody d. clear D.
  assert (LN : List.length y = List.length (N_idx tm te)).
  { rewrite <- (map_length Fin y). destruct tm, te; cbn in L; lenn L; try destruct t; try destruct eta; cbn in C; try discriminate; injection C as _ C; rewrite <- C; reflexivity. }
  split; [|split; [|exact LN] ];
  destruct tm, te; cbn in L; lenn L; try destruct t; try destruct eta; cbn in C; try discriminate; injection C as _ C;
  (destruct y as [|a1 [|a2 rs] ]; try discriminate; injection C as C1 C2; subst; reflexivity).
Qed.

(** above phi_end the slope is below sqrt 2 *)
Lemma lam_lt P L : featureless P -> valid P -> L <> 0 -> dw_ge1 P -> forall x e, branch P x -> branch P e -> eps1V P e = 1 -> e < x -> dV P L x / V P L x < sqrt 2.
Proof.
  intros HF HV HL HD x e Bx Be Ee LE. pose proof (branch_lam2 P L HF HV HL x Bx) as W. pose proof (eps1_decr P e x HF HV HD Be Bx LE) as Q.
  assert (S2 : sqrt 2 * sqrt 2 = 2) by (apply sqrt_sqrt; lra). assert (S0 : 0 < sqrt 2) by (apply sqrt_lt_R0; lra).
  set (l := dV P L x / V P L x) in *. apply Rnot_le_lt. intros X. nra.
Qed.

Section Run.
Variables (P : pot) (L : R) (tm te : bool).
Let U := potfun_of P L.
Hypotheses (HF : featureless P) (HV : valid P) (HL : L <> 0) (HD : dw_ge1 P).
Variables (phi_i N_i : R) (y1 : list R).
Hypothesis HB : branch P phi_i.
Hypothesis E1 : var (N_idx tm te) "phi" y1 = phi_i.
Hypothesis E2 : var (N_idx tm te) "dphidN" y1 = - sqrt 2.
Let lm := dV P L phi_i / V P L phi_i.
Hypothesis LM : lm < sqrt 2.
Let M0 := phi_i / lm.

Lemma st_lm : 0 < lm.
Proof. apply (lam_pos P L HF HV HL _ HB). Qed.
Lemma st_M0 : 0 < M0.
Proof. pose proof (branch_gt0 P phi_i HB) as G. unfold M0. apply Rdiv_lt_0_compat; [exact G|apply st_lm]. Qed.
Section One.
Variables (y : R -> list R) (a b : R).
Hypothesis B : N_background 0 U tm te y a b.
Hypothesis HT : a < N_i < b.
Hypothesis Ey : y N_i = y1.
Let Hf := N_Hub 0 U tm te y.
Let q (s : R) := Hf s * N_dphi tm te y s.
Lemma st_F : N_phi tm te y N_i = phi_i /\ N_dphi tm te y N_i = - sqrt 2.
Proof. split; [unfold N_phi; rewrite Ey; exact E1|unfold N_dphi; rewrite Ey; exact E2]. Qed.
Lemma st_flow s : N_i <= s < b ->
  is_derive (N_phi tm te y) s (/ Hf s * q s) /\ is_derive q s (/ Hf s * (-3 * Hf s * q s - dV P L (N_phi tm te y s))) /\
  is_derive (fun x => x) s (/ Hf s * Hf s) /\ is_derive Hf s (/ Hf s * (- (q s)^2 / 2)) /\
  3 * (Hf s)^2 = (q s)^2 / 2 + V P L (N_phi tm te y s) /\ 0 < Hf s /\ 0 < / Hf s.
Proof. intros Hs. exact (N_flow P L tm te y a b B s ltac:(lra)). Qed.
Lemma st_B0 : branch P (N_phi tm te y N_i).
Proof. rewrite (proj1 st_F). exact HB. Qed.
Lemma st_fast : q N_i < - Hf N_i * (dV P L (N_phi tm te y N_i) / V P L (N_phi tm te y N_i)).
Proof.
  destruct (st_flow N_i ltac:(lra)) as (_ & _ & _ & _ & _ & HP & _). destruct st_F as [F1 F2]. unfold q. rewrite F1, F2. fold lm.
  rewrite Ropp_mult_distr_l_reverse. rewrite Ropp_mult_distr_r_reverse. apply Ropp_lt_contravar. apply Rmult_lt_compat_l; assumption.
Qed.
Lemma st_infl0 : V P L (N_phi tm te y N_i) - (q N_i)^2 = 0.
Proof.
  destruct (st_flow N_i ltac:(lra)) as (_ & _ & _ & _ & FR & HP & _). destruct st_F as [F1 F2].
  assert (S2 : sqrt 2 * sqrt 2 = 2) by (apply sqrt_sqrt; lra).
  assert (QE : (q N_i)^2 = 2 * (Hf N_i)^2) by (unfold q; rewrite F2; replace ((Hf N_i * - sqrt 2)^2) with (sqrt 2 * sqrt 2 * (Hf N_i)^2) by ring; rewrite S2; ring). lra.
Qed.
(** inflation begins at the start: the indicator crosses zero upwards *)
Lemma st_begins : is_derive (fun s => V P L (N_phi tm te y s) - (q s)^2) N_i (3 * V P L phi_i * (2 - sqrt 2 * lm)) /\ 0 < 3 * V P L phi_i * (2 - sqrt 2 * lm).
Proof.
  destruct (st_flow N_i ltac:(lra)) as (D1 & D2 & _ & _ & FR & HP & _). destruct st_F as [F1 F2]. destruct (branch_pos P L phi_i HF HV HL HB) as [V0 V1].
  destruct (branch_derivs P L HF HV _ st_B0) as [D3 _]. assert (S2 : sqrt 2 * sqrt 2 = 2) by (apply sqrt_sqrt; lra). assert (S0 : 0 < sqrt 2) by (apply sqrt_lt_R0; lra).
  pose proof st_infl0 as Z. split.
  - evar_last; [auto_derive; [repeat split; exd|reflexivity]|]. undd. toR. unfold q in *. rewrite F1, F2 in *.
    assert (W : V P L phi_i = 2 * (Hf N_i)^2) by (replace ((Hf N_i * - sqrt 2)^2) with (sqrt 2 * sqrt 2 * (Hf N_i)^2) in Z by ring; rewrite S2 in Z; lra).
    assert (Q1 : dV P L phi_i = lm * V P L phi_i) by (unfold lm; field; lra). rewrite Q1, W. set (h := Hf N_i) in *. set (r2 := sqrt 2) in *. clearbody h r2 lm. clear - S2 HP.
    assert (Q2 : 3 * (2 * h^2) * (2 - r2 * lm) = 3 * (2 * h^2) * (r2 * r2 - r2 * lm)) by (rewrite S2; reflexivity). rewrite Q2. field. lra.
  - apply Rmult_lt_0_compat; [lra|]. nra.
Qed.
Section Within.
Variable n : R.
Hypothesis Hn : N_i <= n < b.
Hypothesis INF : forall s, N_i < s <= n -> 0 < N_inflating 0 U tm te s (y s).
Lemma st_inf s : N_i <= s <= n -> 0 <= V P L (N_phi tm te y s) - (q s)^2.
Proof.
  intros Hs. destruct (Req_dec s N_i) as [->|NE]; [rewrite st_infl0; lra|]. left. pose proof (INF s ltac:(lra)) as X. pose proof (run_infl P L tm te y a b B s ltac:(lra)) as RI. change (potfun_of P L) with U in RI. rewrite RI in X. exact X.
Qed.
Lemma st_stay : n - N_i < M0 /\ 0 < N_phi tm te y n <= phi_i /\ - sqrt 2 <= N_dphi tm te y n <= 0 /\ V P L phi_i * exp (- (1 + 2 * M0)) <= V P L (N_phi tm te y n).
Proof.
  pose proof (f_upper P L HF HV HL HD (N_phi tm te y) q (fun x => x) Hf (fun s => / Hf s) N_i b st_flow st_B0 st_fast n Hn st_inf) as X. cbv beta in X.
  pose proof (f_pos P L HF HV HD (N_phi tm te y) q (fun x => x) Hf (fun s => / Hf s) N_i b st_flow st_B0 n Hn st_inf n ltac:(lra)) as POS.
  pose proof (f_branch P L HF HV HL HD (N_phi tm te y) q (fun x => x) Hf (fun s => / Hf s) N_i b st_flow st_B0 st_fast n Hn st_inf n ltac:(lra)) as [LE _].
  pose proof (f_v2 P L HF HV HL HD (N_phi tm te y) q (fun x => x) Hf (fun s => / Hf s) N_i b st_flow st_B0 st_fast n Hn st_inf n ltac:(lra)) as EV. cbv beta in EV.
  pose proof (f_V P L HF HV HL HD (N_phi tm te y) q (fun x => x) Hf (fun s => / Hf s) N_i b st_flow st_B0 st_fast n Hn st_inf) as EE. cbv beta in EE.
  destruct st_F as [F1 F2]. rewrite F1 in *. fold lm in X. fold M0 in X. destruct (st_flow n ltac:(lra)) as (_ & _ & _ & _ & _ & HP & _).
  destruct (branch_pos P L phi_i HF HV HL HB) as [V0 V1].
  split; [exact X|]. split; [split; assumption|]. split.
  - replace (N_dphi tm te y n) with (q n / Hf n) by (unfold q; field; lra). exact EV.
  - eapply Rle_trans; [|apply EE; intros s Hs; pose proof (INF s ltac:(lra)) as X1; pose proof (run_infl P L tm te y a b B s ltac:(lra)) as RI; change (potfun_of P L) with U in RI; rewrite RI in X1; exact X1].
    apply Rmult_le_compat_l; [lra|]. left. apply exp_increasing. lra.
Qed.
End Within.
End One.

(** every evolution from the start that inflates throughout can be continued by a fixed amount *)
Lemma st_more : exists d, 0 < d /\ forall y a b, N_background 0 U tm te y a b -> a < N_i < b -> y N_i = y1 ->
  (forall s, N_i < s < b -> 0 < N_inflating 0 U tm te s (y s)) ->
  b <= N_i + M0 /\ exists z, N_background 0 U tm te z a (b + d) /\ z N_i = y1.
Proof.
  destruct (branch_pos P L phi_i HF HV HL HB) as [V0 V1]. pose proof (branch_gt0 P phi_i HB) as G. pose proof st_M0 as PM.
  set (eta := V P L phi_i * exp (- (1 + 2 * M0))). assert (HE : 0 < eta) by (apply Rmult_lt_0_compat; [exact V0|apply exp_pos]).
  destruct (V_small P L eta HF HV HD HL HE) as (d0 & Hd0 & SMALL).
  destruct (branch_room P HF HV HD phi_i HB) as (rm & Hrm & RM).
  set (dd := Rmin d0 phi_i). assert (DD : 0 < dd /\ dd <= d0 /\ dd <= phi_i) by (unfold dd, Rmin; destruct (Rle_dec _ _); lra).
  set (r := Rmin (dd / 2) (Rmin rm (1/4))). assert (RR : 0 < r /\ r <= dd / 2 /\ r <= rm /\ r <= 1/4) by (unfold r, Rmin; repeat destruct (Rle_dec _ _); lra).
  set (m := dd - r). assert (Bm : branch P m) by (apply RM; unfold m; lra).
  destruct (branch_pos P L m HF HV HL Bm) as [Vm _].
  assert (S2 : sqrt 2 * sqrt 2 = 2) by (apply sqrt_sqrt; lra). assert (S0 : 0 < sqrt 2) by (apply sqrt_lt_R0; lra). assert (S1 : sqrt 2 < 3/2) by nra.
  assert (V6 : forall v, - sqrt 2 - r <= v <= r -> 2 <= 6 - v^2) by (intros v Hv; nra).
  destruct (C119_efolds_continues 0 U tm te m (phi_i + r) (- sqrt 2 - r) r (N_i - r) (N_i + M0 + r) (V P L m / 3) 2 r) as (d & Hd & EX); try lra.
  - intros x Hx. apply potfun_smooth, branch_in_domain; try assumption. apply RM. unfold m in *. lra.
  - intros v Hv. pose proof (V6 v Hv). rewrite Rabs_right; lra.
  - intros x v n Hx Hv Hn. pose proof (V6 v Hv). pose proof (pow2_ge_0 v). unfold N_get_H2, U, potfun_of. cbn [pV].
    assert (Bx : branch P x) by (apply RM; unfold m in *; lra). pose proof (V_incr P L m x HF HV HL Bm Bx ltac:(lra)) as VJ.
    apply Rmult_le_reg_r with (6 - v^2); [lra|]. replace ((2 * V P L x - 6 * 0 * exp (-2 * n)) / (6 - v^2) * (6 - v^2)) with (2 * V P L x) by (field; lra). nra.
  - exists d. split; [exact Hd|]. intros y a b B HT Ey INF.
    assert (ST : forall n, N_i <= n < b -> _) by (intros n Hn; exact (st_stay y a b B HT Ey n Hn ltac:(intros s Hs; apply INF; lra))).
    assert (LB : b <= N_i + M0).
    { destruct (Rle_dec b (N_i + M0)) as [|X]; [assumption|]. exfalso. destruct (ST (N_i + M0) ltac:(lra)) as (Y & _). lra. }
    split; [exact LB|].
    destruct (EX y a b N_i B HT ltac:(lra) ltac:(lra)) as (z & Bz & Ez).
    + intros n Hn. destruct (ST n Hn) as (_ & F & Vv & VV). fold eta in VV. split; [|lra].
      assert (d0 <= N_phi tm te y n).
      { destruct (Rle_dec d0 (N_phi tm te y n)) as [|X]; [assumption|]. exfalso. pose proof (SMALL (N_phi tm te y n) ltac:(lra)). lra. }
      unfold m. lra.
    + exists z. split; [exact Bz|]. rewrite Ez by lra. exact Ey.
Qed.
(** so some evolution from the start comes to a state that does not inflate *)
Lemma st_end : List.length y1 = List.length (N_idx tm te) ->
  exists y a b n, N_background 0 U tm te y a b /\ a < N_i < b /\ y N_i = y1 /\ N_i < n < b /\ N_inflating 0 U tm te n (y n) <= 0.
Proof.
  intros LY. destruct (branch_room P HF HV HD phi_i HB) as (rm & Hrm & RM). pose proof (branch_gt0 P phi_i HB) as G. destruct (branch_pos P L phi_i HF HV HL HB) as [V0 V1].
  assert (S2 : sqrt 2 * sqrt 2 = 2) by (apply sqrt_sqrt; lra). assert (SS : (- sqrt 2)^2 = 2) by (replace ((- sqrt 2)^2) with (sqrt 2 * sqrt 2) by ring; exact S2).
  assert (HP : 0 < N_H2 0 U tm te N_i y1).
  { unfold N_H2, N_get_H2. rewrite E1, E2, SS. unfold U, potfun_of. cbn [pV]. apply Rdiv_lt_0_compat; lra. }
  set (r := Rmin rm (phi_i / 2)). assert (RR : 0 < r /\ r <= rm /\ r <= phi_i / 2) by (unfold r, Rmin; destruct (Rle_dec _ _); lra).
  destruct (C119_efolds_state 0 U tm te N_i y1 r LY) as (y0 & a & b0 & HT & B0 & Ey0); [lra| |exact HP| |].
  { intros x Hx. rewrite E1 in Hx. apply Rabs_le_between in Hx. apply potfun_smooth, branch_in_domain; try assumption. apply RM. lra. }
  { rewrite E2, SS. lra. }
  destruct st_more as (d & Hd & MORE). apply NNPP. intros NO.
  assert (ALL : forall y b, N_background 0 U tm te y a b -> N_i < b -> y N_i = y1 -> forall s, N_i < s < b -> 0 < N_inflating 0 U tm te s (y s)).
  { intros y b By Hb Ey s Hs. apply Rnot_le_lt. intros X. apply NO. exists y, a, b, s. split; [exact By|]; split; [lra|]; split; [exact Ey|]; split; [lra|exact X]. }
  assert (GO : forall k, exists y b, N_background 0 U tm te y a b /\ b0 + INR k * d <= b /\ y N_i = y1).
  { induction k as [|k (y & b & By & Hb & Ey)]; [exists y0, b0; split; [exact B0|]; split; [cbn; lra|exact Ey0]|].
    pose proof (pos_INR k) as PK. assert (0 <= INR k * d) by (apply Rmult_le_pos; lra).
    destruct (MORE y a b By ltac:(lra) Ey (ALL y b By ltac:(lra) Ey)) as (_ & z & Bz & Ez). exists z, (b + d). split; [exact Bz|]. split; [rewrite S_INR; lra|exact Ez]. }
  destruct (archimed_cor1 (d / (M0 + 1))) as (k & Hk & K0); [apply Rdiv_lt_0_compat; [exact Hd|pose proof st_M0; lra]|].
  assert (KP : 0 < INR k) by (apply lt_0_INR; exact K0). pose proof st_M0 as PM.
  assert (KD : M0 + 1 < INR k * d).
  { apply (Rmult_lt_compat_r (INR k * (M0 + 1))) in Hk; [|apply Rmult_lt_0_compat; lra].
    replace (/ INR k * (INR k * (M0 + 1))) with (M0 + 1) in Hk by (field; lra).
    replace (d / (M0 + 1) * (INR k * (M0 + 1))) with (INR k * d) in Hk by (field; lra). exact Hk. }
  destruct (GO k) as (y & b & By & Hb & Ey). destruct (MORE y a b By ltac:(lra) Ey (ALL y b By ltac:(lra) Ey)) as (X & _). lra.
Qed.
(** a function with positive derivative at a zero *)
Lemma crosses (f : R -> R) (x l : R) : is_derive f x l -> 0 < l -> f x = 0 -> exists d, 0 < d /\ (forall s, x - d < s < x -> f s < 0) /\ (forall s, x < s < x + d -> 0 < f s).
Proof.
  intros D L0 Z. apply is_derive_Reals in D. destruct (D (l / 2) ltac:(lra)) as [d Hd]. exists d. split; [apply cond_pos|].
  assert (Q : forall s, s <> x -> Rabs (s - x) < d -> 0 < (f s) / (s - x)).
  { intros s NE A. specialize (Hd (s - x) ltac:(intros X; apply NE; lra) A). replace (x + (s - x)) with s in Hd by ring. rewrite Z, Rminus_0_r in Hd. apply Rabs_def2 in Hd. lra. }
  split; intros s Hs.
  - assert (X : 0 < f s / (s - x)) by (apply Q; [intros X0; lra|apply Rabs_def1; lra]). assert (E : f s = f s / (s - x) * (s - x)) by (field; lra). rewrite E. nra.
  - assert (X : 0 < f s / (s - x)) by (apply Q; [intros X0; lra|apply Rabs_def1; lra]). assert (E : f s = f s / (s - x) * (s - x)) by (field; lra). rewrite E. nra.
Qed.
Lemma st_core e : branch P e -> eps1V P e = 1 -> Nfun P e e = 0 -> List.length y1 = List.length (N_idx tm te) ->
  exists y a b N_end, a < N_i < N_end /\ N_end < b /\ N_background 0 U tm te y a b /\ y N_i = y1 /\
    (forall n, a < n < N_i -> N_inflating 0 U tm te n (y n) < 0) /\ N_inflating 0 U tm te N_i (y N_i) = 0 /\
    (forall n, N_i < n < N_end -> 0 < N_inflating 0 U tm te n (y n)) /\ N_inflating 0 U tm te N_end (y N_end) = 0 /\
    Nfun P e phi_i - (sqrt 2 / lm - 1) / 2 <= N_end - N_i <= M0.
Proof.
  intros Be Ee Ne L1. destruct (st_end L1) as (y & a & b & n & B & HT & Ey & Hn & END).
  pose proof (run_infl P L tm te y a b B) as RI. cbv beta in RI. pose proof (run_cont_infl P L tm te N_i y a b B HT n ltac:(lra)) as CO.
  destruct (st_begins y a b B HT Ey) as [DB PB]. pose proof (st_infl0 y a b B HT Ey) as Z0. change (potfun_of P L) with U in RI, CO.
  set (f := fun s => V P L (N_phi tm te y s) - (N_Hub 0 U tm te y s * N_dphi tm te y s)^2) in *.
  destruct (crosses f N_i _ DB PB Z0) as (d & Hd & BEF & AFT). rewrite RI in END by lra. change (f n <= 0) in END.
  assert (ND : N_i + d <= n) by (destruct (Rle_dec (N_i + d) n) as [|X]; [assumption|]; exfalso; pose proof (AFT n ltac:(lra)); lra).
  set (p := N_i + d / 2). assert (Hp : N_i < p < N_i + d) by (unfold p; lra).
  assert (CP : cont_in f p n) by (intros s Hs; apply CO; lra).
  destruct (first_zero f p n 0 ltac:(lra) CP (AFT p ltac:(lra)) END) as (N_end & HN & Z & BE).
  assert (INF : forall s, N_i < s < N_end -> 0 < f s) by (intros s Hs; destruct (Rlt_dec s p) as [X|X]; [apply AFT; lra|apply BE; lra]).
  set (a' := Rmax a (N_i - d)). assert (HA : a <= a' /\ a' < N_i /\ N_i - d <= a') by (unfold a'; split; [apply Rmax_l|split; [apply Rmax_lub_lt; lra|apply Rmax_r] ]).
  pose proof (N_restrict 0 U tm te y a b a' b B ltac:(lra) ltac:(lra)) as B'.
  exists y, a', b, N_end. split; [lra|]. split; [lra|]. split; [exact B'|]. split; [exact Ey|].
  split; [intros s Hs; rewrite RI by lra; apply BEF; lra|]. split; [rewrite RI by lra; exact Z0|].
  split; [intros s Hs; rewrite RI by lra; apply INF, Hs|]. split; [rewrite RI by lra; exact Z|].
  assert (HNE : N_i <= N_end < b) by lra.
  assert (W : forall s, N_i <= s <= N_end -> 0 <= f s).
  { intros s Hs. destruct (Req_dec s N_i) as [->|N1]; [right; symmetry; exact Z0|]. destruct (Req_dec s N_end) as [->|N2]; [right; symmetry; exact Z|]. left. apply INF. lra. }
  set (q := fun s => N_Hub 0 U tm te y s * N_dphi tm te y s).
  pose proof (f_lower P L HF HV HL HD (N_phi tm te y) q (fun x => x) (N_Hub 0 U tm te y) (fun s => / N_Hub 0 U tm te y s) N_i b (st_flow y a b B HT)
    (st_B0 y Ey) (st_fast y a b B HT Ey) N_end HNE W e ltac:(lra) INF Z Be Ee Ne) as LO.
  pose proof (f_upper P L HF HV HL HD (N_phi tm te y) q (fun x => x) (N_Hub 0 U tm te y) (fun s => / N_Hub 0 U tm te y s) N_i b (st_flow y a b B HT)
    (st_B0 y Ey) (st_fast y a b B HT Ey) N_end HNE W) as UP.
  cbv beta in LO, UP. rewrite (proj1 (st_F y Ey)) in LO, UP. split; [exact LO|left; exact UP].
Qed.
End Run.

(** C125: the start written by InflationStartIC above phi_end has an evolution for which inflation begins exactly there,
    goes on without a break, and ends; the number of e-folds lies between the slow-roll count less
    (sqrt 2 V/V' - 1)/2 and phi V/V'. *)
Theorem C125_efolds : forall root P L tm te phi_i t_i eta_i x_end N_i e ic y0 ic' y1,
  let U := potfun_of P L in
  root_spec root -> featureless P -> valid P -> (forall p phi0, P = DoubleWell p phi0 -> 1 <= p) -> P <> DoubleWell 1 (sqrt 2) ->
  L <> 0 -> branch P phi_i -> phi_end root P L = Ok e -> e < phi_i ->
  is_init (IN 0 U tm te) phi_i t_i eta_i x_end (kw_of (InN N_i)) = Ok ic ->
  List.length y0 = List.length (N_idx tm te) -> is_call ic y0 = Ok (ic', map Fin y1) ->
  exists y a b N_end N_sr, a < N_i < N_end /\ N_end < b /\ N_background 0 U tm te y a b /\ y N_i = y1 /\
    (forall n, a < n < N_i -> N_inflating 0 U tm te n (y n) < 0) /\ N_inflating 0 U tm te N_i (y N_i) = 0 /\
    (forall n, N_i < n < N_end -> 0 < N_inflating 0 U tm te n (y n)) /\ N_inflating 0 U tm te N_end (y N_end) = 0 /\
    sr_phi2N root P L phi_i = Ok N_sr /\
    N_sr - (sqrt 2 * (V P L phi_i / dV P L phi_i) - 1) / 2 <= N_end - N_i <= phi_i * (V P L phi_i / dV P L phi_i).
Proof.
  intros root P L tm te phi_i t_i eta_i x_end N_i e ic y0 ic' y1 U HR HF HV HD HN HL HB HE LE SI LY SC.
  destruct (branch_pos P L phi_i HF HV HL HB) as [V0 V1].
  destruct (is_start_N U tm te phi_i t_i eta_i x_end N_i ic y0 ic' y1 V0 SI LY SC) as (E1 & E2 & L1).
  pose proof (phi_end_branch root P L e HR HF HV HL HN HE) as Be. destruct (phi_end_spec root P L e HR HF HV HL HE) as [_ Ee].
  pose proof (Nfun_end root P L e HF HV HE) as Ne. pose proof (lam_lt P L HF HV HL HD phi_i e HB Be Ee LE) as LM.
  destruct (st_core P L tm te HF HV HL HD phi_i N_i y1 HB E1 E2 LM e Be Ee Ne L1) as (y & a & b & N_end & A1 & A2 & B & Ey & I1 & I2 & I3 & Z & LO & UP).
  exists y, a, b, N_end, (Nfun P e phi_i). repeat (split; [first [assumption|apply Nfun_ok with (1 := HE)]|]). split.
  - eapply Rle_trans; [|exact LO]. right. field. lra.
  - eapply Rle_trans; [exact UP|]. right. field. lra.
Qed.
(** ... and that is when every evolution from this start stops inflating *)
Theorem C125_every_evolution : forall root P L tm te phi_i t_i eta_i x_end N_i e ic y0 ic' y1,
  let U := potfun_of P L in
  root_spec root -> featureless P -> valid P -> (forall p phi0, P = DoubleWell p phi0 -> 1 <= p) -> P <> DoubleWell 1 (sqrt 2) ->
  L <> 0 -> branch P phi_i -> phi_end root P L = Ok e -> e < phi_i ->
  is_init (IN 0 U tm te) phi_i t_i eta_i x_end (kw_of (InN N_i)) = Ok ic ->
  List.length y0 = List.length (N_idx tm te) -> is_call ic y0 = Ok (ic', map Fin y1) ->
  exists N_before N_end, N_before < N_i < N_end /\ forall z a b, N_background 0 U tm te z a b -> a < N_i < b -> z N_i = y1 ->
    (forall n, a < n -> N_before < n < N_i -> N_inflating 0 U tm te n (z n) < 0) /\
    (forall n, N_i < n < N_end -> n < b -> 0 < N_inflating 0 U tm te n (z n)) /\ (N_end < b -> N_inflating 0 U tm te N_end (z N_end) = 0).
Proof.
  intros root P L tm te phi_i t_i eta_i x_end N_i e ic y0 ic' y1 U HR HF HV HD HN HL HB HE LE SI LY SC.
  destruct (C125_efolds root P L tm te phi_i t_i eta_i x_end N_i e ic y0 ic' y1 HR HF HV HD HN HL HB HE LE SI LY SC) as (y & a & b & N_end & N_sr & A1 & A2 & B & Ey & I1 & I2 & I3 & Z & _).
  exists a, N_end. split; [lra|]. intros z a' b' Bz Hz Ez.
  assert (EQ : forall n, a < n <= N_end -> a' < n < b' -> z n = y n).
  { intros n Hn Hb. symmetry. apply (C110_efolds 0 U tm te y z a b a' b' N_i B Bz); try lra. congruence. }
  split; [intros n Ha Hn; rewrite EQ by lra; apply I1; lra|]. split; [intros n Hn Hb; rewrite EQ by lra; apply I3, Hn|intros Hb; rewrite EQ by lra; exact Z].
Qed.

(** an evolution in e-folds that tracks the time, read in cosmic time *)
Lemma to_time U te z a b N_i N_end : N_background 0 U true te z a b -> a < N_i < N_end -> N_end < b ->
  let tau := N_t true te z in
  exists y a' b' nu, a' < tau N_i < tau N_end /\ tau N_end < b' /\ T_background 0 U te y a' b' /\
    (forall t, a' < t < b' -> a < nu t < b /\ y t = state_N2T 0 U true te (nu t) (z (nu t)) /\ T_inflating U te t (y t) = N_inflating 0 U true te (nu t) (z (nu t)) /\ T_N te y t = nu t) /\
    (forall s t, a' < s -> s < t -> t < b' -> nu s < nu t) /\ nu (tau N_i) = N_i /\ nu (tau N_end) = N_end.
Proof.
  intros B A1 A2 tau. set (n0 := (a + N_i) / 2). set (n1 := (N_end + b) / 2).
  destruct (inv_clock tau (fun n => 1 / N_Hub 0 U true te z n) n0 n1) as (MO & nu & NU); [unfold n0, n1; lra| |].
  { intros n Hn. assert (Hn' : a < n < b) by (unfold n0, n1 in Hn; lra). destruct (N_comps 0 U true te z a b B n Hn') as [_ [_ [D _] ] ]. split; [exact (D eq_refl)|].
    apply Rdiv_lt_0_compat; [lra|apply (N_pos 0 U true te z a b B n Hn')]. }
  assert (O1 : tau n0 < tau N_i) by (apply MO; unfold n0, n1; lra).
  assert (O2 : tau N_i < tau N_end) by (apply MO; unfold n0, n1; lra).
  assert (O3 : tau N_end < tau n1) by (apply MO; unfold n0, n1; lra).
  assert (INJ : forall n, n0 < n < n1 -> nu (tau n) = n).
  { intros n Hn. assert (T0 : tau n0 < tau n < tau n1) by (split; apply MO; lra). destruct (NU (tau n) T0) as [B1 B2].
    destruct (Rtotal_order (nu (tau n)) n) as [X|[X|X] ]; [|exact X|].
    - pose proof (MO (nu (tau n)) n ltac:(lra) X ltac:(lra)). lra.
    - pose proof (MO n (nu (tau n)) ltac:(lra) X ltac:(lra)). lra. }
  assert (IB : forall n, n0 < n < n1 -> a < n < b) by (intros n Hn; unfold n0, n1 in Hn; lra).
  assert (NI : n0 < N_i < n1) by (unfold n0, n1; lra). assert (NE : n0 < N_end < n1) by (unfold n0, n1; lra).
  pose proof (C17_tracked_time_is_time 0 U te z a b nu (tau n0) (tau n1) B ltac:(intros t Ht; destruct (NU t Ht) as [Q1 Q2]; split; [apply IB; exact Q1|exact Q2])) as BT.
  set (y := fun t => state_N2T 0 U true te (nu t) (z (nu t))) in *.
  exists y, (tau n0), (tau n1), nu. split; [lra|]. split; [exact O3|]. split; [exact BT|]. split; [|split; [|split; [exact (INJ N_i NI)|exact (INJ N_end NE)] ] ].
  - intros t Ht. destruct (NU t Ht) as [Q1 _]. split; [apply IB, Q1|]. split; [reflexivity|]. destruct B as [_ Q]. destruct (Q (nu t) (IB _ Q1)) as (HP & _). split.
    + assert (S2 : sqrt (N_H2 0 U true te (nu t) (z (nu t))) ^ 2 = N_H2 0 U true te (nu t) (z (nu t))) by (apply pow2_sqrt; lra).
      unfold T_inflating, N_inflating, y, state_N2T.
      replace (var (T_idx te) "phi" _) with (var (N_idx true te) "phi" (z (nu t))) by (destruct te; reflexivity).
      replace (var (T_idx te) "dphidt" _) with (var (N_idx true te) "dphidN" (z (nu t)) * sqrt (N_H2 0 U true te (nu t) (z (nu t)))) by (destruct te; reflexivity).
      rewrite Rpow_mult_distr, S2. ring.
    + unfold T_N, y, state_N2T. destruct te; reflexivity.
  - intros s t Hs Hst Ht. destruct (NU s ltac:(lra)) as [S1 S2]. destruct (NU t ltac:(lra)) as [T1 T2].
    destruct (Rlt_dec (nu s) (nu t)) as [|X]; [assumption|]. exfalso. destruct (Req_dec (nu s) (nu t)) as [Y|Y]; [rewrite Y in S2; lra|].
    pose proof (MO (nu t) (nu s) ltac:(lra) ltac:(lra) ltac:(lra)). lra.
Qed.
(** what InflationStartIC writes in a flat universe, in cosmic time *)
Lemma is_start_T U te phi t eta xe n ic y0 ic' y : 0 < pV U phi -> is_init (IT 0 U te) phi t eta xe (kw_of (InN n)) = Ok ic ->
  List.length y0 = List.length (T_idx te) -> is_call ic y0 = Ok (ic', map Fin y) ->
  var (T_idx te) "phi" y = phi /\ var (T_idx te) "dphidt" y = - sqrt (pV U phi) /\ var (T_idx te) "_N" y = n /\ List.length y = List.length (T_idx te).
Proof.
  intros HV E L C. pose proof (exp_pos (2 * n)) as EP.
  assert (HA : 0 < pV U phi / 2 * exp (2 * n) - 0) by (rewrite Rminus_0_r; apply Rmult_lt_0_compat; lra).
  assert (D : exists o aH h, ic = mkic (IT 0 U te) phi t eta xe (InN n) (pV U phi) (Fin n) o aH h None None).
  { unfold is_init in E. cbn [kw_of kw_N kw_O ie_U ie_K] in E. rewrite fdiv_fin in E by lra. cbn [fmul fexp fsub] in E.
    destruct (flt (Fin (pV U phi / 2 * exp (2 * n) - 0)) (Fin 0)) eqn:F; [apply flt_iff in F; lra|]. cbn [bind] in E.
    injection E as <-. do 3 eexists. reflexivity. }
  destruct D as (o & aH & h & ->).
  assert (D : fneg (fsqrt (Fin (pV U phi))) = Fin (- sqrt (pV U phi))) by (rewrite fsqrt_fin by lra; reflexivity).
  unfold is_call in C. cbn [ic_eqs ic_dphi ic_N ic_phi ic_eta ic_t ic_V ic_H ic_O ic_aH ic_input ic_x_end ie_te ie_idx ie_U ie_K bind] in C. rewrite D in C. set (d := - sqrt (pV U phi)) in *. clearbody d. clear D.
  assert (LN : List.length y = List.length (T_idx te)).
  { rewrite <- (map_length Fin y). destruct te; cbn in L; lenn L; try destruct t; try destruct eta; cbn in C; try discriminate; injection C as _ C; rewrite <- C; reflexivity. }
  split; [|split; [|split; [|exact LN] ] ];
  destruct te; cbn in L; lenn L; try destruct t; try destruct eta; cbn in C; try discriminate; injection C as _ C;
  (destruct y as [|a1 [|a2 [|a3 rs] ] ]; try discriminate; injection C as C1 C2 C3; subst; reflexivity).
Qed.
(** C125 in cosmic time *)
Theorem C125_time : forall root P L te phi_i t_i eta_i x_end N_i e ic y0 ic' y1,
  let U := potfun_of P L in
  root_spec root -> featureless P -> valid P -> (forall p phi0, P = DoubleWell p phi0 -> 1 <= p) -> P <> DoubleWell 1 (sqrt 2) ->
  L <> 0 -> branch P phi_i -> phi_end root P L = Ok e -> e < phi_i ->
  is_init (IT 0 U te) phi_i (Some t_i) eta_i x_end (kw_of (InN N_i)) = Ok ic ->
  List.length y0 = List.length (T_idx te) -> is_call ic y0 = Ok (ic', map Fin y1) ->
  exists y a b t_end N_sr, a < t_i < t_end /\ t_end < b /\ T_background 0 U te y a b /\ y t_i = y1 /\
    (forall t, a < t < t_i -> T_inflating U te t (y t) < 0) /\ T_inflating U te t_i (y t_i) = 0 /\
    (forall t, t_i < t < t_end -> 0 < T_inflating U te t (y t)) /\ T_inflating U te t_end (y t_end) = 0 /\
    T_N te y t_i = N_i /\ sr_phi2N root P L phi_i = Ok N_sr /\
    N_sr - (sqrt 2 * (V P L phi_i / dV P L phi_i) - 1) / 2 <= T_N te y t_end - N_i <= phi_i * (V P L phi_i / dV P L phi_i).
Proof.
  intros root P L te phi_i t_i eta_i x_end N_i e ic y0 ic' y1 U HR HF HV HD HN HL HB HE LE SI LY SC.
  destruct (branch_pos P L phi_i HF HV HL HB) as [V0 V1].
  destruct (is_start_T U te phi_i (Some t_i) eta_i x_end N_i ic y0 ic' y1 V0 SI LY SC) as (E1 & E2 & E3 & L1).
  pose proof (phi_end_branch root P L e HR HF HV HL HN HE) as Be. destruct (phi_end_spec root P L e HR HF HV HL HE) as [_ Ee].
  pose proof (Nfun_end root P L e HF HV HE) as Ne. pose proof (lam_lt P L HF HV HL HD phi_i e HB Be Ee LE) as LM.
  set (x1 := ([phi_i; - sqrt 2; t_i] ++ (if te then [var (T_idx te) "eta" y1] else []))%list).
  assert (X1 : var (N_idx true te) "phi" x1 = phi_i) by (unfold x1; destruct te; reflexivity).
  assert (X2 : var (N_idx true te) "dphidN" x1 = - sqrt 2) by (unfold x1; destruct te; reflexivity).
  assert (X3 : List.length x1 = List.length (N_idx true te)) by (unfold x1; destruct te; reflexivity).
  assert (X4 : var (N_idx true te) "t" x1 = t_i) by (unfold x1; destruct te; reflexivity).
  destruct (st_core P L true te HF HV HL HD phi_i N_i x1 HB X1 X2 LM e Be Ee Ne X3) as (z & a & b & N_end & A1 & A2 & B & Ez & I1 & I2 & I3 & Z & LO & UP).
  change (potfun_of P L) with U in B, I1, I2, I3, Z.
  destruct (to_time U te z a b N_i N_end B A1 A2) as (y & a' & b' & nu & O1 & O2 & BT & Q & MO & J1 & J2). set (tau := N_t true te z) in *.
  assert (TI : tau N_i = t_i) by (unfold tau, N_t; rewrite Ez; exact X4). rewrite TI in *.
  assert (S2 : sqrt 2 * sqrt 2 = 2) by (apply sqrt_sqrt; lra). assert (SS : (- sqrt 2)^2 = 2) by (replace ((- sqrt 2)^2) with (sqrt 2 * sqrt 2) by ring; exact S2).
  assert (Y1 : y t_i = y1).
  { destruct (Q t_i ltac:(lra)) as (_ & -> & _). rewrite J1, Ez. unfold state_N2T. rewrite X1, X2.
    replace (- sqrt 2 * sqrt (N_H2 0 U true te N_i x1)) with (var (T_idx te) "dphidt" y1).
    2: { rewrite E2. unfold N_H2, N_get_H2. rewrite X1, X2, SS. replace (2 * pV U phi_i - 6 * 0 * exp (-2 * N_i)) with (2 * pV U phi_i) by ring.
         replace (2 * pV U phi_i / (6 - 2)) with (pV U phi_i / 2) by field. rewrite Ropp_mult_distr_l_reverse, <- sqrt_mult by (unfold U; cbn; lra). do 2 f_equal. field. }
    rewrite <- E3, <- E1. destruct te; cbn in L1.
    - destruct (len4 y1 L1) as (u & p & n & et & ->). reflexivity.
    - destruct (len3 y1 L1) as (u & p & n & ->). reflexivity. }
  exists y, a', b', (tau N_end), (Nfun P e phi_i). split; [lra|]. split; [exact O2|]. split; [exact BT|]. split; [exact Y1|].
  split; [intros t Ht; destruct (Q t ltac:(lra)) as (Q1 & _ & -> & _); pose proof (MO t t_i ltac:(lra) ltac:(lra) ltac:(lra)); apply I1; lra|].
  split; [destruct (Q t_i ltac:(lra)) as (_ & _ & -> & _); rewrite J1; exact I2|].
  split; [intros t Ht; destruct (Q t ltac:(lra)) as (Q1 & _ & -> & _); pose proof (MO t_i t ltac:(lra) ltac:(lra) ltac:(lra)); pose proof (MO t (tau N_end) ltac:(lra) ltac:(lra) ltac:(lra)); apply I3; lra|].
  split; [destruct (Q (tau N_end) ltac:(lra)) as (_ & _ & -> & _); rewrite J2; exact Z|].
  split; [destruct (Q t_i ltac:(lra)) as (_ & _ & _ & ->); exact J1|]. split; [apply Nfun_ok with (1 := HE)|].
  destruct (Q (tau N_end) ltac:(lra)) as (_ & _ & _ & ->). rewrite J2. split.
  - eapply Rle_trans; [|exact LO]. right. field. lra.
  - eapply Rle_trans; [exact UP|]. right. field. lra.
Qed.
(** C125: a bracket of starting fields to search for a wanted number of e-folds: the lower field inflates too little,
    the upper one long enough *)
Theorem C125_bracket : forall root P L tm te lo hi t_i eta_i x_end N_i N_tot N_sr e,
  let U := potfun_of P L in
  root_spec root -> featureless P -> valid P -> (forall p phi0, P = DoubleWell p phi0 -> 1 <= p) -> P <> DoubleWell 1 (sqrt 2) ->
  L <> 0 -> branch P lo -> branch P hi -> phi_end root P L = Ok e -> e < lo -> e < hi ->
  lo * (V P L lo / dV P L lo) < N_tot -> sr_phi2N root P L hi = Ok N_sr -> N_tot < N_sr - (sqrt 2 * (V P L hi / dV P L hi) - 1) / 2 ->
  forall phi ic y0 ic' y1, phi = lo \/ phi = hi ->
  is_init (IN 0 U tm te) phi t_i eta_i x_end (kw_of (InN N_i)) = Ok ic -> List.length y0 = List.length (N_idx tm te) -> is_call ic y0 = Ok (ic', map Fin y1) ->
  exists N_end, N_i < N_end /\ (phi = lo -> N_end - N_i - N_tot < 0) /\ (phi = hi -> 0 < N_end - N_i - N_tot) /\
    forall z a b, N_background 0 U tm te z a b -> a < N_i < b -> z N_i = y1 ->
    (forall n, N_i < n < N_end -> n < b -> 0 < N_inflating 0 U tm te n (z n)) /\ (N_end < b -> N_inflating 0 U tm te N_end (z N_end) = 0).
Proof.
  intros root P L tm te lo hi t_i eta_i x_end N_i N_tot N_sr e U HR HF HV HD HN HL B1 B2 HE L1 L2 LO SR HI phi ic y0 ic' y1 PH SI LY SC.
  assert (HB : branch P phi) by (destruct PH as [-> | ->]; assumption). assert (LE : e < phi) by (destruct PH as [-> | ->]; assumption).
  destruct (C125_efolds root P L tm te phi t_i eta_i x_end N_i e ic y0 ic' y1 HR HF HV HD HN HL HB HE LE SI LY SC) as (y & a & b & N_end & N_s & A1 & A2 & B & Ey & I1 & I2 & I3 & Z & S & W1 & W2).
  exists N_end. split; [lra|]. split; [intros ->; lra|]. split; [intros ->; rewrite SR in S; injection S as <-; lra|].
  intros z a' b' Bz Hz Ez.
  assert (EQ : forall n, N_i < n <= N_end -> a' < n < b' -> z n = y n).
  { intros n Hn Hb. symmetry. apply (C110_efolds 0 U tm te y z a b a' b' N_i B Bz); try lra. congruence. }
  split; [intros n Hn Hb; rewrite EQ by lra; apply I3, Hn|intros Hb; rewrite EQ by lra; exact Z].
Qed.

(** the field InflationStartIC writes, in any geometry *)
Lemma is_start_phi K U te phi t eta xe i ic y0 ic' y : is_init (IT K U te) phi t eta xe (kw_of i) = Ok ic ->
  List.length y0 = List.length (T_idx te) -> is_call ic y0 = Ok (ic', map Fin y) -> var (T_idx te) "phi" y = phi.
Proof.
  intros E L C. destruct (is_state (IT K U te) phi t eta xe _ ic ic' y0 _ eq_refl E L C) as [[_ F] [F1 [F2 _]]]. rewrite F1 in F. cbn [ie_idx ie_U] in F.
  destruct (F "phi") as [v [Fe Fc]]; [destruct te; cbn; tauto|]. unfold expected in Fe. cbn [String.eqb Ascii.eqb Bool.eqb] in Fe. rewrite F2 in Fe. injection Fe as <-. apply component_var, Fc.
Qed.
(** C125: in any geometry and for any potential, what InflationStartIC calls the start of inflation is one exactly when
    V' < 2 H sqrt V there; when V' > 2 H sqrt V it is the end of inflation *)
Theorem C125_onset : forall K U te phi t_i eta xe i ic y0 ic' y1, let V := pV U phi in
  0 < V -> admissible K V i -> is_init (IT K U te) phi (Some t_i) eta xe (kw_of i) = Ok ic ->
  List.length y0 = List.length (T_idx te) -> is_call ic y0 = Ok (ic', map Fin y1) ->
  exists H, 0 < H /\ ic_H ic = Fin H /\
  forall y a b, T_background K U te y a b -> a < t_i < b -> y t_i = y1 ->
    T_inflating U te t_i (y t_i) = 0 /\
    (pdV U phi < 2 * H * sqrt V -> exists d, 0 < d /\
       (forall t, t_i - d < t < t_i -> T_inflating U te t (y t) < 0) /\ (forall t, t_i < t < t_i + d -> 0 < T_inflating U te t (y t))) /\
    (2 * H * sqrt V < pdV U phi -> exists d, 0 < d /\
       (forall t, t_i - d < t < t_i -> 0 < T_inflating U te t (y t)) /\ (forall t, t_i < t < t_i + d -> T_inflating U te t (y t) < 0)).
Proof.
  intros K U te phi t_i eta xe i ic y0 ic' y1 V0 HV HA E L C.
  destruct (C31_time K U te phi (Some t_i) eta xe i ic y0 ic' y1 t_i HV HA E L C) as (Z & NEG & H2 & EH). fold V0 in HV.
  exists (sqrt (T_H2 K U te t_i y1)). split; [apply sqrt_lt_R0, H2|]. split; [exact EH|].
  intros y a b B HT Ey. rewrite Ey. split; [exact Z|].
  pose proof (is_start_phi K U te phi _ eta xe i ic y0 ic' y1 E L C) as EP.
  assert (ED : var (T_idx te) "dphidt" y1 = - sqrt V0).
  { unfold T_inflating in Z. rewrite EP in Z. fold V0 in Z. set (x := var (T_idx te) "dphidt" y1) in *. replace V0 with ((- x)^2) by (replace ((- x)^2) with (x^2) by ring; lra). rewrite sqrt_pow2 by lra. ring. }
  set (h := sqrt (T_H2 K U te t_i y1)) in *.
  assert (DB : is_derive (fun s => T_inflating U te s (y s)) t_i (3 * sqrt V0 * (2 * h * sqrt V0 - pdV U phi))).
  { destruct (T_comps K U te y a b B t_i HT) as (D1 & D2 & _). destruct B as [_ Q]. destruct (Q t_i HT) as (_ & SM & _). rewrite T_d2phi_eq in D2.
    assert (F1 : T_phi te y t_i = phi) by (unfold T_phi; rewrite Ey; exact EP). assert (F2 : T_dphi te y t_i = - sqrt V0) by (unfold T_dphi; rewrite Ey; exact ED).
    assert (F3 : T_Hub K U te y t_i = h) by (unfold T_Hub; rewrite Ey; reflexivity).
    change (fun s => T_inflating U te s (y s)) with (fun s => pV U (T_phi te y s) - (T_dphi te y s)^2).
    evar_last; [auto_derive; [repeat split; exd|reflexivity]|]. undd. toR. rewrite F1, F2, F3.
    assert (W : sqrt V0 * sqrt V0 = V0) by (apply sqrt_sqrt; lra). ring. }
  assert (S0 : 0 < sqrt V0) by (apply sqrt_lt_R0; exact HV).
  split; intros W.
  - assert (PP : 0 < 3 * sqrt V0 * (2 * h * sqrt V0 - pdV U phi)) by (apply Rmult_lt_0_compat; lra).
    apply (crosses _ _ _ DB PP). rewrite Ey. exact Z.
  - assert (PP : 0 < - (3 * sqrt V0 * (2 * h * sqrt V0 - pdV U phi))) by (rewrite Ropp_mult_distr_r; apply Rmult_lt_0_compat; lra).
    destruct (crosses (fun s => - T_inflating U te s (y s)) t_i _ (is_derive_opp _ _ _ DB) PP) as (d & Hd & X1 & X2); [rewrite Ey, Z; ring|].
    exists d. split; [exact Hd|]. split; intros t Ht; [pose proof (X1 t Ht)|pose proof (X2 t Ht)]; cbv beta in *; lra.
Qed.
