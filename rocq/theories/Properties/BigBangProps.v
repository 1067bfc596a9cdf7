(** Standard Big Bang evolution (bigbang.py): C59-C66, C80-C83; units: C67. *)
From Coq Require Import Reals List String Bool Lra Lia Psatz Ratan.
From Coquelicot Require Import Coquelicot.
From Verif Require Import Base Model.Float Model.Equations Model.ApproxPower Model.BigBang Spec.BigBangSpec Spec.CalibSpec Proofs.BaseLemmas Proofs.BigBangLines.
Import ListNotations.
Open Scope R_scope.
Open Scope string_scope.

(** ** C60, C61: the dividing lines *)
Theorem C60_no_big_bang_line :
  forall m, 0 <= m -> exists l, no_Big_Bang_line m = Ok l /\
  forall L, (L <= l -> has_big_bang 0 m (1 - m - L) L) /\ (l < L -> bounces 0 m (1 - m - L) L).
Proof.
  intros m [Hm|<-].
  - destruct (nbb_c m Hm) as (c & E & F & G). exists (4 * m * c ^ 3). split; [exact E|]. apply line_past; assumption.
  - exists 1. unfold no_Big_Bang_line. destruct (Req_EM_T 0 0) as [_|X]; [|lra]. split; [reflexivity|]. intros L. split.
    + intros HL x Hx. unfold E2. assert (0 <= (1 - L) * (x ^ 2 - 1)) by (apply Rmult_le_pos; nra). nra.
    + intros HL. exists (2 * L / (L - 1)). assert (A : 0 < L - 1) by lra. split.
      * apply Rmult_lt_reg_r with (L - 1); [exact A|]. unfold Rdiv. rewrite Rmult_assoc, Rinv_l by lra. lra.
      * unfold E2. replace (0 * (2 * L / (L - 1)) ^ 4 + 0 * (2 * L / (L - 1)) ^ 3 + (1 - 0 - L) * (2 * L / (L - 1)) ^ 2 + L)
          with (- (L * (3 * L + 1) / (L - 1))) by (field; lra).
        assert (0 < L * (3 * L + 1) / (L - 1)) by (apply Rdiv_lt_0_compat; nra). lra.
Qed.
Theorem C60_negative_matter : forall m, m < 0 -> no_Big_Bang_line m = Raise ValueError.
Proof.
  intros m Hm. unfold no_Big_Bang_line. destruct (Req_EM_T m 0); [lra|]. destruct (Rlt_dec 0 m); [lra|]. cbn.
  destruct (Rle_dec (1/2) m); [lra|reflexivity].
Qed.
Theorem C60_nonvacuous : no_Big_Bang_line (1/2) = Ok 2.
Proof.
  destruct (nbb_c (1/2) ltac:(lra)) as (c & E & F & G). rewrite E. f_equal.
  replace ((1 - 1/2) / (1/2)) with 1 in F by field.
  assert (c = 1) as ->; [|lra]. assert (Z : (c - 1) * (2 * c + 1) ^ 2 = 0) by (ring_simplify; lra).
  apply Rmult_integral in Z. destruct Z as [Z|Z]; [lra|]. assert (0 < (2 * c + 1) ^ 2) by (apply pow_lt; lra). lra.
Qed.
Theorem C61_recollapse_line :
  forall m, 0 <= m -> exists l, expand_recollapse_line m = Ok l /\
  forall L, (l <= L -> expands_forever 0 m (1 - m - L) L) /\ (L < l -> recollapses 0 m (1 - m - L) L).
Proof.
  intros m Hm. destruct (Rlt_dec m 1) as [L1|L1].
  - exists 0. unfold expand_recollapse_line. destruct (Rle_dec 0 m); [|lra]. destruct (Rlt_dec m 1); [|lra]. split; [reflexivity|].
    intros L. split.
    + intros HL x Hx. unfold E2. assert (0 <= x ^ 2) by apply pow2_ge_0. assert (0 <= L * (1 - x ^ 2)) by (apply Rmult_le_pos; nra).
      assert (0 <= m * x ^ 3) by (apply Rmult_le_pos; [lra|apply pow_le; lra]). assert (0 <= (1 - m) * x ^ 2) by (apply Rmult_le_pos; lra). lra.
    + apply neg_lambda. exact Hm.
  - destruct (rec_c m ltac:(lra)) as (c & E & F & G). exists (4 * m * c ^ 3). split; [exact E|]. apply line_future; try assumption; lra.
Qed.
Theorem C61_negative_matter : forall m, m < 0 -> expand_recollapse_line m = Raise ValueError.
Proof.
  intros m Hm. unfold expand_recollapse_line. destruct (Rle_dec 0 m); [lra|]. cbn. destruct (Rle_dec 1 m); [lra|reflexivity].
Qed.
Theorem C61_nonvacuous : exists l, expand_recollapse_line 2 = Ok l /\ 0 < l.
Proof.
  destruct (rec_c 2 ltac:(lra)) as (c & E & F & G). exists (4 * 2 * c ^ 3). split; [exact E|].
  assert (c <> 0) by (intros ->; lra). assert (0 < c ^ 3) by (apply pow_lt; lra). lra.
Qed.

Section U.
Variable F : phys.
Hypothesis OK : phys_ok F.
Let Hc : 0 < p_c F. Proof. apply OK. Qed.
Let Hhb : 0 < p_hbar F. Proof. apply OK. Qed.
Let HG : 0 < p_G F. Proof. apply OK. Qed.
Let Hk : 0 < p_kB F. Proof. apply OK. Qed.
Let He : 0 < p_e F. Proof. apply OK. Qed.
Let Hpc : 0 < p_parsec F. Proof. apply OK. Qed.
Let HPI : 0 < PI := PI_RGT_0.

Ltac pos := repeat first [assumption | apply Rdiv_lt_0_compat | apply pow_lt | apply Rmult_lt_0_compat | lra].
Lemma Mpc_pos : 0 < u_Mpc_m F. Proof. unfold u_Mpc_m, mega. pos. Qed.
Lemma tp_pos : 0 < u_tp_s F. Proof. unfold u_tp_s. apply sqrt_lt_R0. pos. Qed.
Lemma lp_pos : 0 < u_lp_m F. Proof. unfold u_lp_m. apply sqrt_lt_R0. pos. Qed.
Lemma mp_pos : 0 < u_mp_kg F. Proof. unfold u_mp_kg. apply sqrt_lt_R0. pos. Qed.
Lemma Tp_pos : 0 < u_Tp_K F. Proof. unfold u_Tp_K. apply sqrt_lt_R0. pos. Qed.
Lemma aB_pos : 0 < u_a_B F. Proof. unfold u_a_B. pos. Qed.
Lemma Tnu_pos : 0 < p_T_nu_TCMB. Proof. unfold p_T_nu_TCMB, pypow. destruct (Rlt_dec 0 (4/11)); [|lra]. apply exp_pos. Qed.
Lemma rho_r_pos : 0 < p_rho_r0 F.
Proof.
  pose proof aB_pos. pose proof Tnu_pos. unfold p_rho_r0, p_rho_nu0, p_rho_gamma0, p_N_eff, p_T_CMB_K.
  apply Rplus_lt_0_compat; pos.
Qed.

(** ** C67: reduced Planck units *)
Lemma sqrt_eq x y : 0 < y -> x = y * y -> sqrt x = y.
Proof. intros Hy ->. apply sqrt_square. lra. Qed.
Theorem C67_planck_units :
  u_lp_m F = p_c F * u_tp_s F /\
  p_hbar F = u_mp_kg F * p_c F * u_lp_m F /\
  p_kB F * u_Tp_K F = u_mp_kg F * p_c F ^ 2 /\
  8 * PI * p_G F = u_lp_m F ^ 3 / (u_mp_kg F * u_tp_s F ^ 2).
Proof.
  assert (S : u_lp_m F = p_c F * u_tp_s F).
  { unfold u_lp_m. apply sqrt_eq; [pose proof tp_pos; pos|].
    unfold u_tp_s. replace (p_c F * sqrt (8 * PI * p_G F * p_hbar F / p_c F ^ 5) * (p_c F * sqrt (8 * PI * p_G F * p_hbar F / p_c F ^ 5)))
      with (p_c F ^ 2 * (sqrt (8 * PI * p_G F * p_hbar F / p_c F ^ 5) * sqrt (8 * PI * p_G F * p_hbar F / p_c F ^ 5))) by ring.
    rewrite sqrt_sqrt by (apply Rlt_le; pos). field. lra. }
  assert (Tt : u_tp_s F * u_tp_s F = 8 * PI * p_G F * p_hbar F / p_c F ^ 5) by (apply sqrt_sqrt; apply Rlt_le; pos).
  assert (M : u_mp_kg F = p_hbar F / (p_c F * u_lp_m F)).
  { unfold u_mp_kg. apply sqrt_eq; [pose proof lp_pos; pos|]. rewrite S.
    replace (p_hbar F / (p_c F * (p_c F * u_tp_s F)) * (p_hbar F / (p_c F * (p_c F * u_tp_s F))))
      with (p_hbar F ^ 2 / (p_c F ^ 4 * (u_tp_s F * u_tp_s F))) by (pose proof tp_pos; field; lra).
    rewrite Tt. field. repeat split; lra. }
  assert (T : u_Tp_K F = u_mp_kg F * p_c F ^ 2 / p_kB F).
  { unfold u_Tp_K. apply sqrt_eq; [pose proof mp_pos; pos|].
    replace (u_mp_kg F * p_c F ^ 2 / p_kB F * (u_mp_kg F * p_c F ^ 2 / p_kB F)) with ((u_mp_kg F * u_mp_kg F) * p_c F ^ 4 / p_kB F ^ 2) by (field; lra).
    replace (u_mp_kg F * u_mp_kg F) with (p_hbar F * p_c F / (8 * PI * p_G F)) by (symmetry; apply sqrt_sqrt; apply Rlt_le; pos).
    field. repeat split; lra. }
  pose proof lp_pos as LP. pose proof tp_pos as TP. pose proof mp_pos as MP.
  split; [exact S|]. split; [rewrite M; field; lra|]. split; [rewrite T; field; lra|].
  rewrite M, S. replace ((p_c F * u_tp_s F) ^ 3 / (p_hbar F / (p_c F * (p_c F * u_tp_s F)) * u_tp_s F ^ 2))
    with (p_c F ^ 5 * (u_tp_s F * u_tp_s F) / p_hbar F) by (field; lra).
  rewrite Tt. field. repeat split; lra.
Qed.
Theorem C67_GeV_units :
  u_mp_GeV F * u_lp_iGeV F = 1 /\ u_tp_iGeV F = u_lp_iGeV F /\ u_mp_GeV F * u_tp_iGeV F = 1.
Proof.
  destruct C67_planck_units as (S & M & _). pose proof lp_pos. pose proof tp_pos. pose proof mp_pos.
  assert (A : u_mp_GeV F * u_lp_iGeV F = 1).
  { unfold u_mp_GeV, u_lp_iGeV, giga. set (g := (10:R) ^ 9). assert (g <> 0) by (unfold g; apply pow_nonzero; lra).
    replace (u_mp_kg F * p_c F ^ 2 / (g * p_e F) * (u_lp_m F / p_hbar F / p_c F * g * p_e F)) with (u_mp_kg F * p_c F * u_lp_m F / p_hbar F) by (field; repeat split; lra).
    rewrite <- M. field. lra. }
  assert (B : u_tp_iGeV F = u_lp_iGeV F).
  { unfold u_tp_iGeV, u_lp_iGeV. rewrite S. field. lra. }
  split; [exact A|]. split; [exact B|]. rewrite B. exact A.
Qed.
(** conversion of an energy density between GeV^4 and reduced Planck units, as used by calibrate_scale_factor *)
Theorem C67_density_conversion :
  forall rho, 0 < rho ->
  rho ^ 4 / u_mp_GeV F * u_lp_iGeV F ^ 3 = (rho / u_mp_GeV F) ^ 4 /\
  pypow (rho ^ 4 / u_mp_GeV F * u_lp_iGeV F ^ 3 * u_mp_GeV F / u_lp_iGeV F ^ 3) (1/4) = rho.
Proof.
  intros rho Hr. destruct C67_GeV_units as (A & _).
  assert (MP : 0 < u_mp_GeV F) by (unfold u_mp_GeV, giga; pose proof mp_pos; pos).
  assert (E : u_lp_iGeV F = / u_mp_GeV F) by (apply Rmult_eq_reg_l with (u_mp_GeV F); [rewrite A; field; lra|lra]).
  rewrite E. split; [field; lra|].
  replace (rho ^ 4 / u_mp_GeV F * (/ u_mp_GeV F) ^ 3 * u_mp_GeV F / (/ u_mp_GeV F) ^ 3) with (rho ^ 4) by (field; lra).
  unfold pypow. destruct (Rlt_dec 0 (rho ^ 4)) as [_|X]; [|exfalso; apply X; pos].
  rewrite <- Rpower_pow by exact Hr. rewrite Rpower_mult. replace (INR 4 * (1 / 4)) with 1 by (cbn; field). apply Rpower_1; exact Hr.
Qed.
(** the constants derived from positive fundamental constants satisfy the hypothesis of the calibration theorems *)
Theorem C67_calibration_constants : forall eg z3, consts_ok (consts_of F eg z3).
Proof.
  intros eg z3. unfold consts_ok, consts_of; cbn. pose proof mp_pos. pose proof lp_pos. pose proof Tp_pos. pose proof Tnu_pos. pose proof Mpc_pos.
  unfold p_K_STAR, u_mp_GeV, u_lp_iGeV, p_T_CMB_Tp, p_T_CMB_K, p_g0, p_N_eff, giga.
  repeat split; try assumption; try lra; try pos.
  apply Rplus_lt_0_compat; [lra|]. pos.
Qed.

(** ** C63: H0 and a0 *)
Theorem C63_H0_units :
  forall h, exists Hp Hh Hs, get_H0 F h "planck" = Ok Hp /\ get_H0 F h "H0" = Ok Hh /\ get_H0 F h "SI" = Ok Hs /\
  Hh = 100 * h /\ Hs = Hh * 1000 / u_Mpc_m F /\ Hp = Hs * u_tp_s F.
Proof.
  intros h. pose proof Mpc_pos. do 3 eexists. split; [reflexivity|]. split; [reflexivity|]. split; [reflexivity|].
  repeat split; field; lra.
Qed.
Theorem C63_unknown_units :
  forall h k u, k <> 0 -> u <> "planck" -> u <> "SI" ->
  (u <> "H0" -> get_H0 F h u = Raise NotImplementedError) /\ (u <> "Mpc" -> get_a0 F h k u = Raise NotImplementedError).
Proof.
  intros h k u Hk0 U1 U2. apply String.eqb_neq in U1. apply String.eqb_neq in U2. split; intros U3; apply String.eqb_neq in U3.
  - unfold get_H0. rewrite U1, U2, U3. reflexivity.
  - unfold get_a0. destruct (Req_EM_T k 0); [contradiction|]. cbn [get_H0 String.eqb Ascii.eqb Bool.eqb bind]. cbv zeta. rewrite U1, U2, U3. reflexivity.
Qed.
Definition Kof (k : R) : R := if Rlt_dec 0 k then -1 else 1.
Theorem C63_scale_factor_today :
  forall h k, 0 < h -> k <> 0 -> exists H0 a0 aM aS,
  get_H0 F h "planck" = Ok H0 /\ get_a0 F h k "planck" = Ok a0 /\ get_a0 F h k "Mpc" = Ok aM /\ get_a0 F h k "SI" = Ok aS /\
  0 < a0 /\ k = - Kof k / (a0 * H0) ^ 2 /\ aS = a0 * u_lp_m F /\ aS = aM * u_Mpc_m F.
Proof.
  intros h k Hh Hk0. pose proof Mpc_pos as MP. pose proof tp_pos as TP.
  assert (E : forall u, get_a0 F h k u = let a0 := sqrt (- - np_sign k / k) / (h * 100000 / u_Mpc_m F * u_tp_s F) in
    if String.eqb u "planck" then Ok a0 else if String.eqb u "Mpc" then Ok (a0 * u_lp_m F / u_Mpc_m F) else if String.eqb u "SI" then Ok (a0 * u_lp_m F) else Raise NotImplementedError).
  { intros u. unfold get_a0. destruct (Req_EM_T k 0); [contradiction|]. reflexivity. }
  eexists _, _, _, _. split; [reflexivity|]. rewrite !E. cbn [String.eqb Ascii.eqb Bool.eqb]. cbv zeta.
  split; [reflexivity|]. split; [reflexivity|]. split; [reflexivity|].
  assert (Q : 0 < - - np_sign k / k).
  { unfold np_sign. destruct (Rlt_dec 0 k); [rewrite Ropp_involutive; apply Rdiv_lt_0_compat; lra|].
    destruct (Rlt_dec k 0); [|lra]. replace (- - -1 / k) with (1 / - k) by (field; lra). apply Rdiv_lt_0_compat; lra. }
  assert (H0p : 0 < h * 100000 / u_Mpc_m F * u_tp_s F) by pos.
  set (H0 := h * 100000 / u_Mpc_m F * u_tp_s F) in *.
  split; [apply Rdiv_lt_0_compat; [apply sqrt_lt_R0; exact Q|exact H0p]|].
  split; [|split; [reflexivity|field; lra]].
  replace (sqrt (- - np_sign k / k) / H0 * H0) with (sqrt (- - np_sign k / k)) by (field; lra).
  replace (sqrt (- - np_sign k / k) ^ 2) with (sqrt (- - np_sign k / k) * sqrt (- - np_sign k / k)) by ring.
  rewrite sqrt_sqrt by lra. unfold Kof, np_sign in *. destruct (Rlt_dec 0 k); [field; lra|]. destruct (Rlt_dec k 0); [field; lra|lra].
Qed.
(** flat universes: the value 1 is returned for every unit string, even an unknown one *)
Theorem C63_flat : forall h u, get_a0 F h 0 u = Ok 1.
Proof. intros h u. unfold get_a0. destruct (Req_EM_T 0 0); [reflexivity|lra]. Qed.
(** the calibration with Omega_K0 (inflation.py:749-751, Model/Calibrate.v) and get_a0 agree on a0 *)
Theorem C63_matches_calibration :
  forall h k, 0 < h -> k <> 0 -> exists aM a0, get_a0 F h k "Mpc" = Ok aM /\ get_a0 F h k "planck" = Ok a0 /\
  p_c F / (h * 100 * 1000) * sqrt (- Kof k / k) = aM /\ aM * u_Mpc_m F / u_lp_m F = a0.
Proof.
  intros h k Hh Hk0. destruct C67_planck_units as (S & _). pose proof Mpc_pos as MP. pose proof tp_pos as TP. pose proof lp_pos as LP.
  unfold get_a0. destruct (Req_EM_T k 0); [contradiction|]. cbn [get_H0 String.eqb Ascii.eqb Bool.eqb bind]. cbv zeta.
  eexists _, _. split; [reflexivity|]. split; [reflexivity|].
  replace (- Kof k) with (- - np_sign k).
  2:{ unfold Kof, np_sign. destruct (Rlt_dec 0 k); [lra|]. destruct (Rlt_dec k 0); lra. }
  split; [rewrite S; field; lra|field; lra].
Qed.

(** ** Hubble parameter *)
Lemma Or_val h : 0 < h -> exists r, get_Omega_r0 F h = Ok r /\ 0 < r.
Proof.
  intros Hh. eexists. split; [reflexivity|]. pose proof rho_r_pos. pose proof Mpc_pos. pos.
Qed.
Lemma H0_pos h u H0 : 0 < h -> get_H0 F h u = Ok H0 -> 0 < H0.
Proof.
  intros Hh. unfold get_H0. pose proof Mpc_pos. pose proof tp_pos.
  destruct (String.eqb u "planck"); [intros [= <-]; pos|]. destruct (String.eqb u "H0"); [intros [= <-]; pos|].
  destruct (String.eqb u "SI"); [intros [= <-]; pos|discriminate].
Qed.
Lemma a0_val h k : 0 < h -> exists a0, get_a0 F h k "planck" = Ok a0 /\ 0 < a0.
Proof.
  intros Hh. destruct (Req_dec k 0) as [->|Hk0].
  - exists 1. rewrite C63_flat. split; [reflexivity|lra].
  - destruct (C63_scale_factor_today h k Hh Hk0) as (H0 & a0 & _ & _ & _ & E & _ & _ & P & _). exists a0. split; assumption.
Qed.
(** what a successful call computes *)
Lemma hubble_val N m k h u w v : 0 < h -> Hubble_parameter F N m k h u = Ok (w, v) ->
  exists H0 r a0 nbb rec, get_H0 F h u = Ok H0 /\ get_Omega_r0 F h = Ok r /\ get_a0 F h k "planck" = Ok a0 /\
  no_Big_Bang_line m = Ok nbb /\ expand_recollapse_line m = Ok rec /\
  0 < H0 /\ 0 < r /\ 0 < a0 /\ 1 - r - m - k <= nbb /\ 0 <= m /\
  (w = true <-> 1 - r - m - k < rec) /\
  v = fmul (Fin H0) (fsqrt (Fin (E2 r m k (1 - r - m - k) (exp (ln a0 - N))))).
Proof.
  intros Hh E. unfold Hubble_parameter in E. destruct (get_H0 F h u) as [H0|e] eqn:EH; [|discriminate].
  destruct (Or_val h Hh) as (r & Er & Pr). destruct (a0_val h k Hh) as (a0 & Ea & Pa). rewrite Er, Ea in E. cbn [bind] in E.
  destruct (no_Big_Bang_line m) as [nbb|e] eqn:En; [|discriminate]. cbn [bind] in E.
  destruct (Rlt_dec nbb (1 - r - m - k)) as [?|L]; [discriminate|].
  destruct (expand_recollapse_line m) as [rec|e] eqn:Ee; [|discriminate]. cbn [bind] in E. injection E as <- <-.
  exists H0, r, a0, nbb, rec. repeat split; try assumption; try reflexivity.
  - apply (H0_pos h u); assumption.
  - lra.
  - destruct (Rle_dec 0 m) as [?|X]; [assumption|]. rewrite C60_negative_matter in En by lra. discriminate.
  - destruct (Rlt_dec _ _); [tauto|discriminate].
  - destruct (Rlt_dec _ _); [reflexivity|contradiction].
Qed.
Lemma E2_rad_pos r m k nbb x : 0 < r -> 0 <= m -> no_Big_Bang_line m = Ok nbb -> 1 - r - m - k <= nbb -> 1 <= x ->
  0 < E2 r m k (1 - r - m - k) x.
Proof.
  intros Pr Pm En L Hx. destruct (C60_no_big_bang_line m Pm) as (l & El & B). rewrite En in El. injection El as <-.
  destruct (B (1 - r - m - k)) as [B1 _]. specialize (B1 L x Hx).
  assert (D : E2 r m k (1 - r - m - k) x = E2 0 m (1 - m - (1 - r - m - k)) (1 - r - m - k) x + r * (x ^ 4 - x ^ 2)) by (unfold E2; ring).
  destruct Hx as [Hx|<-].
  - rewrite D. assert (0 < r * (x ^ 4 - x ^ 2)); [|lra]. apply Rmult_lt_0_compat; [lra|].
    replace (x ^ 4 - x ^ 2) with (x ^ 2 * ((x - 1) * (x + 1))) by ring. pos.
  - unfold E2. lra.
Qed.
(** C62: H is a positive real number today and at every earlier time *)
Theorem C62_real_in_the_past :
  forall N m k h u w v a0, 0 < h -> Hubble_parameter F N m k h u = Ok (w, v) -> get_a0 F h k "planck" = Ok a0 -> N <= ln a0 ->
  exists H, v = Fin H /\ 0 < H.
Proof.
  intros N m k h u w v a0 Hh E Ea HN. destruct (hubble_val N m k h u w v Hh E) as (H0 & r & a1 & nbb & rec & E1 & E2' & E3 & E4 & E5 & P1 & P2 & P3 & L & Pm & _ & ->).
  rewrite Ea in E3. injection E3 as <-.
  assert (X : 1 <= exp (ln a0 - N)).
  { destruct HN as [HN| ->]; [|rewrite Rminus_diag_eq by reflexivity; rewrite exp_0; lra].
    rewrite <- exp_0. apply Rlt_le, exp_increasing. lra. }
  pose proof (E2_rad_pos r m k nbb _ P2 Pm E4 L X) as P. cbn [fsqrt]. destruct (Rlt_dec _ 0) as [Y|_]; [lra|].
  cbn [fmul]. eexists. split; [reflexivity|]. apply Rmult_lt_0_compat; [exact P1|apply sqrt_lt_R0; exact P].
Qed.
(** C59: today's value *)
Theorem C59_today :
  forall m k h u w v a0, 0 < h -> get_a0 F h k "planck" = Ok a0 -> Hubble_parameter F (ln a0) m k h u = Ok (w, v) ->
  exists H0, get_H0 F h u = Ok H0 /\ v = Fin H0.
Proof.
  intros m k h u w v a0 Hh Ea E. destruct (hubble_val _ m k h u w v Hh E) as (H0 & r & a1 & nbb & rec & E1 & E2' & E3 & E4 & E5 & P1 & P2 & P3 & L & Pm & _ & ->).
  rewrite Ea in E3. injection E3 as <-. exists H0. split; [exact E1|].
  replace (ln a0 - ln a0) with 0 by ring. rewrite exp_0.
  replace (E2 r m k (1 - r - m - k) 1) with 1 by (unfold E2; ring). cbn [fsqrt]. destruct (Rlt_dec 1 0); [lra|]. rewrite sqrt_1. cbn. f_equal. ring.
Qed.
(** the Friedmann equation with the density parameters of the call *)
Theorem C59_friedmann :
  forall N m k h u w v H, 0 < h -> Hubble_parameter F N m k h u = Ok (w, v) -> v = Fin H ->
  exists H0 r a0, get_H0 F h u = Ok H0 /\ get_Omega_r0 F h = Ok r /\ get_a0 F h k "planck" = Ok a0 /\
  H ^ 2 = H0 ^ 2 * E2 r m k (1 - r - m - k) (a0 / exp N).
Proof.
  intros N m k h u w v H Hh E Ev. destruct (hubble_val _ m k h u w v Hh E) as (H0 & r & a1 & nbb & rec & E1 & E2' & E3 & E4 & E5 & P1 & P2 & P3 & L & Pm & _ & V).
  rewrite Ev in V. exists H0, r, a1. split; [exact E1|]. split; [exact E2'|]. split; [exact E3|].
  assert (X : exp (ln a1 - N) = a1 / exp N) by (unfold Rminus; rewrite exp_plus, exp_ln, exp_Ropp by exact P3; reflexivity).
  rewrite X in V. cbn [fsqrt] in V. destruct (Rlt_dec _ 0) as [?|G] in V; [discriminate|]. cbn in V. injection V as ->.
  rewrite Rpow_mult_distr. f_equal. rewrite <- Rsqr_pow2. apply Rsqr_sqrt. lra.
Qed.
End U.
