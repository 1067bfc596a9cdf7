(** C67, C59, C63, continued: the radiation constant, the critical density and nucleosynthesis,
    stated against textbook formulas. *)
From Coq Require Import Reals List String Bool Lra.
From Coquelicot Require Import Coquelicot.
From Verif Require Import Base Model.Float Model.Equations Model.ApproxPower Model.BigBang Spec.BigBangSpec Properties.BigBangProps.
Import ListNotations.
Open Scope R_scope.
Open Scope string_scope.

(** the energy density of black-body radiation, pi^2/15 (k_B T)^4 / (hbar c)^3 *)
Definition black_body (F : phys) (T : R) : R := PI ^ 2 / 15 * (p_kB F * T) ^ 4 / (p_hbar F * p_c F) ^ 3.
(** neutrinos: N_eff species with 7/8 the photon density at (4/11)^(1/3) of the temperature *)
Definition neutrinos (F : phys) (Neff T Tnu : R) : R := 7 / 8 * Neff * black_body F Tnu.

Section Rad.
Variable F : phys.
Hypothesis OK : phys_ok F.
Let Hc : 0 < p_c F. Proof. apply OK. Qed.
Let Hhb : 0 < p_hbar F. Proof. apply OK. Qed.
Let HG : 0 < p_G F. Proof. apply OK. Qed.
Let Hk : 0 < p_kB F. Proof. apply OK. Qed.
Let HPI : 0 < PI := PI_RGT_0.

Theorem C67_radiation_constant :
  (forall T, u_a_B F * T ^ 4 = black_body F T) /\
  (* Stefan-Boltzmann: a_B = 4 sigma / c with sigma = 2 pi^5 k^4 / (15 h^3 c^2), h = 2 pi hbar *)
  u_a_B F = 4 / p_c F * (2 * PI ^ 5 * p_kB F ^ 4 / (15 * (2 * PI * p_hbar F) ^ 3 * p_c F ^ 2)) /\
  (* in reduced Planck units it is the number pi^2/15 *)
  u_a_B F * u_Tp_K F ^ 4 * u_lp_m F ^ 3 / (u_mp_kg F * p_c F ^ 2) = PI ^ 2 / 15.
Proof.
  split; [intros T; unfold u_a_B, black_body; field; repeat split; lra|].
  split; [unfold u_a_B; field; repeat split; lra|].
  destruct (C67_planck_units F OK) as (S & M & T & _). pose proof (lp_pos F OK) as LP. pose proof (mp_pos F OK) as MP.
  assert (T' : u_Tp_K F = u_mp_kg F * p_c F ^ 2 / p_kB F) by (rewrite <- T; field; lra).
  rewrite T'. unfold u_a_B. rewrite M. field. repeat split; lra.
Qed.

(** T_nu / T_CMB is the real cube root of 4/11 *)
Theorem C67_neutrino_temperature : 0 < p_T_nu_TCMB /\ p_T_nu_TCMB ^ 3 = 4 / 11 /\
  p_T_nu_K = p_T_nu_TCMB * p_T_CMB_K /\ p_T_nu_Tp F * u_Tp_K F = p_T_nu_K /\ p_T_CMB_Tp F * u_Tp_K F = p_T_CMB_K.
Proof.
  split; [apply Tnu_pos|]. split.
  - unfold p_T_nu_TCMB, pypow. destruct (Rlt_dec 0 (4/11)); [|lra].
    rewrite <- Rpower_pow by apply exp_pos. rewrite Rpower_mult. replace (1 / 3 * INR 3) with 1 by (cbn; field). apply Rpower_1. lra.
  - pose proof (Tp_pos F OK). unfold p_T_nu_Tp, p_T_CMB_Tp. repeat split; field; lra.
Qed.

(** the radiation density today: photons at T_CMB plus N_eff neutrino species, as a mass density and in
    reduced Planck units; the entropy degrees of freedom g0 *)
Theorem C67_radiation_today : p_T_CMB_K = 2.72548 /\ p_N_eff = 3.044 /\
  p_rho_r0 F * p_c F ^ 2 = black_body F p_T_CMB_K + neutrinos F p_N_eff p_T_CMB_K p_T_nu_K /\
  p_rho_r0_mp_ilp3 F = PI ^ 2 / 15 * (p_T_CMB_Tp F ^ 4 + 7 / 8 * p_N_eff * p_T_nu_Tp F ^ 4) /\
  p_g0 = 2 + 7 / 8 * 2 * p_N_eff * (4 / 11).
Proof.
  destruct C67_radiation_constant as (A & _ & B). destruct C67_neutrino_temperature as (TN & T3 & TK & TT & TC).
  pose proof (lp_pos F OK) as LP. pose proof (mp_pos F OK) as MP. pose proof (Tp_pos F OK) as TP.
  split; [unfold p_T_CMB_K; lra|]. split; [unfold p_N_eff; lra|]. split; [|split].
  - unfold p_rho_r0, p_rho_nu0, p_rho_gamma0, neutrinos. rewrite <- !A. unfold p_T_nu_K. field. lra.
  - unfold p_rho_r0_mp_ilp3, p_rho_r0, p_rho_nu0, p_rho_gamma0. rewrite <- B. unfold p_T_CMB_Tp, p_T_nu_Tp, p_T_nu_K. field. repeat split; lra.
  - unfold p_g0. rewrite T3. reflexivity.
Qed.

(** the pivot scale is 0.05 per Mpc = 10^6 parsec *)
Theorem C67_megaparsec : u_Mpc_m F = 1000000 * p_parsec F /\ p_K_STAR = 0.05 /\ p_K_STAR_lp F * u_Mpc_m F = p_K_STAR * u_lp_m F.
Proof.
  split; [unfold u_Mpc_m, mega; ring|]. split; [unfold p_K_STAR; lra|]. pose proof (Mpc_pos F OK). unfold p_K_STAR_lp. field. lra.
Qed.

(** C59: the Friedmann equation of a flat universe, H0^2 = 8 pi G/3 rho_crit (SI) and H0^2 = rho_crit/3
    in reduced Planck units; Omega_r0 = rho_r0 / rho_crit *)
Theorem C59_critical_density : forall h, 0 < h -> exists Hs Hp rc Or,
  get_H0 F h "SI" = Ok Hs /\ get_H0 F h "planck" = Ok Hp /\ get_rho_crit_kg_im3 F h = Ok rc /\ get_Omega_r0 F h = Ok Or /\
  0 < rc /\ Hs ^ 2 = 8 * PI * p_G F / 3 * rc /\ Hp ^ 2 = (rc / u_mp_kg F * u_lp_m F ^ 3) / 3 /\
  Or * rc = p_rho_r0 F /\ Or * (3 * Hp ^ 2) = p_rho_r0_mp_ilp3 F.
Proof.
  intros h Hh. pose proof (Mpc_pos F OK) as MP. pose proof (tp_pos F OK) as TP. pose proof (lp_pos F OK) as LP. pose proof (mp_pos F OK) as KP.
  do 4 eexists. split; [reflexivity|]. split; [reflexivity|]. split; [reflexivity|]. split; [reflexivity|].
  destruct (C67_planck_units F OK) as (_ & _ & _ & G8).
  assert (RP : 0 < 3 * (h * 100000 / u_Mpc_m F) ^ 2 / (8 * PI * p_G F)).
  { apply Rdiv_lt_0_compat; [apply Rmult_lt_0_compat; [lra|apply pow_lt; apply Rdiv_lt_0_compat; lra]|].
    apply Rmult_lt_0_compat; lra. }
  split; [exact RP|]. split; [field; repeat split; lra|]. split; [|split].
  - rewrite G8. field. repeat split; lra.
  - field. repeat split; lra.
  - unfold p_rho_r0_mp_ilp3. rewrite G8. field. repeat split; lra.
Qed.

(** C63: nucleosynthesis happens at redshift 10^9: a0 / a_BBN = 1 + z *)
Theorem C63_N_BBN : forall h OK0, 0 < h -> exists a0 N, get_a0 F h OK0 "planck" = Ok a0 /\ get_N_BBN F h OK0 = Ok N /\
  a0 / exp N - 1 = 1000000000.
Proof.
  intros h k Hh.
  assert (A : exists a0, get_a0 F h k "planck" = Ok a0 /\ 0 < a0).
  { destruct (Req_dec k 0) as [->|Hk0]; [exists 1; split; [apply C63_flat|lra]|].
    destruct (C63_scale_factor_today F OK h k Hh Hk0) as (H0 & a0 & aM & aS & _ & E & _ & _ & P & _). exists a0. split; assumption. }
  destruct A as (a0 & E & P). exists a0. unfold get_N_BBN. rewrite E. cbn [bind]. eexists. split; [reflexivity|]. split; [reflexivity|].
  unfold p_z_BBN. rewrite exp_ln.
  - set (z := 10 ^ 9). replace z with 1000000000 by (unfold z; ring). field. lra.
  - apply Rdiv_lt_0_compat; [exact P|]. assert (0 < 10 ^ 9) by (apply pow_lt; lra). lra.
Qed.
End Rad.
Theorem C67_radiation_nonvacuous : phys_ok (mkphys 1 1 1 1 1 1).
Proof. unfold phys_ok; cbn. repeat split; lra. Qed.
